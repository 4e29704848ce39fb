(** Connectivity extraction: src/utility/ELayoutConnectivity.cpp.

    A shape is an element of a parameter type; the extractor of 3rdparty/generic (who touches whom, connected
    components) is a parameter.  [extractor.AddObject] numbers its objects 0, 1, ... *)
From Verif Require Import Base Net_Model.
Open Scope res_scope.
Local Open Scope list_scope.

Section Connect.
  Context {G : Type}.

  (** a primitive with its layer (and, for a text, what it says and its box); bond wires take no part *)
  Inductive cprim := CGeom (layer : Z) (g : G) | CText (layer : Z) (s : string) (g : G) | COther.
  (** a padstack instance: its layer range and its shape on a layer (EPadstackInst::GetLayerShape) *)
  Record cpad := { cp_top : Z; cp_bot : Z; cp_shape : Z -> option G }.
  Inductive owner := OPrim (i : nat) | OPad (i : nat).

  (** ELayoutConnectivity.cpp:25-33; for an empty stack-up [size() - 1] wraps and the loop reads past the end *)
  Fixpoint links (ls : list Z) : list (Z * Z) :=
    match ls with a :: ((b :: _) as ls') => (a, b) :: links ls' | _ => [] end.

  (** the objects given to the extractor so far, the text labels and the connection objects of their numbers *)
  Record cstate := { c_objs : list (Z * G); c_texts : list (nat * string); c_conn : list (nat * owner) }.
  Definition c_init : cstate := {| c_objs := []; c_texts := []; c_conn := [] |}.
  Definition add_object (s : cstate) (l : Z) (g : G) : cstate * nat :=
    ({| c_objs := c_objs s ++ [(l, g)]; c_texts := c_texts s; c_conn := c_conn s |}, List.length (c_objs s)).

  (** 46-72 *)
  Definition add_prim (s : cstate) (i : nat) (p : cprim) : cstate :=
    match p with
    | CGeom l g =>
        let (s', k) := add_object s l g in
        {| c_objs := c_objs s'; c_texts := c_texts s'; c_conn := aemplace Nat.eqb k (OPrim i) (c_conn s') |}
    | CText l t g =>
        let (s', k) := add_object s l g in
        {| c_objs := c_objs s'; c_texts := c_texts s' ++ [(k, t)]; c_conn := aemplace Nat.eqb k (OPrim i) (c_conn s') |}
    | COther => s
    end.
  Fixpoint add_prims (s : cstate) (i : nat) (ps : list cprim) : cstate :=
    match ps with [] => s | p :: ps' => add_prims (add_prim s i p) (S i) ps' end.

  (** 80-95: the loop over the layers of one instance; [n] counts the layers left *)
  Fixpoint add_layers (s : cstate) (i : nat) (p : cpad) (l : Z) (added : bool) (n : nat) : cstate :=
    match n with
    | O => s
    | S n' =>
        match cp_shape p l with
        | None => add_layers s i p (l + 1) added n'
        | Some g =>
            let (s', k) := add_object s l g in
            if added then add_layers s' i p (l + 1) added n'
            else add_layers {| c_objs := c_objs s'; c_texts := c_texts s'; c_conn := aemplace Nat.eqb k (OPad i) (c_conn s') |} i p (l + 1) true n'
        end
    end.
  Fixpoint add_pads (s : cstate) (i : nat) (ps : list cpad) : cstate :=
    match ps with
    | [] => s
    | p :: ps' => add_pads (add_layers s i p (cp_top p) false (Z.to_nat (cp_bot p - cp_top p + 1))) (S i) ps'
    end.

  (** 105-117 *)
  Fixpoint label (texts : list (nat * string)) (c : list nat) : string :=
    match c with
    | [] => ""%string
    | k :: c' => match alookup Nat.eqb k texts with Some t => t | None => label texts c' end
    end.
  (** 118-124 *)
  Definition assign (conn : list (nat * owner)) (id : Z) (c : list nat) : list (owner * Z) :=
    flat_map (fun k => match alookup Nat.eqb k conn with Some o => [(o, id)] | None => [] end) c.
  Fixpoint add_nets (s : cstate) (nc : netcoll) (cc : list (list nat)) : res (netcoll * list (owner * Z)) :=
    match cc with
    | [] => Ok (nc, [])
    | c :: cc' =>
        let base := if String.eqb (label (c_texts s) c) ""%string then "Auto_Net"%string else label (c_texts s) c in
        name <- nc_next_name nc base ;;
        match nc_create nc name with
        | (nc', Some x) => r <- add_nets s nc' cc' ;; Ok (fst r, assign (c_conn s) (net_id x) c ++ snd r)
        | (_, None) => UB
        end
    end.

  Context (components : list (Z * Z) -> list (Z * G) -> list (list nat)).
  (** 19-125: the nets afterwards and the calls of SetNet *)
  Definition connectivity (nc : netcoll) (stack : list Z) (prims : list cprim) (pads : list cpad) : res (netcoll * list (owner * Z)) :=
    match stack with
    | [] => UB
    | _ =>
        let s := add_pads (add_prims c_init 0 prims) 0 pads in
        add_nets s (nc_clear nc) (components (links stack) (c_objs s))
    end.
  (** the net of an object afterwards; one not set keeps the net it had *)
  Definition owner_eqb (a b : owner) : bool :=
    match a, b with OPrim i, OPrim j => Nat.eqb i j | OPad i, OPad j => Nat.eqb i j | _, _ => false end.
  Definition net_after (before : owner -> Z) (sets : list (owner * Z)) (o : owner) : Z :=
    fold_left (fun n x => if owner_eqb o (fst x) then snd x else n) sets (before o).
End Connect.
Arguments cprim : clear implicits.
Arguments cpad : clear implicits.
