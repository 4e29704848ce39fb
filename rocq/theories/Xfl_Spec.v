From Verif Require Import Base QSum Names_Model Net_Model LayerMap_Model Layers_Model Xfl_Model.

(** ** Layers *)
Definition is_metal (x : file_layer) : bool := match fl_kind x with Dielectric => false | _ => true end.
(** number of metal layers among the first [i] layers of the file *)
Definition metals_before (xs : list file_layer) (i : nat) : nat := List.length (filter is_metal (firstn i xs)).

(** ** Routes *)
(** the values of the longest prefix on which [f] is defined *)
Fixpoint run {A B} (f : A -> option B) (l : list A) : list B :=
  match l with
  | x :: l' => match f x with Some b => b :: run f l' | None => [] end
  | [] => []
  end.
Fixpoint somes {A} (l : list (option A)) : list A :=
  match l with [] => [] | Some a :: l' => a :: somes l' | None :: l' => somes l' end.
(** every element with what follows it *)
Fixpoint with_rest {A} (l : list A) : list (A * list A) :=
  match l with [] => [] | x :: l' => (x, l') :: with_rest l' end.

Section Spec.
  Context {S : Type}.
  (** what a route is turned into, via instances without their names *)
  Inductive thing :=
  | TShape (layer net : Z) (s : S)
  | THoles (layer net : Z) (outline : S) (holes : list S)
  | TPath (layer net : Z) (s : S)
  | TVia (def : string) (net top bot : Z).
  Definition nameless (i : item S) : thing :=
    match i with
    | IShape l n s => TShape l n s | IHoles l n o hs => THoles l n o hs | IPath l n s => TPath l n s
    | IVia _ d n t b => TVia d n t b
    end.
  Definition via_name (i : item S) : option string := match i with IVia n _ _ _ _ => Some n | _ => None end.
  Definition via_names (l : list (item S)) : list string := somes (map via_name l).

  (** the void shapes on layer [l]; a void whose template is unknown counts, with no shape *)
  Definition void_on (l : Z) (o : obj S) : option (option S) :=
    match o with OShape true l' s => if (l' =? l)%Z then Some s else None | _ => None end.
  Definition known_void_on (l : Z) (o : obj S) : option S :=
    match void_on l o with Some (Some s) => Some s | _ => None end.

  (** wanted: the shapes of the maximal run of voids on the same layer after a shape *)
  Definition wanted_holes (o : obj S) (rest : list (obj S)) : list S :=
    match o with
    | OShape false l _ => somes (run (void_on l) rest)
    | OAnnular l _ => somes (run (void_on l) rest)
    | _ => []
    end.
  (** what the importer takes: the run stops at a void with an unknown template, annular rings take nothing *)
  Definition taken_holes (o : obj S) (rest : list (obj S)) : list S :=
    match o with OShape false l _ => run (known_void_on l) rest | _ => [] end.

  Context (valid : S -> bool) (contour : S -> S) (holes_valid : S -> list S -> bool).
  Context (metal : list (Z * Z)) (via_defs : list string) (net : Z).
  Definition with_holes (id : Z) (s : S) (hs : list S) : list thing :=
    match hs with
    | [] => if valid s then [TShape id net s] else []
    | _ => if holes_valid (contour s) (map contour hs) then [THoles id net (contour s) (map contour hs)] else []
    end.
  Definition contribution (holes : obj S -> list (obj S) -> list S) (p : obj S * list (obj S)) : list thing :=
    let '(o, rest) := p in
    match o with
    | OShape true _ _ | OBondwire => []
    | OShape false l (Some s) | OAnnular l s =>
        match alookup Z.eqb l metal with Some id => with_holes id s (holes o rest) | None => [] end
    | OShape false _ None => []
    | OPath l (Some s) => match alookup Z.eqb l metal with Some id => [TPath id net s] | None => [] end
    | OPath _ None => []
    | OVia a b d =>
        match alookup Z.eqb a metal, alookup Z.eqb b metal with
        | Some t, Some bt => if in_dec string_dec d via_defs then [TVia d net t bt] else []
        | _, _ => []
        end
    end.
  Definition route_things (holes : obj S -> list (obj S) -> list S) (os : list (obj S)) : list thing :=
    flat_map (contribution holes) (with_rest os).

  (** every void's template is known, and no void follows an annular ring on its layer directly *)
  Definition voids_known (os : list (obj S)) : Prop := forall l, ~ In (OShape true l None) os.
  Definition no_void_after_annular (os : list (obj S)) : Prop :=
    forall a l s s' b, os <> a ++ OAnnular l s :: OShape true l s' :: b.
End Spec.
Arguments thing : clear implicits.

(** all routes of a file; a route of an unknown net gives nothing *)
Section SpecAll.
  Context {S : Type} (valid : S -> bool) (contour : S -> S) (holes_valid : S -> list S -> bool).
  Context (metal : list (Z * Z)) (via_defs : list string) (nets : netcoll).
  Definition routes_things (holes : obj S -> list (obj S) -> list S) (rs : list (string * list (obj S))) : list (thing S) :=
    flat_map (fun r => match nc_find nets (fst r) with
                       | Some x => route_things valid contour holes_valid metal via_defs (net_id x) holes (snd r)
                       | None => [] end) rs.
End SpecAll.
