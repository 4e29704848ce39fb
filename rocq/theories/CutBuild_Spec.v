(** What a layer cut model holds, as a list of the shapes of a layout. *)
From Verif Require Import Base QSum LayerCut_Model CutBuild_Model.

(** the nearest integer; a half goes away from zero *)
Definition rounds (q : Q) (z : Z) : Prop :=
  inject_Z z - (1#2) <= q <= inject_Z z + (1#2) /\ (q == inject_Z z - (1#2) -> 0 < q) /\ (q == inject_Z z + (1#2) -> q < 0).

(** all results together, nothing if one is missing *)
Fixpoint collect {A B} (f : A -> option (list B)) (l : list A) : option (list B) :=
  match l with
  | [] => Some []
  | a :: l' => match f a, collect f l' with Some x, Some y => Some (x ++ y) | _, _ => None end
  end.
(** the numbers from [a] to [b] in either order *)
Definition between (a b : Z) : list Z := map (fun i => Z.min a b + Z.of_nat i)%Z (seq 0 (Z.to_nat (Z.abs (a - b) + 1))).

Section Spec.
  Context {poly point table path : Type} (ccw : poly -> bool) (reverse : poly -> poly) (scale : Q).
  Context (mats : Z -> option (Z * Z)) (heights : Z -> option (Q * Q)).

  (** a shape at a place: net, materials of the solid and of the holes, top, thickness; power with scenario, table and
      how deep below the top it is released, as a part of the thickness *)
  Record placed := mkP { p_net : Z; p_solid : Z; p_hole : Z; p_shape : sshape poly point; p_elev : Q; p_thick : Q;
                         p_power : option (Z * table * Q) }.
  (** one of its outlines *)
  Record item := mkI { i_net : Z; i_mat : Z; i_poly : poly; i_hole : bool; i_elev : Q; i_thick : Q; i_power : option (Z * table * Q) }.
  Definition pieces (p : placed) : list item :=
    mkI (p_net p) (p_solid p) (sh_outline (p_shape p)) false (p_elev p) (p_thick p) (p_power p) ::
    map (fun h => mkI (p_net p) (p_hole p) h true (p_elev p) (p_thick p) None) (sh_holes (p_shape p)).
  Definition plain (p : poly) : sshape poly point := mkSh None p [].

  (** a stack-up layer is the boundary of the layout in its dielectric *)
  Definition place_layer (b : sshape poly point) (l : option Z * option (Q * Q)) : option (list placed) :=
    match l with
    | (Some mat, Some (e, t)) => Some [mkP noNet mat noMaterial b e t None]
    | _ => None
    end.
  (** a component is its body and, if it has solder, the filling under it *)
  Definition place_comp (c : comp poly table) : option (list placed) :=
    match cp_mat c, cp_height c, cp_solder c with
    | Some mat, Some (e, t), Some (e', t') =>
      let body := mkP noNet mat noMaterial (plain (cp_contour c)) e t (option_map (fun p => (fst p, snd p, 1#10)) (cp_power c)) in
      match t' ?= 0, cp_filling c with
      | Gt, Some mat' => Some [body; mkP noNet mat' noMaterial (plain (cp_contour c)) e' t' None]
      | Gt, None => None
      | _, _ => Some [body]
      end
    | _, _, _ => None
    end.
  (** a solder joint: with a current its outline is a power block without a net; as a shape on the net of the wire it is
      there without a current, and in any case at the end of the wire *)
  Definition place_joint (at_end : bool) (w : wire poly point table path) (j : option (joint poly point table)) : option (list placed) :=
    match j with
    | None => Some []
    | Some j =>
      match j_mat j with
      | None => None
      | Some mat =>
        let shape := mkP (w_net w) mat noMaterial (j_shape j) (j_elev j) (j_thick j) None in
        match w_current w ?= 0 with
        | Gt => match j_heat j with
                | Ok heat => Some (mkP noNet mat noMaterial (plain (sh_outline (j_shape j))) (j_elev j) (j_thick j) (Some (w_scen w, heat, 1#2))
                                   :: if at_end then [shape] else [])
                | _ => None
                end
        | _ => Some [shape]
        end
      end
    end.
  Definition place_prim (p : prim poly point table path) : option (list placed) :=
    match p with
    | PText => Some []
    | PGeom net l s =>
      match mats l, heights l with
      | Some (cond, diel), Some (e, t) => Some [mkP net cond diel s e t None]
      | _, _ => None
      end
    | PWire w =>
      match w_path w, w_mat w, w_joints w with
      | Some _, Some _, None => Some []
      | Some _, Some _, Some (Some (j1, j2)) =>
        match place_joint false w j1, place_joint true w j2 with Some x, Some y => Some (x ++ y) | _, _ => None end
      | _, _, _ => None
      end
    end.
  (** a padstack instance is its pads on all layers of its range *)
  Definition place_inst (i : pinst poly point) : option (list placed) :=
    match pi_def i with
    | None => None
    | Some None => Some []
    | Some (Some None) => None
    | Some (Some (Some mat)) =>
      collect (fun l => match heights l, pi_shape i l with
                        | Some (e, t), Some s => Some [mkP (pi_net i) mat mat s e t None]
                        | _, _ => None end) (between (pi_top i) (pi_bot i))
    end.
  Definition place_all (l : layout poly point table path) : option (list placed) :=
    match collect (place_layer (ly_boundary l)) (ly_stack l), collect place_comp (ly_comps l),
          collect place_prim (ly_prims l), collect place_inst (ly_insts l) with
    | Some a, Some b, Some c, Some d => Some (a ++ b ++ c ++ d)
    | _, _, _, _ => None
    end.
  Definition wires_of (ps : list (prim poly point table path)) : list (bwire path) :=
    flat_map (fun p => match p with
                       | PWire w => match w_path w, w_mat w with
                                    | Some x, Some mat => [mkBW (w_net w) (w_radius w) mat (w_current w) (w_scen w) x]
                                    | _, _ => [] end
                       | _ => [] end) ps.
  Definition centres (ps : list placed) : list point :=
    flat_map (fun p => match sh_center (p_shape p) with Some c => [c] | None => [] end) ps.

  (** an entry of the model *)
  Record entry := mkE { e_net : Z; e_mat : Z; e_poly : poly; e_range : lrange; e_block : option (lrange * Z * table) }.
  (** heat is released over a tenth of the thickness, not below the bottom *)
  Definition block_of (i : item) (b : option (lrange * Z * table)) : Prop :=
    match i_power i with
    | None => b = None
    | Some (scen, heat, pos) =>
      exists top bot, b = Some (mkR top bot, scen, heat) /\ rounds ((i_elev i - pos * i_thick i) * scale) top /\
        rounds ((i_elev i - pos * i_thick i - Qmin ((1#10) * i_thick i) (i_thick i - pos * i_thick i)) * scale) bot
    end.
  (** the entries of outlines: those that round to no thickness are dropped, holes run clockwise and others counterclockwise *)
  Inductive listed : list item -> list entry -> Prop :=
  | listed_nil : listed [] []
  | listed_drop i is es top bot : rounds (i_elev i * scale) top -> rounds ((i_elev i - i_thick i) * scale) bot -> (top <= bot)%Z ->
      listed is es -> listed (i :: is) es
  | listed_keep i is es top bot b : rounds (i_elev i * scale) top -> rounds ((i_elev i - i_thick i) * scale) bot -> (bot < top)%Z ->
      block_of i b -> listed is es ->
      listed (i :: is) (mkE (i_net i) (i_mat i) (if Bool.eqb (ccw (i_poly i)) (i_hole i) then reverse (i_poly i) else i_poly i) (mkR top bot) b :: es).

  (** the model holds these entries, and then boxes without net, material and height *)
  Definition holds (m : cut poly point table path) (es : list entry) (boxes : list poly) : Prop :=
    c_nets m = map e_net es ++ map (fun _ => noNet) boxes /\
    c_mats m = map e_mat es ++ map (fun _ => noMaterial) boxes /\
    c_polys m = map e_poly es ++ boxes /\
    (exists rs, c_ranges m = map e_range es ++ rs /\ List.length rs = List.length boxes /\ Forall (fun r => hi r < lo r)%Z rs) /\
    forall i, alookup Nat.eqb i (c_blocks m) = match nth_error es i with Some e => e_block e | None => None end.
End Spec.
Arguments placed : clear implicits.
Arguments item : clear implicits.
Arguments entry : clear implicits.
