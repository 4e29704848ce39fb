(** What an imported GDSII library should look like. *)
From Coq Require Import QArith.
From Verif Require Import Base Gds_Model GdsReader_Model GdsImport_Model.
Local Open Scope Z_scope.

(** The GDS layer numbers of the layers of the design, top to bottom. *)
Definition numbers (src : layer_source) : list Z :=
  match src with
  | FromFile (Some ls) => map gl_id ls
  | FromFile None => []
  | FromGds order => order
  end.

Definition prim_layer (p : prim) : nat :=
  match p with PPolygon i _ => i | PPath i _ _ _ => i | PText i _ _ _ _ => i end.

(** The drawing a GDS object makes on layer [i], if it makes one, and its GDS layer number. *)
Definition drawing (i : nat) (o : gobj) : option prim :=
  match o with
  | GPolygon _ _ pts => Some (PPolygon i pts)
  | GPath _ _ pt w pts => Some (PPath i pt w pts)
  | GText _ _ _ text pos _ _ rot scale _ => Some (PText i scale rot pos text)
  | _ => None
  end.
Definition gds_layer (o : gobj) : option Z :=
  match o with
  | GPolygon l _ _ | GPath l _ _ _ _ | GText l _ _ _ _ _ _ _ _ _ => Some l
  | _ => None
  end.

(** The drawings of the objects with GDS layer number [g], on layer [i], in file order. *)
Definition drawings (i : nat) (g : Z) (objs : list gobj) : list prim :=
  flat_map (fun o => match gds_layer o, drawing i o with
                     | Some l, Some p => if l =? g then [p] else []
                     | _, _ => []
                     end) objs.

(** The references of a cell: the name, scale, rotation and place of each. *)
Definition placements (names : list gstr) (o : gobj) : list (gstr * dbl * dbl * gpt) :=
  match o with
  | GSref c p rot sc _ => if existsb (gstr_eqb c) names then [(c, sc, rot, p)] else []
  | GAref c _ _ _ _ ps rot sc _ => if existsb (gstr_eqb c) names then map (fun p => (c, sc, rot, p)) ps else []
  | _ => []
  end.
Definition placed (i : inst) : gstr * dbl * dbl * gpt := (in_cell i, in_scale i, in_rot i, in_offset i).

(** The lattice of an array reference: [cols * rows] points, where the second and third points
    give the far ends of the first row and the first column. *)
Definition lattice (cols rows : Z) (ps : list gpt) : list gpt :=
  match ps with
  | [(x0, y0); (x1, y1); (x2, y2)] =>
      flat_map (fun j => map (fun i =>
        (x0 + Z.of_nat i * ((x1 - x0) / cols) + Z.of_nat j * ((x2 - x0) / rows),
         y0 + Z.of_nat i * ((y1 - y0) / cols) + Z.of_nat j * ((y2 - y0) / rows)))
        (seq 0 (Z.to_nat cols))) (seq 0 (Z.to_nat rows))
  | _ => []
  end.

(** The value of a double. *)
Definition dbl_Q (d : dbl) : Q :=
  let m := if d_neg d then - d_mant d else d_mant d in
  if 0 <=? d_exp d then inject_Z (m * 2 ^ d_exp d) else (m # Z.to_pos (2 ^ (- d_exp d))).
