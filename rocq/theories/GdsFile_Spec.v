(** The text of a layer map file, and what an imported structure should be. *)
From Coq Require Import QArith.
From Verif Require Import Base Gds_Model Gds_Spec GdsReader_Model GdsReader_Spec GdsImport_Model GdsImport_Spec.
Local Open Scope Z_scope.

Section MapText.
  Context (split : gstr -> list gstr) (starts_m : gstr -> bool) (stoi : gstr -> option Z) (stod : gstr -> option Q).
  (** A line of five fields *)
  Definition entry (line : gstr) (l : glayer) : Prop :=
    ~ In 10 line /\ line <> [] /\ hd 0 line <> 35 /\
    exists kind number data thick, split line = [gl_name l; kind; number; data; thick] /\
      starts_m kind = gl_metal l /\ stoi number = Some (gl_id l) /\ stoi data = Some (gl_data l) /\ stod thick = Some (gl_thick l).
  (** An empty line or a comment *)
  Definition skipped (line : gstr) : Prop := ~ In 10 line /\ (line = [] \/ hd 0 line = 35).
  (** The texts of a list of layers; the last line may lack its line break *)
  Inductive map_text : list glayer -> gstr -> Prop :=
  | LastSkip line : skipped line -> map_text [] line
  | LastEntry line l : entry line l -> map_text [l] line
  | Skip line ls t : skipped line -> map_text ls t -> map_text ls (line ++ 10 :: t)
  | Entry line l ls t : entry line l -> map_text ls t -> map_text (l :: ls) (line ++ 10 :: t).
End MapText.

(** The objects of the elements of a structure *)
Definition objects (s : struct) : list gobj := flat_map element_obj (st_els s).
Definition struct_name (s : struct) : gstr := text_of (st_name s).

(** The sum of the thicknesses of the layers above layer [i] *)
Definition above (i : nat) (ls : list glayer) : Q := fold_right Qplus 0%Q (map gl_thick (firstn i ls)).

(** The imported cell [ic] of structure [s] of a library with structures [names] and layers [ls] *)
Definition imported (ls : list glayer) (names : list gstr) (s : struct) (ic : icell) : Prop :=
  ic_name ic = struct_name s /\ List.length (ic_layers ic) = List.length ls /\
  (forall i l, nth_error ls i = Some l -> exists il, nth_error (ic_layers ic) i = Some il /\
     il_name il = gl_name l /\ il_metal il = gl_metal l /\ il_thick il = gl_thick l /\ (il_elev il == - above i ls)%Q /\
     filter (fun p => Nat.eqb (prim_layer p) i) (ic_prims ic) = drawings i (gl_id l) (objects s)) /\
  Forall (fun p => (prim_layer p < List.length ls)%nat) (ic_prims ic) /\
  map placed (ic_insts ic) = flat_map (placements names) (objects s).
