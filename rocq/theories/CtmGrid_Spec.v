(** What the conversions between chip and grid thermal models should do. *)
From Coq Require Import Permutation.
From Verif Require Import Base QSum.
From Verif Require CtmStack_Model CtmStack_Spec Keyed_Model Grid_Model.
From Verif Require Import CtmGrid_Model.
Import CtmStack_Model CtmStack_Spec.
Import Grid_Model (glayer, l_name, l_thick, l_top, l_bot, l_size, l_mf, l_power,
                   power, PGrid, PBlock, gmodel, g_nx, g_ny, g_resx, g_resy, g_scale, g_layers).
Import Keyed_Model (grid, gr_w, gr_h, gr_at, gtable, gt_query).

(** The power a model gives a tile at a temperature: what all power sources that answer add up to. *)
Definition source_power (T : Q) (x y : nat) (p : power) : Q :=
  match p with
  | PGrid q => match q T x y with Some v => v | None => 0 end
  | PBlock llx lly urx ury total =>
      if ((llx <=? x) && (x <=? urx) && (lly <=? y) && (y <=? ury))%nat%bool
      then total / inject_Z (Z.of_nat ((urx - llx + 1) * (ury - lly + 1))) else 0
  end.
Definition model_power (ls : list (glayer * bool)) (T : Q) (x y : nat) : Q :=
  sumf (source_power T x y) (flat_map (fun l => l_power (fst l)) ls).

(** Height of everything from layer k downwards. *)
Definition height_from (ls : list (glayer * bool)) (k : nat) : Q :=
  sumf (fun l => l_thick (fst l)) (skipn k ls).

(** Every layer knows the layers next to it (what AppendLayer maintains, C61); the outermost layers
    have the empty name there. *)
Fixpoint linked_from (above : string) (ls : list (glayer * bool)) : Prop :=
  match ls with
  | [] => True
  | (l, _) :: ls' =>
      l_top l = above /\ l_bot l = match ls' with [] => ""%string | (b, _) :: _ => l_name b end /\
      linked_from (l_name l) ls'
  end.

(** Every layer that is not metal lies directly between two metal layers. *)
Definition alternating (ls : list (glayer * bool)) : Prop :=
  forall k l, nth_error ls k = Some (l, false) ->
    (exists j a, k = S j /\ nth_error ls j = Some (a, true)) /\
    (exists b, nth_error ls (S k) = Some (b, true)).

(** The lowest metal layer. *)
Definition lowest_metal (ls : list (glayer * bool)) (n : string) : Prop :=
  exists l1 l l2, ls = l1 ++ (l, true) :: l2 /\ n = l_name l /\ forall b, In b l2 -> snd b = false.

(** A layer of an imported grid model against the stack-up layer it stands for. *)
Section import.
  Context (c : chip).

  Definition has_density (n : string) (d : option grid) : Prop :=
    alookup String.eqb n (cc_dens c) = Some d.
  Definition no_density (n : string) : Prop := alookup String.eqb n (cc_dens c) = None.

  (** [ds] are the names of [ns] that have a density, with their densities. *)
  Inductive density_list : list string -> list (option grid) -> Prop :=
  | dl_nil : density_list [] []
  | dl_skip n ns ds : no_density n -> density_list ns ds -> density_list (n :: ns) ds
  | dl_take n ns d ds : has_density n d -> density_list ns ds -> density_list (n :: ns) (d :: ds).

  Definition fraction_at (x y : nat) (d : option grid) : Q := match d with Some g => gr_at g x y | None => 0 end.

  (** The metal fraction and the grid size of the layer made of the names [ns]. *)
  Inductive fraction_of (ns : list string) : nat * nat -> (nat -> nat -> Q) -> Prop :=
  | fr_one g size f : density_list ns [Some g] -> size = (gr_w g, gr_h g) -> (forall x y, f x y = gr_at g x y) ->
      fraction_of ns size f
  | fr_sum ds f : density_list ns ds -> List.length ds <> 1%nat ->
      (forall x y, f x y == Qmin (sumf (fraction_at x y) ds) 1) -> fraction_of ns (cc_tx c, cc_ty c) f.

  (** The layers [ls] of the imported model against the stack-up, from top to bottom: a layer is left
      out when it is given a negative thickness, when its only density is missing, or when that has
      another size than the tiles.  [pw] is the power source of the chip. *)
  Context (order : list string -> list string) (pw : list power) (dev : string).
  Definition stands_for (s : slayer) (l : glayer) : Prop :=
    l_name l = String.concat "_" (order (sl_names s)) /\
    l_thick l == sl_thick s / 1000000 /\
    fraction_of (order (sl_names s)) (l_size l) (l_mf l) /\
    l_power l = (if string_dec (l_name l) dev then pw else []).
  Inductive stack_of : list slayer -> list glayer -> Prop :=
  | so_nil : stack_of [] []
  | so_keep s l st ls : stands_for s l -> 0 <= l_thick l -> l_size l = (cc_tx c, cc_ty c) ->
      stack_of st ls -> stack_of (s :: st) (l :: ls)
  | so_thin s st ls : sl_thick s < 0 -> stack_of st ls -> stack_of (s :: st) ls
  | so_null s st ls : density_list (order (sl_names s)) [None] -> stack_of st ls -> stack_of (s :: st) ls
  | so_size s g st ls : density_list (order (sl_names s)) [Some g] -> (gr_w g, gr_h g) <> (cc_tx c, cc_ty c) ->
      stack_of st ls -> stack_of (s :: st) ls.
End import.
