(** A DMC/DOM pair as a list of figures, each an outline record with its points and the hole records
    that follow it with theirs. *)
From Verif Require Import Base Names_Model Net_Model LayerMap_Model Layers_Model Dmc_Model.

Section Points.
  Context {P : Type}.
  Record figure := { f_head : record; f_outline : list P; f_holes : list (record * list P) }.
  Definition well_formed (f : figure) : Prop :=
    r_hole (f_head f) = false /\ List.length (f_outline f) = r_points (f_head f) /\
    Forall (fun h => r_hole (fst h) = true /\ List.length (snd h) = r_points (fst h)) (f_holes f).
  (** The records of the figures in file order, and the points in file order. *)
  Definition file_records (figs : list figure) : list record := flat_map (fun f => f_head f :: map fst (f_holes f)) figs.
  Definition file_points (figs : list figure) : list P := flat_map (fun f => f_outline f ++ List.concat (map snd (f_holes f))) figs.
  Definition shape_of (f : figure) : shape P := (f_outline f, map snd (f_holes f)).

  Definition is_via (f : figure) : bool := r_via (f_head f).
  Definition is_plain (f : figure) : bool := negb (r_via (f_head f)).
  (** What the first figure with a given net, layer or signal layer number says. *)
  Definition net_name (figs : list figure) (n : Z) : option string :=
    option_map (fun f => r_netname (f_head f)) (find (fun f => Z.eqb (r_net (f_head f)) n) figs).
  Definition layer_name (figs : list figure) (l : Z) : option string :=
    option_map (fun f => r_lyrname (f_head f)) (find (fun f => is_plain f && Z.eqb (r_layer (f_head f)) l) figs).
  Definition signal_layer (figs : list figure) (s : Z) : option Z :=
    option_map (fun f => r_layer (f_head f)) (find (fun f => is_plain f && Z.eqb (r_sig1 (f_head f)) s) figs).
  (** Different net numbers have different names. *)
  Definition names_injective (figs : list figure) : Prop :=
    forall n m nm, net_name figs n = Some nm -> net_name figs m = Some nm -> n = m.
  (** Vias only name signal layers that have a shape. *)
  Definition vias_resolved (figs : list figure) : Prop :=
    forall f, In f figs -> is_via f = true -> signal_layer figs (r_sig1 (f_head f)) <> None /\ signal_layer figs (r_sig2 (f_head f)) <> None.
End Points.
Arguments figure : clear implicits.
