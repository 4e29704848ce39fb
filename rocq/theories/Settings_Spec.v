(** When two settings values may be used interchangeably: field-by-field, floats up to the tolerance. *)
From Verif Require Import Base Settings_Model.
From Coq Require Import QArith Qabs.

Section S.
  Context (eps : Q).

  Definition near (a b : Q) : Prop := Qabs (a - b) <= eps.
  Definition same_nets (a b : list Z) : Prop := forall n, In n a <-> In n b.
  Definition same_box (a b : box) : Prop :=
    fst (fst a) == fst (fst b) /\ snd (fst a) == snd (fst b) /\ fst (snd a) == fst (snd b) /\ snd (snd a) == snd (snd b).
  Definition same_bc (a b : bc) : Prop := bc_type a = bc_type b /\ near (bc_value a) (bc_value b).
  Definition same_block (a b : box * bc) : Prop := same_box (fst a) (fst b) /\ same_bc (snd a) (snd b).

  Definition same_merge (a b : merge_settings) : Prop :=
    ms_padstack a = ms_padstack b /\ ms_dielectric a = ms_dielectric b /\ ms_skipTopBot a = ms_skipTopBot b /\
    same_nets (ms_nets a) (ms_nets b).
  Definition same_region (a b : frac_settings) : Prop :=
    near (fs_top a) (fs_top b) /\ near (fs_bot a) (fs_bot b) /\ near (fs_left a) (fs_left b) /\
    near (fs_right a) (fs_right b) /\ fs_merge a = fs_merge b /\ fs_grid a = fs_grid b.
  Definition same_mesh (a b : mesh_settings) : Prop :=
    near (me_alpha a) (me_alpha b) /\ near (me_min a) (me_min b) /\ near (me_max a) (me_max b) /\
    near (me_tol a) (me_tol b) /\ me_iter a = me_iter b /\ me_byLayer a = me_byLayer b /\ me_imprint a = me_imprint b.
  Definition same_cut (a b : cut_settings) : Prop :=
    cu_precision a = cu_precision b /\ cu_ratio a == cu_ratio b /\ cu_center a = cu_center b /\
    Forall2 same_box (cu_imprint a) (cu_imprint b).
  Definition same_thermal (a b : thermal_settings) : Prop :=
    same_bc (th_top a) (th_top b) /\ same_bc (th_bot a) (th_bot b) /\
    Forall2 same_block (th_topBlocks a) (th_topBlocks b) /\ Forall2 same_block (th_botBlocks a) (th_botBlocks b) /\
    near (fst (th_env a)) (fst (th_env b)) /\ snd (th_env a) = snd (th_env b).

  (** every field of a prism settings value that the extraction reads *)
  Definition same_prism (a b : prism_settings) : Prop :=
    same_thermal (p_base a) (p_base b) /\ same_mesh (p_mesh a) (p_mesh b) /\ same_merge (p_merge a) (p_merge b) /\
    same_cut (p_cut a) (p_cut b).

  (** every field of a grid settings value that the extraction reads except the selected nets … *)
  Definition same_grid_but_nets (a b : grid_settings) : Prop :=
    same_thermal (g_base a) (g_base b) /\ same_region (g_frac a) (g_frac b).
  (** … and with them *)
  Definition same_grid (a b : grid_settings) : Prop :=
    same_grid_but_nets a b /\ same_nets (fs_nets (g_frac a)) (fs_nets (g_frac b)).
End S.
