(** Equality of the extraction settings, src/basic/ECadSettings.h.  Fields are listed in the order of the source; strings
    and flags that are only written to files are kept so that the equality's selection is visible. *)
From Verif Require Import Base.
From Coq Require Import QArith Qabs.

Section Settings.
  (** tolerance of generic::math::EQ / NE *)
  Context (eps : Q).

  Definition feq (a b : Q) : bool := Qle_bool (Qabs (a - b)) eps.

  (** std::unordered_set<ENetId>::operator== *)
  Definition subset (a b : list Z) : bool := forallb (fun x => existsb (Z.eqb x) b) a.
  Definition nets_eqb (a b : list Z) : bool := subset a b && subset b a.

  (** FBox2D: lower left and upper right corner *)
  Definition box : Type := (Q * Q * (Q * Q))%type.
  Definition box_eqb (a b : box) : bool :=
    let '((a1, a2), (a3, a4)) := a in let '((b1, b2), (b3, b4)) := b in
    Qeq_bool a1 b1 && Qeq_bool a2 b2 && Qeq_bool a3 b3 && Qeq_bool a4 b4.

  (** std::vector::operator== *)
  Fixpoint list_eqb {A} (e : A -> A -> bool) (a b : list A) : bool :=
    match a, b with
    | [], [] => true
    | x :: a', y :: b' => e x y && list_eqb e a' b'
    | _, _ => false
    end.

  (** ECadSettings.h:31-72 *)
  Record merge_settings := mkMS {
    ms_threads : nat; ms_outFile : string; ms_mtByLayer : bool; ms_padstack : bool; ms_dielectric : bool;
    ms_skipTopBot : bool; ms_nets : list Z }.
  Definition merge_eqb (a b : merge_settings) : bool :=
    Bool.eqb (ms_padstack a) (ms_padstack b) && Bool.eqb (ms_dielectric a) (ms_dielectric b) &&
    Bool.eqb (ms_skipTopBot a) (ms_skipTopBot b) && nets_eqb (ms_nets a) (ms_nets b).

  (** ECadSettings.h:74-122; the last two comparisons compare a field of [this] with itself *)
  Record frac_settings := mkFS {
    fs_threads : nat; fs_outFile : string; fs_top : Q; fs_bot : Q; fs_left : Q; fs_right : Q;
    fs_merge : bool; fs_grid : nat * nat; fs_nets : list Z; fs_merge_settings : merge_settings }.
  Definition frac_eqb (a b : frac_settings) : bool :=
    feq (fs_top a) (fs_top b) && feq (fs_bot a) (fs_bot b) && feq (fs_left a) (fs_left b) &&
    feq (fs_right a) (fs_right b) && Bool.eqb (fs_merge a) (fs_merge b) &&
    Nat.eqb (fst (fs_grid a)) (fst (fs_grid b)) && Nat.eqb (snd (fs_grid a)) (snd (fs_grid b)) &&
    nets_eqb (fs_nets a) (fs_nets a) && merge_eqb (fs_merge_settings a) (fs_merge_settings a).

  (** ECadSettings.h:124-155 and 157-189 *)
  Record mesh_settings := mkMesh {
    me_alpha : Q; me_min : Q; me_max : Q; me_tol : Q; me_iter : nat; me_dump : bool; me_byLayer : bool; me_imprint : bool }.
  Definition mesh_eqb (a b : mesh_settings) : bool :=
    feq (me_alpha a) (me_alpha b) && feq (me_min a) (me_min b) && feq (me_max a) (me_max b) && feq (me_tol a) (me_tol b) &&
    Nat.eqb (me_iter a) (me_iter b) && Bool.eqb (me_byLayer a) (me_byLayer b) && Bool.eqb (me_imprint a) (me_imprint b).

  (** ECadSettings.h:191-224; the ratio is compared exactly *)
  Record cut_settings := mkCut {
    cu_dump : bool; cu_precision : nat; cu_ratio : Q; cu_center : bool; cu_imprint : list box }.
  Definition cut_eqb (a b : cut_settings) : bool :=
    Nat.eqb (cu_precision a) (cu_precision b) && Qeq_bool (cu_ratio a) (cu_ratio b) &&
    Bool.eqb (cu_center a) (cu_center b) && list_eqb box_eqb (cu_imprint a) (cu_imprint b).

  (** ECadSettings.h:228-257; bc_type: true = HTC, false = heat flux *)
  Record bc := mkBC { bc_type : bool; bc_value : Q }.
  Definition bc_eqb (a b : bc) : bool := Bool.eqb (bc_type a) (bc_type b) && feq (bc_value a) (bc_value b).
  Definition block_eqb (a b : box * bc) : bool := box_eqb (fst a) (fst b) && bc_eqb (snd a) (snd b).

  (** ECadSettings.h:259-317; th_env: ETemperature (value, is Celsius), ECadUnits.h:124-127 *)
  Record thermal_settings := mkTS {
    th_force : bool; th_threads : nat; th_workDir : string; th_top : bc; th_bot : bc;
    th_topBlocks : list (box * bc); th_botBlocks : list (box * bc); th_env : Q * bool }.
  Definition thermal_eqb (a b : thermal_settings) : bool :=
    bc_eqb (th_top a) (th_top b) && bc_eqb (th_bot a) (th_bot b) &&
    list_eqb block_eqb (th_topBlocks a) (th_topBlocks b) && list_eqb block_eqb (th_botBlocks a) (th_botBlocks b) &&
    feq (fst (th_env a)) (fst (th_env b)) && Bool.eqb (snd (th_env a)) (snd (th_env b)).

  (** ECadSettings.h:319-356 and 358-404 *)
  Record grid_settings := mkGS { g_base : thermal_settings; g_dumps : bool * bool * bool; g_frac : frac_settings }.
  Record prism_settings := mkPS {
    p_base : thermal_settings; p_mesh : mesh_settings; p_merge : merge_settings; p_cut : cut_settings }.

  (** the dynamic type of an EThermalModelExtractionSettings *)
  Inductive settings := Grid (s : grid_settings) | Prism (s : prism_settings).

  Definition settings_eqb (a b : settings) : bool :=
    match a, b with
    | Grid x, Grid y => thermal_eqb (g_base x) (g_base y) && frac_eqb (g_frac x) (g_frac y)
    | Prism x, Prism y => thermal_eqb (p_base x) (p_base y) && mesh_eqb (p_mesh x) (p_mesh y) &&
                          merge_eqb (p_merge x) (p_merge y) && cut_eqb (p_cut x) (p_cut y)
    | _, _ => false
    end.

  (** ECadSettings.h:292-298, 384-388 – AddBlockBC; [top]: orientation *)
  Definition add_block (top : bool) (b : box) (c : bc) (t : thermal_settings) : thermal_settings :=
    mkTS (th_force t) (th_threads t) (th_workDir t) (th_top t) (th_bot t)
         (if top then th_topBlocks t ++ [(b, c)] else th_topBlocks t)
         (if top then th_botBlocks t else th_botBlocks t ++ [(b, c)]) (th_env t).
  Definition add_block_bc (top : bool) (b : box) (c : bc) (s : settings) : settings :=
    match s with
    | Grid x => Grid (mkGS (add_block top b c (g_base x)) (g_dumps x) (g_frac x))
    | Prism x => Prism (mkPS (add_block top b c (p_base x)) (p_mesh x) (p_merge x)
                  (mkCut (cu_dump (p_cut x)) (cu_precision (p_cut x)) (cu_ratio (p_cut x)) (cu_center (p_cut x))
                         (cu_imprint (p_cut x) ++ [b])))
    end.
End Settings.
