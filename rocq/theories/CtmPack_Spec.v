(** Which chip thermal models can be packed, and what pictures should be there. *)
From Verif Require Import Base Ctm_Model Ctm_Spec CtmPack_Model.
Local Open Scope Z_scope.

(** a table of the size the header gives *)
Definition sized (h : hdr) (t : tab) : Prop :=
  Z.of_nat (tb_w t) = fst (tiles h) /\ Z.of_nat (tb_h t) = snd (tiles h) /\ List.length (tb_vals t) = (tb_w t * tb_h t)%nat.
(** the sample at temperature [t], and the density of the layer called [n] *)
Definition sample (m : chip) (t : Z) (tb : tab) : Prop := exists ps, ch_powers m = Some ps /\ alookup Z.eqb t ps = Some tb.
Definition density (m : chip) (n : text) (tb : tab) : Prop := alookup text_eqb n (ch_dens m) = Some (Some tb).

(** Everything the header speaks of is there, in the size the header gives. *)
Record complete (m : chip) : Prop := mkcomplete {
  c_hdr : writable (ch_hdr m);
  c_layers : layers (ch_hdr m) <> [];
  c_powers : forall t, In t (temps (ch_hdr m)) -> exists tb, sample m t tb /\ sized (ch_hdr m) tb;
  c_dens : forall l, In l (layers (ch_hdr m)) -> exists tb, density m (l_name l) tb /\ sized (ch_hdr m) tb }.

(** What the writer asks for. *)
Definition acceptable (m : chip) : Prop :=
  (5 <= List.length (temps (ch_hdr m)))%nat /\ layers (ch_hdr m) <> [] /\
  (exists ps, ch_powers m = Some ps) /\
  (forall t, In t (temps (ch_hdr m)) -> exists tb, sample m t tb) /\
  (forall l, In l (layers (ch_hdr m)) -> exists tb, density m (l_name l) tb /\
     List.length (tb_vals tb) = (Z.to_nat (fst (tiles (ch_hdr m))) * Z.to_nat (snd (tiles (ch_hdr m))))%nat).
