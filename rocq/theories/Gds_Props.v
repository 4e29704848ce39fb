(** Properties C42-C45: the GDSII stream parser. *)
From Verif Require Import Base Gds_Model Gds_Spec Gds_Proofs.
From Coq Require Import QArith Qpower Lqa.
Local Open Scope Z_scope.

Lemma one_record fuel cap r : 1 <= cap <= 2 ^ 32 -> rec_ok r ->
  (List.length (enc_rec r) + grow_fuel <= fuel)%nat ->
  parse_stream fuel cap (enc_rec r) = Ok (events [r], true).
Proof.
  intros Hc Hr Hf.
  assert (E : enc_rec r = enc_all [r] ++ []) by (unfold enc_all; cbn [map List.concat]; now rewrite !app_nil_r).
  rewrite E. apply stream_with_rest; [exact Hc|now constructor|exact I|].
  unfold enc_all; cbn [map List.concat]. rewrite app_nil_r. exact Hf.
Qed.

(** ** C42 *)

(** A record of 2-byte integers delivers the values that were written, for every value of the type
    and any number of them. *)
Theorem C42_int2_round_trip : forall fuel cap t tag vs,
  1 <= cap <= 2 ^ 32 -> In t int2_records -> byte tag ->
  Forall (fun v => - 2 ^ 15 <= v < 2 ^ 15) vs ->
  4 + 2 * Z.of_nat (List.length vs) < 65536 ->
  (4 + 2 * List.length vs + 64 <= fuel)%nat ->
  parse_stream fuel cap (enc_rec (mkgrec t tag (CInt2 vs))) = Ok ([EvInt2 t (Z.min tag 7) vs], true).
Proof.
  intros fuel cap t tag vs Hc Ht Htag Hvs Hl Hf.
  assert (L : List.length (enc_body (CInt2 vs)) = (List.length vs * 2)%nat)
    by (apply concat_length_const; intros; apply be_length).
  apply (one_record fuel cap (mkgrec t tag (CInt2 vs)) Hc).
  - repeat split; cbn [g_type g_tag g_body body_ok]; try assumption; try (unfold byte in *; lia).
    + unfold int2_records in Ht; cbn [In] in Ht. in_cases Ht; lia.
    + unfold int2_records in Ht; cbn [In] in Ht. in_cases Ht; lia.
  - unfold enc_rec. rewrite app_length, be_length. cbn [g_body g_type g_tag app List.length].
    rewrite L. unfold grow_fuel. lia.
Qed.
Print Assumptions C42_int2_round_trip.

(** The same for 4-byte integers. *)
Theorem C42_int4_round_trip : forall fuel cap t tag vs,
  1 <= cap <= 2 ^ 32 -> In t int4_records -> byte tag ->
  Forall (fun v => - 2 ^ 31 <= v < 2 ^ 31) vs ->
  4 + 4 * Z.of_nat (List.length vs) < 65536 ->
  (4 + 4 * List.length vs + 64 <= fuel)%nat ->
  parse_stream fuel cap (enc_rec (mkgrec t tag (CInt4 vs))) = Ok ([EvInt4 t (Z.min tag 7) vs], true).
Proof.
  intros fuel cap t tag vs Hc Ht Htag Hvs Hl Hf.
  assert (L : List.length (enc_body (CInt4 vs)) = (List.length vs * 4)%nat)
    by (apply concat_length_const; intros; apply be_length).
  apply (one_record fuel cap (mkgrec t tag (CInt4 vs)) Hc).
  - repeat split; cbn [g_type g_tag g_body body_ok]; try assumption; try (unfold byte in *; lia).
    + unfold int4_records in Ht; cbn [In] in Ht. in_cases Ht; lia.
    + unfold int4_records in Ht; cbn [In] in Ht. in_cases Ht; lia.
  - unfold enc_rec. rewrite app_length, be_length. cbn [g_body g_type g_tag app List.length].
    rewrite L. unfold grow_fuel. lia.
Qed.
Print Assumptions C42_int4_round_trip.

Example C42_extremes :
  parse_stream 100 4096 [0; 8; 13; 2; 128; 0; 127; 255] = Ok ([EvInt2 13 2 [-32768; 32767]], true) /\
  parse_stream 100 4096 [0; 12; 16; 3; 128; 0; 0; 0; 255; 255; 255; 254]
    = Ok ([EvInt4 16 3 [-2147483648; -2]], true) /\
  enc_rec (mkgrec 13 2 (CInt2 [-32768; 32767])) = [0; 8; 13; 2; 128; 0; 127; 255].
Proof. vm_compute. repeat split. Qed.

(** ** C43 *)

(** [d] is a [double] nearest to the 8-byte real [r]: its significand is an integer a [double] can
    hold, scaled like the one of [r], and no other such integer is closer to the fraction of [r]. *)
Definition nearest_double (r : real8) (d : dbl) : Prop :=
  exists z, is_double_int z /\
    (forall z', is_double_int z' -> Z.abs (r_frac r - z) <= Z.abs (r_frac r - z')) /\
    (dbl_value d == real8_value (mkreal8 (r_neg r) (r_exp r) z))%Q.

Lemma pow16 n : ((16 # 1) ^ n == (2 # 1) ^ (4 * n))%Q.
Proof.
  rewrite Qpower_mult. apply Qpower_comp; [|reflexivity]. reflexivity.
Qed.

Lemma dbl_value_scaled s e z :
  (dbl_value (mkdbl s z (4 * (e - 64) - 56)) == real8_value (mkreal8 s e z))%Q.
Proof.
  unfold dbl_value, real8_value; cbn [d_neg d_mant d_exp r_neg r_exp r_frac].
  rewrite pow16.
  assert (H2 : ~ (2 # 1 == 0)%Q) by (intros H; discriminate H).
  rewrite <- (Z.add_opp_r (4 * (e - 64)) 56), (Qpower_plus _ _ (- 56) H2).
  assert (Hm : ((2 # 1) ^ (- 56) == / inject_Z (2 ^ 56))%Q) by reflexivity.
  rewrite Hm. unfold Qdiv. ring.
Qed.

(** Every bit pattern of an 8-byte real is delivered as a nearest [double]. *)
Theorem C43_real8_nearest : forall fuel cap t tag rs,
  1 <= cap <= 2 ^ 32 -> In t real8_records -> byte tag -> Forall real8_ok rs ->
  4 + 8 * Z.of_nat (List.length rs) < 65536 ->
  (4 + 8 * List.length rs + 64 <= fuel)%nat ->
  exists ds,
    parse_stream fuel cap (enc_rec (mkgrec t tag (CReal8 rs))) = Ok ([EvReal8 t (Z.min tag 7) ds], true) /\
    Forall2 nearest_double rs ds.
Proof.
  intros fuel cap t tag rs Hc Ht Htag Hrs Hl Hf.
  exists (map real8_double rs). split.
  - assert (L : List.length (enc_body (CReal8 rs)) = (List.length rs * 8)%nat).
    { apply concat_length_const; intros. unfold enc_real8. cbn [List.length]. now rewrite be_length. }
    apply (one_record fuel cap (mkgrec t tag (CReal8 rs)) Hc).
    + repeat split; cbn [g_type g_tag g_body body_ok]; try assumption; try (unfold byte in *; lia).
      * unfold real8_records in Ht; cbn [In] in Ht. in_cases Ht; lia.
      * unfold real8_records in Ht; cbn [In] in Ht. in_cases Ht; lia.
    + unfold enc_rec. rewrite app_length, be_length. cbn [g_body g_type g_tag app List.length].
      rewrite L. unfold grow_fuel. lia.
  - clear - Hrs. induction Hrs as [|r rs Hr Hrs IH]; cbn [map]; constructor; [|exact IH].
    destruct Hr as [_ Hm]. destruct (round53_nearest (r_frac r)) as [H1 H2]; [lia|].
    exists (round53 (r_frac r)). split; [exact H1|]. split; [exact H2|]. apply dbl_value_scaled.
Qed.
Print Assumptions C43_real8_nearest.

(** Reals whose fraction has at most 53 significant bits - every real a program wrote from a
    [double] - are delivered exactly. *)
Theorem C43_real8_exact : forall fuel cap t tag rs,
  1 <= cap <= 2 ^ 32 -> In t real8_records -> byte tag ->
  Forall (fun r => real8_ok r /\ is_double_int (r_frac r)) rs ->
  4 + 8 * Z.of_nat (List.length rs) < 65536 ->
  (4 + 8 * List.length rs + 64 <= fuel)%nat ->
  exists ds,
    parse_stream fuel cap (enc_rec (mkgrec t tag (CReal8 rs))) = Ok ([EvReal8 t (Z.min tag 7) ds], true) /\
    Forall2 (fun r d => dbl_value d == real8_value r)%Q rs ds.
Proof.
  intros fuel cap t tag rs Hc Ht Htag Hrs Hl Hf.
  destruct (C43_real8_nearest fuel cap t tag rs) as (ds & E & Hds); try assumption.
  { eapply Forall_impl; [|exact Hrs]. now intros r [H _]. }
  exists ds. split; [exact E|]. clear - Hds Hrs.
  induction Hds as [|r d rs ds Hd Hds IH]; constructor.
  - destruct (Forall_inv Hrs) as [_ Hr]. destruct Hd as (z & _ & Hn & Hv).
    specialize (Hn _ Hr). rewrite Z.sub_diag in Hn. cbn in Hn.
    replace z with (r_frac r) in Hv by lia. destruct r; exact Hv.
  - apply IH. now apply Forall_inv_tail in Hrs.
Qed.
Print Assumptions C43_real8_exact.

(** Not every real is delivered exactly: 1 - 2^-56 becomes 1. *)
Theorem C43_real8_exact_refuted :
  exists r d, real8_ok r /\
    parse_stream 100 4096 (enc_rec (mkgrec MAG 5 (CReal8 [r]))) = Ok ([EvReal8 MAG 5 [d]], true) /\
    ~ (dbl_value d == real8_value r)%Q.
Proof.
  exists (mkreal8 false 64 (2 ^ 56 - 1)), (mkdbl false (2 ^ 56) (-56)).
  split; [unfold real8_ok; cbn; lia|]. split; [vm_compute; reflexivity|].
  intros H. vm_compute in H. discriminate H.
Qed.
Print Assumptions C43_real8_exact_refuted.

(** The two reals of a typical UNITS record. *)
Example C43_units :
  parse_stream 200 4096 ([0; 20; 3; 5] ++ [62; 65; 137; 55; 75; 198; 167; 240] ++ [65; 16; 0; 0; 0; 0; 0; 0])
    = Ok ([EvReal8 3 5 [mkdbl false (65 * 256 ^ 6 + 137 * 256 ^ 5 + 55 * 256 ^ 4 + 75 * 256 ^ 3 + 198 * 256 ^ 2 + 167 * 256 + 240) (-64);
                        mkdbl false (2 ^ 52) (-52)]], true) /\
  is_double_int (65 * 256 ^ 6 + 137 * 256 ^ 5 + 55 * 256 ^ 4 + 75 * 256 ^ 3 + 198 * 256 ^ 2 + 167 * 256 + 240).
Proof.
  split; [vm_compute; reflexivity|].
  exists ((65 * 256 ^ 6 + 137 * 256 ^ 5 + 55 * 256 ^ 4 + 75 * 256 ^ 3 + 198 * 256 ^ 2 + 167 * 256 + 240) / 16), 4.
  vm_compute. repeat split; intro; discriminate.
Qed.

(** ** C44 *)

(** Every sequence of well-formed records is delivered record by record, whatever the capacity of
    the read buffer, and the parse succeeds. *)
Theorem C44_stream_delivered : forall fuel cap rs,
  1 <= cap <= 2 ^ 32 -> Forall rec_ok rs ->
  (List.length (enc_all rs) + 64 <= fuel)%nat ->
  parse_stream fuel cap (enc_all rs) = Ok (events rs, true).
Proof.
  intros fuel cap rs Hc Hrs Hf. rewrite <- (app_nil_r (enc_all rs)).
  apply stream_with_rest; [exact Hc|exact Hrs|exact I|exact Hf].
Qed.
Print Assumptions C44_stream_delivered.

(** Tiny buffers and the real one agree on any stream of well-formed records, cut anywhere. *)
Theorem C44_buffer_size_irrelevant : forall fuel cap cap' rs rest,
  1 <= cap <= 2 ^ 32 -> 1 <= cap' <= 2 ^ 32 -> Forall rec_ok rs -> incomplete rest ->
  (List.length (enc_all rs) + 64 <= fuel)%nat ->
  parse_stream fuel cap (enc_all rs ++ rest) = parse_stream fuel cap' (enc_all rs ++ rest).
Proof.
  intros fuel cap cap' rs rest Hc Hc' Hrs Hi Hf. rewrite !stream_with_rest; auto.
Qed.
Print Assumptions C44_buffer_size_irrelevant.

(** Zero bytes after the last record (block padding): as long as the file fits in one buffer, the
    last record, here one without data such as ENDLIB, is delivered again for every two zeros. *)
Theorem C44_zero_padding_in_one_buffer : forall fuel cap rs r n,
  4 <= cap <= 2 ^ 32 -> Forall rec_ok (rs ++ [r]) -> In (g_type r) empty_records ->
  Z.of_nat (List.length (enc_all (rs ++ [r]) ++ repeat 0%Z n)) <= cap ->
  (List.length (enc_all (rs ++ [r]) ++ repeat 0%Z n) + 64 <= fuel)%nat ->
  parse_stream fuel cap (enc_all (rs ++ [r]) ++ repeat 0%Z n) =
    Ok (events (rs ++ [r]) ++ repeat (EvBeginEnd (g_type r)) (n / 2), true).
Proof. exact padded_stream. Qed.
Print Assumptions C44_zero_padding_in_one_buffer.

(** With padding that runs past the buffer the parser looks for the last record in the refilled
    buffer: the padding comes out as HEADER records without a version number. *)
Theorem C44_long_padding_changes_records :
  let rs := [mkgrec HEADER 2 (CInt2 [600]); mkgrec ENDLIB 0 CNothing] in
  parse_stream 100 16 (enc_all rs ++ repeat 0 22)
    = Ok (events rs ++ repeat (EvBeginEnd ENDLIB) 3 ++ repeat (EvInt2 HEADER 0 []) 8, true).
Proof. vm_compute. reflexivity. Qed.
Print Assumptions C44_long_padding_changes_records.

Example C44_nontrivial :
  let rs := [mkgrec HEADER 2 (CInt2 [600]); mkgrec LIBNAME 6 (CString [76; 73; 66]);
             mkgrec 99 0 (COther [1; 2; 3]); mkgrec ENDLIB 0 CNothing] in
  Forall rec_ok rs /\
  events rs = [EvInt2 0 2 [600]; EvString 2 6 [76; 73; 66]; EvBeginEnd 4] /\
  parse_stream 200 3 (enc_all rs) = Ok (events rs, true) /\
  Forall rec_ok ([mkgrec HEADER 2 (CInt2 [600])] ++ [mkgrec ENDLIB 0 CNothing]) /\
  In (g_type (mkgrec ENDLIB 0 CNothing)) empty_records.
Proof.
  split; [apply recs_okb_ok; vm_compute; reflexivity|]. split; [vm_compute; reflexivity|].
  split; [vm_compute; reflexivity|]. split; [apply recs_okb_ok; vm_compute; reflexivity|]. now left.
Qed.

(** ** C45 *)

(** A stream cut inside a record (or inside a length field) is accepted: the complete records are
    delivered, the rest is dropped and the call reports success. *)
Theorem C45_truncation_is_silent : forall fuel cap rs rest,
  1 <= cap <= 2 ^ 32 -> Forall rec_ok rs -> incomplete rest ->
  (List.length (enc_all rs) + 64 <= fuel)%nat ->
  parse_stream fuel cap (enc_all rs ++ rest) = Ok (events rs, true).
Proof. exact stream_with_rest. Qed.
Print Assumptions C45_truncation_is_silent.

(** Every strict prefix of a well-formed record is such a rest. *)
Theorem C45_prefixes_are_incomplete : forall r cut tl,
  rec_ok r -> enc_rec r = cut ++ tl -> tl <> [] -> incomplete cut.
Proof.
  intros r cut tl Hr E Htl. pose proof Hr as (Ht & Htag & Hb & Hlen).
  set (N := 4 + Z.of_nat (List.length (enc_body (g_body r)))) in *.
  assert (HN : 4 <= N < 65536) by lia.
  destruct (be2 N ltac:(lia)) as (a & b & Eab & Ha & Hbb & Hab).
  assert (EL : Z.of_nat (List.length (enc_rec r)) = N).
  { unfold enc_rec. rewrite app_length, be_length. cbn [app List.length]. lia. }
  rewrite E, app_length in EL.
  assert (Hx : (0 < List.length tl)%nat) by (destruct tl; [congruence|cbn; lia]).
  destruct cut as [|x [|y cut]]; cbn [incomplete]; try exact I.
  unfold enc_rec in E. fold N in E. rewrite Eab in E. cbn [app] in E.
  inversion E; subst x y. repeat split; unfold byte in *; lia.
Qed.
Print Assumptions C45_prefixes_are_incomplete.

(** Truncation is never reported. *)
Theorem C45_truncation_reported_refuted :
  exists r cut tl, rec_ok r /\ enc_rec r = cut ++ tl /\ tl <> [] /\ (4 <= List.length cut)%nat /\
    parse_stream 100 4096 cut = Ok ([], true).
Proof.
  exists (mkgrec LAYER 2 (CInt2 [5])), [0; 6; 13; 2; 0], [5].
  repeat split; try (vm_compute; reflexivity); try discriminate; cbn; try lia; unfold byte; try lia.
  - right; right; right; now left.
  - repeat constructor; lia.
Qed.
Print Assumptions C45_truncation_reported_refuted.

(** In fact no stream is ever rejected: whenever the parser returns, it returns [true]. *)
Theorem C45_never_returns_false : forall fuel cap input evs ok,
  parse_stream fuel cap input = Ok (evs, ok) -> ok = true.
Proof. intros fuel cap input evs ok. apply loop_true. Qed.
Print Assumptions C45_never_returns_false.

(** Records of unknown type are skipped: no call on the reader names the code UNKNOWN, which the
    reader would use as an index one past its counters. *)
Theorem C45_unknown_never_delivered : forall fuel cap input evs ok,
  parse_stream fuel cap input = Ok (evs, ok) -> Forall (fun e => ev_type e <> UNKNOWN) evs.
Proof. intros fuel cap input evs ok. apply loop_known. Qed.
Print Assumptions C45_unknown_never_delivered.

(** Partial: the parser ends on every byte string in which following the length fields never meets
    a length of one (see the next theorem for that one). *)
Theorem C45_terminates_partial : forall fuel cap input,
  1 <= cap <= 2 ^ 32 -> Forall byte input -> ~ meets_one input ->
  (List.length input + 64 <= fuel)%nat ->
  parse_stream fuel cap input <> OutOfFuel.
Proof.
  intros fuel cap input Hc Hb Hm Hf. unfold parse_stream.
  apply (loop_fine fuel fuel _ None input Hb); [|exact Hm|unfold grow_fuel; lia|lia].
  apply pinit_holds. change (2 ^ 33) with (2 * 2 ^ 32). lia.
Qed.
Print Assumptions C45_terminates_partial.

(** A record length of one makes the capacity loop run forever (the capacity overflows to 0). *)
Theorem C45_length_one_diverges : forall fuel rest,
  parse_stream fuel 4096 (0 :: 1 :: rest) = OutOfFuel.
Proof.
  intros fuel rest. unfold parse_stream.
  destruct fuel as [|f]; [reflexivity|]. set (F := S f) at 1. cbn [loop].
  unfold pass.
  destruct (parse_two F 4096 0 1 rest) as (st1 & off & -> & Hcap & Hlen & R0 & R1); [lia|].
  cbn [bind]. rewrite R0, R1. cbn [bind].
  change (0 * 256 + 1 =? 0) with false. cbn iota.
  change ((0 * 256 + 1 - 2) mod 2 ^ 64) with (2 ^ 64 - 1).
  unfold parse at 1. rewrite Hcap.
  destruct (Z.ltb_spec (Z.of_nat (p_len st1)) (2 ^ 64 - 1)) as [?|Hx];
    [|exfalso; clear - Hx Hlen; lia].
  change (4096 <? ((2 ^ 64 - 1) * 2) mod 2 ^ 64) with true. cbn iota.
  pose proof (grow_diverges F 52 ltac:(lia)) as G.
  change (2 ^ Z.of_nat (64 - 52) mod 2 ^ 64) with 4096 in G. rewrite G. reflexivity.
Qed.
Print Assumptions C45_length_one_diverges.

Theorem C45_terminates_refuted :
  exists input, Forall byte input /\ forall fuel, parse_stream fuel 4096 input = OutOfFuel.
Proof.
  exists [0; 1]. split; [repeat constructor; unfold byte; lia|].
  intros. apply C45_length_one_diverges.
Qed.
Print Assumptions C45_terminates_refuted.

(** A record whose length does not fit its data is not rejected: the value delivered contains a
    byte of the next record. *)
Theorem C45_reads_inside_record_refuted :
  exists r next1 next2 v1 v2,
    r = [0; 5; LAYER; 2; 1] /\ v1 <> v2 /\
    parse_stream 100 4096 (r ++ next1) = Ok ([EvInt2 LAYER 2 [v1]; EvBeginEnd ENDEL], true) /\
    parse_stream 100 4096 (r ++ next2) = Ok ([EvInt2 LAYER 2 [v2]; EvInt2 LAYER 2 (repeat 0 126)], true).
Proof.
  exists [0; 5; 13; 2; 1], [0; 4; 17; 0], ([1; 0; 13; 2] ++ repeat 0 252), 256, 257.
  repeat split; try (vm_compute; reflexivity). discriminate.
Qed.
Print Assumptions C45_reads_inside_record_refuted.

(** A record of length two or three makes the parser throw or read uninitialised memory. *)
Theorem C45_short_record_throws :
  parse_stream 100 4096 ([0; 2] ++ [0; 4; ENDEL; 0]) = Throw /\
  parse_stream 100 4096 ([0; 3; LAYER] ++ [0; 4; ENDEL; 0]) = Throw /\
  parse_stream 100 4096 [0; 2] = UB.
Proof. vm_compute. repeat split. Qed.
Print Assumptions C45_short_record_throws.

(** A zero length before any record dereferences a null record pointer. *)
Theorem C45_leading_zeros_is_ub : forall fuel rest,
  parse_stream (S fuel) 4096 (0 :: 0 :: rest) = UB.
Proof.
  intros fuel rest. unfold parse_stream. set (F := S fuel) at 1. cbn [loop]. unfold pass.
  destruct (parse_two F 4096 0 0 rest) as (st1 & off & -> & _ & _ & R0 & R1); [lia|].
  cbn [bind]. rewrite R0, R1. reflexivity.
Qed.
Print Assumptions C45_leading_zeros_is_ub.

Example C45_nontrivial :
  ~ meets_one [0; 6; 13; 2; 0; 1; 0; 4; 17; 0] /\
  incomplete [0; 6; 13; 2; 0] /\ Forall byte [0; 6; 13; 2; 0; 1; 0; 4; 17; 0].
Proof.
  split; [|split].
  - intros H. repeat match goal with
    | H : meets_one _ |- _ => inversion H; subst; clear H; cbn in *; try lia
    end.
  - cbn. unfold byte. lia.
  - repeat constructor; unfold byte; lia.
Qed.
