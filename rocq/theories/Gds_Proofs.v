From Verif Require Import Base Gds_Model Gds_Spec.
Local Open Scope Z_scope.
Local Open Scope res_scope.

Lemma skipn_skipn {A} (x y : nat) (l : list A) : skipn x (skipn y l) = skipn (x + y) l.
Proof.
  revert l; induction y as [|y IH]; intros l; [now rewrite Nat.add_0_r|].
  rewrite Nat.add_succ_r. destruct l; [now rewrite !skipn_nil|]. apply IH.
Qed.

(** ** Bit tricks *)

Lemma lxor_ones y n : 0 <= n -> 0 <= y < 2 ^ n -> Z.lxor y (2 ^ n - 1) = 2 ^ n - 1 - y.
Proof.
  intros Hn Hy.
  replace (2 ^ n - 1) with (Z.ones n) by (rewrite Z.ones_equiv; lia).
  assert (Hs : y + Z.lxor y (Z.ones n) = Z.ones n).
  { rewrite Z.add_nocarry_lxor.
    - rewrite <- Z.lxor_assoc, Z.lxor_nilpotent. apply Z.lxor_0_l.
    - apply Z.bits_inj'. intros i Hi. rewrite Z.land_spec, Z.lxor_spec, Z.bits_0.
      destruct (Z.ltb_spec i n).
      + rewrite Z.ones_spec_low by lia. now destruct (Z.testbit y i).
      + rewrite Z.ones_spec_high by lia.
        destruct (Z.eq_dec y 0) as [->|Hy0]; [now rewrite Z.bits_0|].
        rewrite (Z.bits_above_log2 y i); [easy|lia|].
        assert (Z.log2 y < n) by (apply Z.log2_lt_pow2; lia). lia. }
  lia.
Qed.

Lemma land_low d n : 0 <= n -> Z.land d (2 ^ n - 1) = d mod 2 ^ n.
Proof.
  intros Hn. replace (2 ^ n - 1) with (Z.ones n) by (rewrite Z.ones_equiv; lia).
  now apply Z.land_ones.
Qed.

Lemma testbit_top d n : 0 <= n -> 0 <= d < 2 ^ (n + 1) -> Z.testbit d n = (2 ^ n <=? d).
Proof.
  intros Hn Hd.
  rewrite Z.pow_add_r in Hd by lia. change (2 ^ 1) with 2 in Hd.
  assert (Hp : 0 < 2 ^ n) by (apply Z.pow_pos_nonneg; lia).
  destruct (Z.leb_spec (2 ^ n) d).
  - apply Z.testbit_true; [lia|].
    replace (d / 2 ^ n) with 1; [reflexivity|].
    apply Z.div_unique with (d - 2 ^ n); lia.
  - apply Z.testbit_false; [lia|]. rewrite Z.div_small by lia. reflexivity.
Qed.

(** The negation by masks of EGdsParser.cpp:130-135/150-155 is two's complement. *)
Lemma mask_negate d n : 0 <= n <= 31 -> 0 <= d < 2 ^ (n + 1) ->
  to_int32 (if Z.testbit d n
            then ((Z.lxor (Z.land d (2 ^ n - 1)) (2 ^ n - 1) + 1) * (2 ^ 32 - 1)) mod 2 ^ 32
            else d) = (if d <? 2 ^ n then d else d - 2 ^ (n + 1)).
Proof.
  intros Hn Hd. rewrite testbit_top by lia.
  assert (Hpow : 2 ^ (n + 1) = 2 * 2 ^ n) by (rewrite Z.pow_add_r by lia; lia).
  assert (Hp : 0 < 2 ^ n) by (apply Z.pow_pos_nonneg; lia).
  assert (Hle : 2 ^ n <= 2 ^ 31) by (apply Z.pow_le_mono_r; lia).
  assert (H31 : 2 ^ 32 = 2 * 2 ^ 31) by reflexivity.
  destruct (Z.leb_spec (2 ^ n) d), (Z.ltb_spec d (2 ^ n)); try lia.
  - rewrite land_low by lia.
    assert (Hm : d mod 2 ^ n = d - 2 ^ n) by (symmetry; apply Z.mod_unique with 1; lia).
    rewrite Hm, lxor_ones by lia.
    set (t := 2 ^ n - 1 - (d - 2 ^ n) + 1).
    assert (Ht : 1 <= t <= 2 ^ n) by (subst t; lia).
    replace ((t * (2 ^ 32 - 1)) mod 2 ^ 32) with (2 ^ 32 - t)
      by (apply Z.mod_unique with (t - 1); lia).
    unfold to_int32. destruct (Z.ltb_spec (2 ^ 32 - t) (2 ^ 31)); subst t; lia.
  - unfold to_int32. destruct (Z.ltb_spec d (2 ^ 31)); lia.
Qed.

(** ** Big-endian bytes *)

Lemma be_length k v : List.length (be k v) = k.
Proof. revert v; induction k; intros; simpl; [easy|]. rewrite app_length, IHk. simpl; lia. Qed.

Lemma be_bytes k v : Forall byte (be k v).
Proof.
  revert v; induction k; intros; simpl; [constructor|].
  apply Forall_app; split; [apply IHk|].
  constructor; [|constructor]. unfold byte. apply Z.mod_pos_bound. lia.
Qed.

Definition unbe (bs : list Z) : Z := fold_left (fun a b => a * 256 + b) bs 0.

Lemma unbe_be k v : 0 <= v < 256 ^ Z.of_nat k -> unbe (be k v) = v.
Proof.
  unfold unbe. revert v; induction k; intros v Hv.
  - simpl in *. change (256 ^ 0) with 1 in Hv. lia.
  - cbn [be]. rewrite fold_left_app, IHk.
    + cbn. rewrite (Z.div_mod v 256) at 3 by lia. lia.
    + rewrite Nat2Z.inj_succ, Z.pow_succ_r in Hv by lia.
      split; [apply Z.div_pos; lia|]. apply Z.div_lt_upper_bound; lia.
Qed.

Lemma unbe_bound bs : Forall byte bs -> 0 <= unbe bs < 256 ^ Z.of_nat (List.length bs).
Proof.
  unfold unbe. induction bs as [|b bs IH] using rev_ind; intros H.
  - cbn. lia.
  - apply Forall_app in H as [H1 H2]. inversion H2; subst. unfold byte in *.
    rewrite fold_left_app, app_length. cbn [fold_left List.length].
    rewrite Nat2Z.inj_add, Z.pow_add_r by lia. specialize (IH H1). nia.
Qed.

(** Shifting and adding modulo 2^w agrees with [unbe] when nothing overflows. *)
Lemma shift_fold w bs : 0 <= w -> Forall byte bs -> 256 ^ Z.of_nat (List.length bs) <= 2 ^ w ->
  fold_left (fun d b => (Z.shiftl d 8 mod 2 ^ w + b) mod 2 ^ w) bs 0 = unbe bs.
Proof.
  intros Hw Hb Hl.
  induction bs as [|b bs IH] using rev_ind; [reflexivity|].
  apply Forall_app in Hb as [Hb1 Hb2]. inversion Hb2; subst.
  replace (unbe (bs ++ [b])) with (unbe bs * 256 + b) by (unfold unbe; now rewrite fold_left_app).
  rewrite fold_left_app. cbn [fold_left].
  rewrite app_length in Hl. cbn [List.length] in Hl.
  rewrite Nat2Z.inj_add, Z.pow_add_r in Hl by lia. change (256 ^ Z.of_nat 1) with 256 in Hl.
  assert (Hp : 0 < 256 ^ Z.of_nat (List.length bs)) by (apply Z.pow_pos_nonneg; lia).
  rewrite IH by (assumption || lia).
  pose proof (unbe_bound bs Hb1) as Hu.
  generalize dependent (unbe bs). intros u _ Hu.
  unfold byte in *. rewrite Z.shiftl_mul_pow2 by lia. change (2 ^ 8) with 256.
  rewrite (Z.mod_small (u * 256)) by nia. apply Z.mod_small. nia.
Qed.

Lemma list2 {A} (l : list A) : List.length l = 2%nat -> exists a b, l = [a; b].
Proof. destruct l as [|a [|b [|]]]; try discriminate. eauto. Qed.

(** Decoding of each kind of value. *)
Lemma dec_int2_enc v : - 2 ^ 15 <= v < 2 ^ 15 ->
  dec_int2 (nthb (enc_int 2 v) 0) (nthb (enc_int 2 v) 1) = v.
Proof.
  intros Hv. unfold enc_int. change (256 ^ Z.of_nat 2) with (2 ^ 16).
  assert (Hr : 0 <= v mod 2 ^ 16 < 2 ^ 16) by (apply Z.mod_pos_bound; lia).
  set (u := v mod 2 ^ 16) in *.
  pose proof (unbe_be 2 u Hr) as Hu. pose proof (be_bytes 2 u) as Hb.
  destruct (list2 _ (be_length 2 u)) as (a & b & E). rewrite E in *.
  unfold nthb; cbn [nth]. unfold unbe in Hu; cbn in Hu.
  inversion Hb as [|? ? Ha Hb']; subst. inversion Hb'; subst. unfold byte in *.
  unfold dec_int2. rewrite Z.shiftl_mul_pow2 by lia. change (2 ^ 8) with 256.
  rewrite (Z.mod_small (a * 256 + b)) by lia.
  replace (a * 256 + b) with u by lia.
  rewrite mask_negate by (change (15 + 1) with 16; lia). change (15 + 1) with 16.
  subst u. change (2 ^ 16) with 65536 in *. change (2 ^ 15) with 32768 in *.
  destruct (Z.ltb_spec (v mod 65536) 32768);
    destruct (Z_lt_le_dec v 0).
  - rewrite <- (Z.mod_unique v 65536 (-1) (v + 65536)) in * by lia. lia.
  - apply Z.mod_small; lia.
  - rewrite <- (Z.mod_unique v 65536 (-1) (v + 65536)) in * by lia. lia.
  - rewrite Z.mod_small in * by lia. lia.
Qed.

Lemma dec_int4_enc v : - 2 ^ 31 <= v < 2 ^ 31 -> dec_int4 (enc_int 4 v) = v.
Proof.
  intros Hv. unfold enc_int. change (256 ^ Z.of_nat 4) with (2 ^ 32).
  assert (Hr : 0 <= v mod 2 ^ 32 < 2 ^ 32) by (apply Z.mod_pos_bound; lia).
  set (u := v mod 2 ^ 32) in *.
  unfold dec_int4. rewrite shift_fold;
    [|lia|apply be_bytes|rewrite be_length; change (256 ^ Z.of_nat 4) with (2 ^ 32); lia].
  rewrite unbe_be by exact Hr.
  rewrite mask_negate by (change (31 + 1) with 32; lia). change (31 + 1) with 32.
  subst u. change (2 ^ 32) with 4294967296 in *. change (2 ^ 31) with 2147483648 in *.
  destruct (Z.ltb_spec (v mod 4294967296) 2147483648);
    destruct (Z_lt_le_dec v 0).
  - rewrite <- (Z.mod_unique v 4294967296 (-1) (v + 4294967296)) in * by lia. lia.
  - apply Z.mod_small; lia.
  - rewrite <- (Z.mod_unique v 4294967296 (-1) (v + 4294967296)) in * by lia. lia.
  - rewrite Z.mod_small in * by lia. lia.
Qed.

Lemma dec_bits_enc w : 0 <= w < 65536 -> dec_bits (nthb (be 2 w) 0) (nthb (be 2 w) 1) = w.
Proof.
  intros Hw. pose proof (unbe_be 2 w Hw) as Hu.
  destruct (list2 _ (be_length 2 w)) as (a & b & E). rewrite E in *.
  unfold dec_bits, nthb; cbn [nth]. unfold unbe in Hu; cbn in Hu.
  rewrite Z.shiftl_mul_pow2 by lia. change (2 ^ 8) with 256. lia.
Qed.

Lemma dec_real_enc r : real8_ok r ->
  dec_real 56 (nthb (enc_real8 r) 0) (tl (enc_real8 r)) = real8_double r.
Proof.
  destruct r as [s e m]. intros [He Hm]; cbn [r_exp r_frac] in *.
  unfold enc_real8, dec_real, real8_double. cbn [r_neg r_exp r_frac nthb nth tl].
  rewrite shift_fold;
    [|lia|apply be_bytes|rewrite be_length; change (256 ^ Z.of_nat 7) with (2 ^ 56); lia].
  rewrite unbe_be by (change (256 ^ Z.of_nat 7) with (2 ^ 56); lia).
  rewrite testbit_top by (change (2 ^ (7 + 1)) with 256; destruct s; lia).
  change 127 with (2 ^ 7 - 1). rewrite land_low by lia. change (2 ^ 7) with 128 in *.
  assert (E : ((if s then 128 else 0) + e) mod 128 = e).
  { destruct s; [symmetry; apply Z.mod_unique with 1; lia|rewrite Z.add_0_l; apply Z.mod_small; lia]. }
  rewrite E. f_equal. destruct s; [apply Z.leb_le; lia|apply Z.leb_gt; lia].
Qed.

(** ** Decoding a record held in memory *)

Section Get.
  Context (get : nat -> res Z) (bs : list Z).
  Context (Hget : forall i, (i < List.length bs)%nat -> get i = Ok (nth i bs 0)).

  Lemma get_bytes_ok k i : (i + k <= List.length bs)%nat ->
    get_bytes get i k = Ok (firstn k (skipn i bs)).
  Proof using Hget.
    revert i; induction k; intros i Hi; [reflexivity|].
    cbn [get_bytes]. rewrite Hget by lia. cbn [bind]. rewrite IHk by lia. cbn [bind].
    f_equal.
    destruct (skipn i bs) as [|b l] eqn:E.
    - apply (f_equal (@List.length Z)) in E. rewrite skipn_length in E. simpl in E. lia.
    - cbn [firstn].
      assert (Hn : nth i bs 0 = b).
      { rewrite <- (firstn_skipn i bs), E, app_nth2; rewrite firstn_length; [|lia].
        replace (i - Nat.min i (List.length bs))%nat with 0%nat by lia. reflexivity. }
      assert (Hs : skipn (S i) bs = l).
      { replace (S i) with (1 + i)%nat by lia. rewrite <- skipn_skipn, E. reflexivity. }
      now rewrite Hn, Hs.
  Qed.

  Lemma dec_seq_ok {A V} (dec : list Z -> A) (enc : V -> list Z) (val : V -> A) k (vs : list V) i :
    (forall v, In v vs -> List.length (enc v) = k /\ dec (enc v) = val v) ->
    skipn i bs = List.concat (map enc vs) ->
    (i <= List.length bs)%nat ->
    dec_seq get dec k (List.length vs) i = Ok (map val vs).
  Proof using Hget.
    revert i; induction vs as [|v vs IH]; intros i Hv Hs Hi; [reflexivity|].
    cbn [List.length dec_seq map List.concat] in *.
    destruct (Hv v (or_introl eq_refl)) as [Hl Hd].
    assert (Hlen : List.length (skipn i bs) = (k + List.length (List.concat (map enc vs)))%nat)
      by (rewrite Hs, app_length, Hl; lia).
    rewrite skipn_length in Hlen.
    rewrite get_bytes_ok by lia. cbn [bind].
    assert (Hf : firstn k (skipn i bs) = enc v).
    { rewrite Hs, firstn_app, Hl, Nat.sub_diag, firstn_O, app_nil_r.
      rewrite <- Hl. apply firstn_all. }
    rewrite Hf, Hd, IH; [reflexivity| | |].
    - intros w Hw. apply Hv. now right.
    - rewrite Nat.add_comm, <- skipn_skipn, Hs, skipn_app, Hl, Nat.sub_diag.
      rewrite skipn_all2 by lia. reflexivity.
    - lia.
  Qed.

  Lemma dec_string_ok cs i : skipn i bs = pad cs -> (i <= List.length bs)%nat ->
    dec_string get (List.length (pad cs) / 2) i = Ok (text_of cs).
  Proof using Hget.
    revert i. remember (List.length cs) as n eqn:En. revert cs En.
    induction n as [n IH] using lt_wf_ind; intros cs En i Hs Hi.
    destruct cs as [|c1 [|c2 cs]].
    - reflexivity.
    - cbn [pad List.length Nat.even app] in *. change (2 / 2)%nat with 1%nat. cbn [dec_string].
      assert (Hlen := f_equal (@List.length Z) Hs). rewrite skipn_length in Hlen. simpl in Hlen.
      assert (G1 : get i = Ok c1).
      { rewrite Hget by lia. f_equal. rewrite <- (firstn_skipn i bs), app_nth2, firstn_length, Hs; [|rewrite firstn_length; lia].
        replace (i - Nat.min i (List.length bs))%nat with 0%nat by lia. reflexivity. }
      assert (G2 : get (S i) = Ok 0).
      { rewrite Hget by lia. f_equal. rewrite <- (firstn_skipn i bs), app_nth2, firstn_length, Hs; [|rewrite firstn_length; lia].
        replace (S i - Nat.min i (List.length bs))%nat with 1%nat by lia. reflexivity. }
      rewrite G1, G2. cbn [bind text_of]. change (0 =? 0) with true.
      destruct (c1 =? 0); reflexivity.
    - assert (Hp : pad (c1 :: c2 :: cs) = c1 :: c2 :: pad cs).
      { unfold pad. cbn [List.length Nat.even]. destruct (Nat.even (List.length cs)); reflexivity. }
      rewrite Hp in *. cbn [List.length].
      assert (Hlen := f_equal (@List.length Z) Hs). rewrite skipn_length in Hlen. simpl in Hlen.
      replace (S (S (List.length (pad cs))) / 2)%nat with (S (List.length (pad cs) / 2))%nat.
      2:{ replace (S (S (List.length (pad cs))))%nat with (1 * 2 + List.length (pad cs))%nat by lia.
          rewrite Nat.div_add_l by lia. lia. }
      cbn [dec_string].
      assert (G1 : get i = Ok c1).
      { rewrite Hget by lia. f_equal. rewrite <- (firstn_skipn i bs), app_nth2, firstn_length, Hs; [|rewrite firstn_length; lia].
        replace (i - Nat.min i (List.length bs))%nat with 0%nat by lia. reflexivity. }
      assert (G2 : get (S i) = Ok c2).
      { rewrite Hget by lia. f_equal. rewrite <- (firstn_skipn i bs), app_nth2, firstn_length, Hs; [|rewrite firstn_length; lia].
        replace (S i - Nat.min i (List.length bs))%nat with 1%nat by lia. reflexivity. }
      rewrite G1, G2. cbn [bind text_of].
      destruct (c1 =? 0); [reflexivity|].
      destruct (c2 =? 0); [reflexivity|].
      rewrite (IH (List.length cs)); [reflexivity| |reflexivity| |].
      + subst n. simpl. lia.
      + replace (S (S i)) with (2 + i)%nat by lia. rewrite <- skipn_skipn, Hs. reflexivity.
      + lia.
  Qed.
End Get.

Lemma concat_length_const {V} (enc : V -> list Z) k vs :
  (forall v, In v vs -> List.length (enc v) = k) ->
  List.length (List.concat (map enc vs)) = (List.length vs * k)%nat.
Proof.
  induction vs as [|v vs IH]; intros H; [reflexivity|].
  cbn [map List.concat List.length]. rewrite app_length, IH, (H v); [lia|now left|].
  intros; apply H; now right.
Qed.

Lemma steps_exact c k : (0 < k)%nat -> steps (2 + c * k) k = c.
Proof.
  intros Hk. unfold steps. replace (2 + c * k - 2 + (k - 1))%nat with (c * k + (k - 1))%nat by lia.
  rewrite Nat.div_add_l by lia. rewrite Nat.div_small by lia. lia.
Qed.

Lemma pad_even cs : exists h, List.length (pad cs) = (h * 2)%nat.
Proof.
  unfold pad. destruct (Nat.even (List.length cs)) eqn:E.
  - apply Nat.even_spec in E as [h Hh]. exists h. lia.
  - rewrite <- Nat.negb_odd in E. apply negb_false_iff, Nat.odd_spec in E as [h Hh].
    exists (S h). rewrite app_length, Hh. simpl. lia.
Qed.

Ltac in_cases H := repeat (destruct H as [<-|H]; [|]); try contradiction.

Lemma expected_bits t : In t bit_records -> expected_data (record_type t) = 1 /\ record_type t = t.
Proof. intros H. unfold bit_records in H; cbn [In] in H. in_cases H; now vm_compute. Qed.
Lemma expected_int2 t : In t int2_records -> expected_data (record_type t) = 2 /\ record_type t = t.
Proof. intros H. unfold int2_records in H; cbn [In] in H. in_cases H; now vm_compute. Qed.
Lemma expected_int4 t : In t int4_records -> expected_data (record_type t) = 3 /\ record_type t = t.
Proof. intros H. unfold int4_records in H; cbn [In] in H. in_cases H; now vm_compute. Qed.
Lemma expected_real8 t : In t real8_records -> expected_data (record_type t) = 5 /\ record_type t = t.
Proof. intros H. unfold real8_records in H; cbn [In] in H. in_cases H; now vm_compute. Qed.
Lemma expected_string t : In t string_records -> expected_data (record_type t) = 6 /\ record_type t = t.
Proof. intros H. unfold string_records in H; cbn [In] in H. in_cases H; now vm_compute. Qed.
Lemma expected_empty t : In t empty_records -> expected_data (record_type t) = 0 /\ record_type t = t.
Proof. intros H. unfold empty_records in H; cbn [In] in H. in_cases H; now vm_compute. Qed.
Lemma expected_other t : In t other_records \/ 60 <= t -> expected_data (record_type t) = 65535.
Proof.
  intros [H|H].
  - unfold other_records in H; cbn [In] in H. in_cases H; now vm_compute.
  - unfold record_type, UNKNOWN. destruct (Z.ltb_spec 60 t); [reflexivity|].
    now replace t with 60 by lia.
Qed.

Lemma data_type_min t : data_type t = Z.min t 7.
Proof. unfold data_type. destruct (Z.ltb_spec 7 t); lia. Qed.

Lemma dec_record_ok r get :
  rec_ok r ->
  let bs := [g_type r; g_tag r] ++ enc_body (g_body r) in
  (forall i, (i < List.length bs)%nat -> get i = Ok (nth i bs 0)) ->
  dec_record get (List.length bs) = Ok (rec_event r).
Proof.
  intros (Ht & Htag & Hb & Hlen) bs Hget.
  assert (Hl : List.length bs = (2 + List.length (enc_body (g_body r)))%nat) by reflexivity.
  assert (G0 : get 0%nat = Ok (g_type r)) by (rewrite Hget by (rewrite Hl; lia); reflexivity).
  assert (G1 : get 1%nat = Ok (g_tag r)) by (rewrite Hget by (rewrite Hl; lia); reflexivity).
  assert (Hsk : skipn 2 bs = enc_body (g_body r)) by reflexivity.
  unfold dec_record. rewrite G0; cbn [bind]. rewrite G1; cbn [bind]. rewrite data_type_min.
  assert (Hres : (List.length bs <? 2)%nat = false) by (apply Nat.ltb_ge; rewrite Hl; lia).
  rewrite Hres. clear G0 G1 Hres.
  unfold rec_event.
  destruct r as [t tag c]; cbn [g_type g_tag g_body] in *.
  destruct c as [ws|vs|vs|rs|cs| |os]; cbn [body_ok enc_body] in *.
  - destruct Hb as [Hin Hf]. destruct (expected_bits _ Hin) as [-> ->]. cbn [bind].
    change (1 =? BIT_ARRAY) with true. cbn [bind].
    assert (Hk : forall v, In v ws -> List.length (be 2 v) = 2%nat) by (intros; apply be_length).
    rewrite Hl, (concat_length_const _ 2 ws Hk), steps_exact by lia.
    rewrite (dec_seq_ok get bs Hget _ (be 2) (fun w => w) 2 ws).
    + cbn [bind]. now rewrite map_id.
    + intros v Hv. split; [apply be_length|]. apply dec_bits_enc. rewrite Forall_forall in Hf; auto.
    + exact Hsk.
    + rewrite Hl; lia.
  - destruct Hb as [Hin Hf]. destruct (expected_int2 _ Hin) as [-> ->].
    change (2 =? BIT_ARRAY) with false. change (2 =? INTEGER_2) with true. cbn [bind].
    assert (Hk : forall v, In v vs -> List.length (enc_int 2 v) = 2%nat) by (intros; apply be_length).
    rewrite Hl, (concat_length_const _ 2 vs Hk), steps_exact by lia.
    rewrite (dec_seq_ok get bs Hget _ (enc_int 2) (fun w => w) 2 vs).
    + cbn [bind]. now rewrite map_id.
    + intros v Hv. split; [apply be_length|]. apply dec_int2_enc. rewrite Forall_forall in Hf; auto.
    + exact Hsk.
    + rewrite Hl; lia.
  - destruct Hb as [Hin Hf]. destruct (expected_int4 _ Hin) as [-> ->].
    change (3 =? BIT_ARRAY) with false. change (3 =? INTEGER_2) with false.
    change (3 =? INTEGER_4) with true. cbn [bind].
    assert (Hk : forall v, In v vs -> List.length (enc_int 4 v) = 4%nat) by (intros; apply be_length).
    rewrite Hl, (concat_length_const _ 4 vs Hk), steps_exact by lia.
    rewrite (dec_seq_ok get bs Hget _ (enc_int 4) (fun w => w) 4 vs).
    + cbn [bind]. now rewrite map_id.
    + intros v Hv. split; [apply be_length|]. apply dec_int4_enc. rewrite Forall_forall in Hf; auto.
    + exact Hsk.
    + rewrite Hl; lia.
  - destruct Hb as [Hin Hf]. destruct (expected_real8 _ Hin) as [-> ->].
    change (5 =? BIT_ARRAY) with false. change (5 =? INTEGER_2) with false.
    change (5 =? INTEGER_4) with false. change (5 =? REAL_4) with false.
    change (5 =? REAL_8) with true. cbn [bind].
    assert (Hk : forall v, In v rs -> List.length (enc_real8 v) = 8%nat)
      by (intros; unfold enc_real8; cbn [List.length]; now rewrite be_length).
    rewrite Hl, (concat_length_const _ 8 rs Hk), steps_exact by lia.
    rewrite (dec_seq_ok get bs Hget _ enc_real8 real8_double 8 rs).
    + reflexivity.
    + intros v Hv. split; [now apply Hk|]. apply dec_real_enc. rewrite Forall_forall in Hf; auto.
    + exact Hsk.
    + rewrite Hl; lia.
  - destruct Hb as [Hin Hf]. destruct (expected_string _ Hin) as [-> ->].
    change (6 =? BIT_ARRAY) with false. change (6 =? INTEGER_2) with false.
    change (6 =? INTEGER_4) with false. change (6 =? REAL_4) with false.
    change (6 =? REAL_8) with false. change (6 =? DSTRING) with true. cbn [bind].
    destruct (pad_even cs) as [h Hh].
    assert (Es : steps (List.length bs) 2 = (List.length (pad cs) / 2)%nat).
    { rewrite Hl, Hh, steps_exact, Nat.div_mul by lia. reflexivity. }
    rewrite Es, (dec_string_ok get bs Hget); [reflexivity|exact Hsk|rewrite Hl; lia].
  - destruct (expected_empty _ Hb) as [-> ->]. reflexivity.
  - destruct Hb as [Hin Hf]. rewrite (expected_other _ Hin). reflexivity.
Qed.

(** ** The buffer holds the unread part of the stream *)

Definition holds (st : pst) (u : list Z) : Prop :=
  firstn (p_len st) (skipn (p_ptr st) (p_mem st)) = map Some (firstn (p_len st) u) /\
  p_in st = skipn (p_len st) u /\
  (p_len st <= List.length u)%nat /\
  List.length (p_mem st) = Z.to_nat (p_cap st) /\
  (p_ptr st + p_len st <= List.length (p_mem st))%nat /\
  1 <= p_cap st <= 2 ^ 33.

Lemma grow_ok k fuel cap n : 1 <= cap <= 2 ^ 33 -> 0 <= n <= 2 ^ 17 -> n <= cap * 2 ^ Z.of_nat k ->
  (k <= fuel)%nat -> exists cap', grow fuel cap n = Ok cap' /\ cap <= cap' /\ n <= cap' /\ cap' <= 2 ^ 33.
Proof.
  revert fuel cap; induction k; intros fuel cap Hc Hn Hk Hf.
  - change (2 ^ Z.of_nat 0) with 1 in Hk. exists cap.
    destruct fuel; cbn [grow]; destruct (Z.ltb_spec cap n); try lia; split; try reflexivity; lia.
  - destruct fuel as [|fuel]; [lia|]. cbn [grow]. destruct (Z.ltb_spec cap n).
    + change (2 ^ 17) with 131072 in *. change (2 ^ 33) with 8589934592 in *.
      change (2 ^ 64) with 18446744073709551616.
      rewrite Z.mod_small by lia.
      rewrite Nat2Z.inj_succ, Z.pow_succ_r in Hk by lia.
      destruct (IHk fuel (cap * 2)) as (c' & E & ? & ? & ?); try lia.
      exists c'. repeat split; try assumption; lia.
    + exists cap. repeat split; lia.
Qed.

Lemma write_at_length off xs mem : (off + List.length xs <= List.length mem)%nat ->
  List.length (write_at off xs mem) = List.length mem.
Proof.
  intros H. unfold write_at. rewrite !app_length, firstn_length, skipn_length. lia.
Qed.

Lemma firstn_app_exact {A} (l1 l2 : list A) n : List.length l1 = n -> firstn n (l1 ++ l2) = l1.
Proof. intros <-. rewrite firstn_app, Nat.sub_diag, firstn_O, app_nil_r. apply firstn_all. Qed.

(** After a refill. *)
Lemma refill_holds (len : nat) cap gen mem0 u :
  List.length mem0 = Z.to_nat cap -> 1 <= cap <= 2 ^ 33 ->
  (len <= List.length u)%nat -> (len <= Z.to_nat cap)%nat ->
  let kept := map Some (firstn len u) in
  let mem1 := write_at 0 kept mem0 in
  let room := (Z.to_nat cap - len)%nat in
  let chunk := firstn room (skipn len u) in
  let st := mkpst cap gen (write_at len (map Some chunk) mem1) 0 (len + List.length chunk)
                  (skipn room (skipn len u)) in
  holds st u /\ (p_len st = Nat.min (Z.to_nat cap) (List.length u)).
Proof.
  intros Hm Hc Hl1 Hl2 kept mem1 room chunk st.
  assert (Lk : List.length kept = len) by (unfold kept; rewrite map_length, firstn_length; lia).
  assert (L1 : List.length mem1 = Z.to_nat cap) by (unfold mem1; rewrite write_at_length; lia).
  assert (Lc : List.length chunk = Nat.min room (List.length u - len)%nat)
    by (unfold chunk; rewrite firstn_length, skipn_length; lia).
  assert (Hlen : p_len st = Nat.min (Z.to_nat cap) (List.length u)).
  { unfold st; cbn [p_len]. rewrite Lc. unfold room. lia. }
  assert (Hf : firstn (len + List.length chunk) u = firstn len u ++ chunk).
  { rewrite <- (firstn_skipn len u) at 1. rewrite firstn_app, firstn_firstn, firstn_length.
    replace (Nat.min (len + List.length chunk) len) with len by lia.
    replace (Nat.min len (List.length u)) with len by lia.
    replace (len + List.length chunk - len)%nat with (List.length chunk) by lia.
    f_equal. rewrite Lc. unfold chunk.
    rewrite <- (skipn_length len u). destruct (Nat.le_gt_cases room (List.length (skipn len u))).
    - now rewrite Nat.min_l by lia.
    - rewrite Nat.min_r by lia. rewrite firstn_all. now rewrite firstn_all2 by lia. }
  split; [|exact Hlen].
  unfold holds, st; cbn [p_len p_ptr p_mem p_in p_cap].
  repeat split; try lia.
  - cbn [skipn]. unfold write_at at 1.
    assert (Hfm : firstn len mem1 = kept).
    { unfold mem1, write_at. cbn [firstn app]. apply firstn_app_exact; exact Lk. }
    rewrite Hfm, app_assoc.
    rewrite firstn_app_exact by (rewrite app_length, map_length, Lk; reflexivity).
    rewrite Hf, map_app. reflexivity.
  - rewrite skipn_skipn, Lc. unfold room.
    destruct (Nat.le_gt_cases (Z.to_nat cap) (List.length u)).
    + f_equal. lia.
    + rewrite !skipn_all2; [reflexivity|lia|lia].
  - rewrite write_at_length; [exact L1|]. rewrite map_length, L1, Lc. unfold room. lia.
  - rewrite write_at_length; [|rewrite map_length, L1, Lc; unfold room; lia].
    rewrite L1, Lc. unfold room. lia.
Qed.

Definition grow_fuel : nat := 64.

Lemma parse_refill F st n u : holds st u -> 0 <= n <= 65536 ->
  (grow_fuel <= F)%nat \/ n * 2 <= p_cap st ->
  exists st1, holds st1 u /\ (n <= Z.of_nat (List.length u) -> n <= Z.of_nat (p_len st1)) /\
  (p_len st <= p_len st1)%nat /\
  parse F st n =
    if n <=? Z.of_nat (p_len st1) then
      Ok (mkpst (p_cap st1) (p_gen st1) (p_mem st1) (p_ptr st1 + Z.to_nat n)
              (p_len st1 - Z.to_nat n) (p_in st1), Some (p_ptr st1))
    else Ok (st1, None).
Proof.
  intros (Hmem & Hin & Hlu & Hlm & Hpl & Hcap) Hn HF. unfold grow_fuel in HF.
  unfold parse.
  destruct (Z.ltb_spec (Z.of_nat (p_len st)) n) as [Hlt|Hge].
  - rewrite Hmem, Hin.
    change (2 ^ 64) with 18446744073709551616. rewrite (Z.mod_small (n * 2)) by lia.
    destruct (Z.ltb_spec (p_cap st) (n * 2)) as [Hg|Hg].
    + destruct HF as [HF|HF]; [|lia].
      destruct (grow_ok 17 F (p_cap st) n Hcap) as (c' & E & ? & ? & ?);
        [change (2 ^ 17) with 131072; lia| |lia|].
      { change (2 ^ Z.of_nat 17) with 131072. lia. }
      rewrite E. cbn [bind].
      assert (Hrep : List.length (@repeat (option Z) None (Z.to_nat c')) = Z.to_nat c') by apply repeat_length.
      destruct (refill_holds (p_len st) c' (S (p_gen st)) (repeat None (Z.to_nat c')) u Hrep) as [HH HL]; [lia|lia|lia|].
      eexists. split; [exact HH|]. split; [|split; [|reflexivity]].
      * intros Hle. rewrite HL. lia.
      * rewrite HL. lia.
    + cbn [bind].
      destruct (refill_holds (p_len st) (p_cap st) (p_gen st) (p_mem st) u Hlm Hcap Hlu) as [HH HL]; [lia|].
      eexists. split; [exact HH|]. split; [|split; [|reflexivity]].
      * intros Hle. rewrite HL. lia.
      * rewrite HL. lia.
  - cbn [bind]. exists st. split; [repeat split; try assumption; lia|]. split; [lia|]. split; [lia|]. reflexivity.
Qed.

Lemma nth_error_skipn' {A} (l : list A) n i : nth_error (skipn n l) i = nth_error l (n + i).
Proof. revert l; induction n; intros l; [reflexivity|]. destruct l; simpl; [now destruct i|apply IHn]. Qed.
Lemma nth_error_firstn' {A} (l : list A) n i : (i < n)%nat -> nth_error (firstn n l) i = nth_error l i.
Proof.
  revert l i; induction n; intros l i H; [lia|]. destruct l; [reflexivity|].
  destruct i; [reflexivity|]. simpl. apply IHn. lia.
Qed.

Lemma holds_get st u i : holds st u -> (i < p_len st)%nat ->
  nth_error (p_mem st) (p_ptr st + i) = Some (Some (nth i u 0)).
Proof.
  intros (Hmem & _ & Hlu & _) Hi.
  rewrite <- nth_error_skipn'. rewrite <- (nth_error_firstn' _ (p_len st)) by exact Hi.
  rewrite Hmem, nth_error_map, nth_error_firstn' by exact Hi.
  rewrite (nth_error_nth' u 0) by lia. reflexivity.
Qed.

Lemma parse_ok_cap F st n u : holds st u -> 0 <= n <= 65536 ->
  (grow_fuel <= F)%nat \/ n * 2 <= p_cap st ->
  n <= Z.of_nat (List.length u) ->
  exists st' off, parse F st n = Ok (st', Some off) /\ holds st' (skipn (Z.to_nat n) u) /\
    forall i, (i < Z.to_nat n)%nat -> rd st' (Some (p_gen st', off)) i = Ok (nth i u 0).
Proof.
  intros HH Hn HF Hle.
  destruct (parse_refill F st n u HH Hn HF) as (st1 & H1 & Hen & _ & ->).
  specialize (Hen Hle). destruct (Z.leb_spec n (Z.of_nat (p_len st1))); [|lia].
  do 2 eexists. split; [reflexivity|]. split.
  - pose proof H1 as (Hmem & Hin & Hlu & Hlm & Hpl & Hcap).
    unfold holds; cbn [p_len p_ptr p_mem p_in p_cap]. repeat split; try lia.
    + set (k := Z.to_nat n) in *.
      rewrite (Nat.add_comm (p_ptr st1)), <- skipn_skipn.
      rewrite (firstn_skipn_comm _ k u), (firstn_skipn_comm _ k (skipn _ _)). replace (k + (p_len st1 - k))%nat with (p_len st1) by lia.
      rewrite Hmem, skipn_map. reflexivity.
    + rewrite skipn_skipn, Hin. f_equal. lia.
    + rewrite skipn_length. lia.
  - intros i Hi. unfold rd; cbn [p_gen p_mem]. rewrite Nat.eqb_refl.
    rewrite (holds_get st1 u i H1) by lia. reflexivity.
Qed.

Lemma parse_ok F st n u : holds st u -> 0 <= n <= 65536 -> (grow_fuel <= F)%nat ->
  n <= Z.of_nat (List.length u) ->
  exists st' off, parse F st n = Ok (st', Some off) /\ holds st' (skipn (Z.to_nat n) u) /\
    forall i, (i < Z.to_nat n)%nat -> rd st' (Some (p_gen st', off)) i = Ok (nth i u 0).
Proof. intros. apply parse_ok_cap; auto. Qed.

Lemma parse_short F st n u : holds st u -> 0 <= n <= 65536 -> (grow_fuel <= F)%nat ->
  Z.of_nat (List.length u) < n -> exists st', parse F st n = Ok (st', None).
Proof.
  intros HH Hn HF Hlt.
  destruct (parse_refill F st n u HH Hn (or_introl HF)) as (st1 & H1 & _ & _ & ->).
  destruct H1 as (_ & _ & Hlu & _).
  destruct (Z.leb_spec n (Z.of_nat (p_len st1))); [lia|]. eauto.
Qed.

Lemma pinit_holds cap input : 1 <= cap <= 2 ^ 33 -> holds (pinit cap input) input.
Proof.
  intros Hc. unfold holds, pinit; cbn [p_len p_ptr p_mem p_in p_cap].
  repeat split; try lia. apply repeat_length.
Qed.

Lemma be2 v : 0 <= v < 65536 -> exists a b, be 2 v = [a; b] /\ byte a /\ byte b /\ a * 256 + b = v.
Proof.
  intros Hv. destruct (list2 _ (be_length 2 v)) as (a & b & E). exists a, b.
  pose proof (unbe_be 2 v Hv) as Hu. pose proof (be_bytes 2 v) as Hb. rewrite E in *.
  unfold unbe in Hu. cbn in Hu.
  pose proof (Forall_inv Hb) as H0. pose proof (Forall_inv (Forall_inv_tail Hb)) as H1.
  repeat split; unfold byte in *; lia.
Qed.

(** One pass over a whole record. *)
Lemma pass_record F st record r rest : rec_ok r -> holds st (enc_rec r ++ rest) -> (grow_fuel <= F)%nat ->
  exists st' record', pass F st record = Ok (Some (st', record', rec_event r)) /\ holds st' rest.
Proof.
  intros Hr HH HF. pose proof Hr as (Ht & Htag & Hb & Hlen).
  set (bs := [g_type r; g_tag r] ++ enc_body (g_body r)).
  set (N := 4 + Z.of_nat (List.length (enc_body (g_body r)))) in *.
  assert (Lb : List.length bs = (2 + List.length (enc_body (g_body r)))%nat) by reflexivity.
  assert (HN : 4 <= N < 65536) by lia.
  destruct (be2 N ltac:(lia)) as (a & b & Eab & Ha & Hbb & Hab).
  assert (Eu : enc_rec r ++ rest = a :: b :: bs ++ rest).
  { unfold enc_rec. fold N. rewrite Eab. fold bs. cbn [app]. reflexivity. }
  rewrite Eu in HH.
  unfold pass.
  destruct (parse_ok F st 2 _ HH) as (st1 & off & -> & H1 & G1); [lia|exact HF|cbn [List.length]; lia|].
  cbn [bind]. rewrite (G1 0%nat), (G1 1%nat) by (change (Z.to_nat 2) with 2%nat; lia). cbn [bind nth].
  change (Z.to_nat 2) with 2%nat in H1. cbn [skipn] in H1.
  rewrite Hab. destruct (Z.eqb_spec N 0); [lia|].
  rewrite (Z.mod_small (N - 2)) by (change (2 ^ 64) with 18446744073709551616; lia).
  destruct (parse_ok F st1 (N - 2) _ H1) as (st2 & off2 & -> & H2 & G2); [lia|exact HF|rewrite app_length; lia|].
  cbn [bind].
  assert (EN : Z.to_nat (N - 2) = List.length bs) by lia.
  rewrite EN in *.
  rewrite (dec_record_ok r).
  - cbn [bind]. do 2 eexists. split; [reflexivity|].
    rewrite skipn_app, skipn_all, Nat.sub_diag in H2. exact H2.
  - exact Hr.
  - intros i Hi. fold bs in Hi |- *. rewrite G2 by exact Hi. rewrite app_nth1 by exact Hi. reflexivity.
Qed.

Lemma pass_incomplete F st record u : incomplete u -> holds st u -> (grow_fuel <= F)%nat ->
  pass F st record = Ok None.
Proof.
  intros Hi HH HF. unfold pass.
  destruct u as [|a [|b u]]; cbn [incomplete] in Hi.
  - destruct (parse_short F st 2 [] HH) as [st' ->]; [lia|exact HF|cbn; lia|reflexivity].
  - destruct (parse_short F st 2 [a] HH) as [st' ->]; [lia|exact HF|cbn; lia|reflexivity].
  - destruct Hi as (Ha & Hb & Hge & Hlt). unfold byte in *.
    destruct (parse_ok F st 2 _ HH) as (st1 & off & -> & H1 & G1); [lia|exact HF|cbn [List.length]; lia|].
    cbn [bind]. rewrite (G1 0%nat), (G1 1%nat) by (change (Z.to_nat 2) with 2%nat; lia). cbn [bind nth].
    change (Z.to_nat 2) with 2%nat in H1. cbn [skipn] in H1.
    destruct (Z.eqb_spec (a * 256 + b) 0); [lia|].
    rewrite (Z.mod_small (a * 256 + b - 2)) by (change (2 ^ 64) with 18446744073709551616; lia).
    cbn [List.length] in Hlt.
    destruct (parse_short F st1 (a * 256 + b - 2) _ H1) as [st' ->]; [lia|exact HF|lia|reflexivity].
Qed.

Lemma loop_records F fuel st record rs rest :
  Forall rec_ok rs -> incomplete rest -> holds st (enc_all rs ++ rest) -> (grow_fuel <= F)%nat ->
  (List.length rs < fuel)%nat ->
  loop F fuel st record = Ok (events rs, true).
Proof.
  intros Hrs Hi HH HF Hfuel. revert fuel st record HH Hfuel.
  induction Hrs as [|r rs Hr Hrs IH]; intros fuel st record HH Hfuel;
    (destruct fuel as [|fuel]; [cbn [List.length] in Hfuel; lia|]); cbn [loop].
  - rewrite (pass_incomplete F st record _ Hi HH HF). reflexivity.
  - unfold enc_all in HH; cbn [map List.concat] in HH. rewrite <- app_assoc in HH.
    destruct (pass_record F st record r _ Hr HH HF) as (st' & record' & -> & H').
    cbn [bind]. rewrite (IH fuel st' record' H') by (cbn [List.length] in Hfuel; lia).
    cbn [bind events]. destruct (rec_event r); reflexivity.
Qed.

Lemma enc_all_length rs : (List.length rs <= List.length (enc_all rs))%nat.
Proof.
  induction rs as [|r rs IH]; [reflexivity|]. unfold enc_all in *; cbn [map List.concat List.length].
  rewrite app_length. unfold enc_rec at 1. rewrite app_length, be_length. lia.
Qed.

Theorem stream_with_rest fuel cap rs rest :
  1 <= cap <= 2 ^ 32 -> Forall rec_ok rs -> incomplete rest ->
  (List.length (enc_all rs) + grow_fuel <= fuel)%nat ->
  parse_stream fuel cap (enc_all rs ++ rest) = Ok (events rs, true).
Proof.
  intros Hc Hrs Hi Hf. unfold parse_stream, grow_fuel in *.
  apply loop_records with (rest := rest); [assumption|assumption| | |].
  - apply pinit_holds. change (2 ^ 33) with (2 * 2 ^ 32). lia.
  - unfold grow_fuel. lia.
  - pose proof (enc_all_length rs). lia.
Qed.

(** ** Rounding to a double *)

Lemma gap_free q k z : 2 ^ 52 <= q -> 1 <= k -> is_double_int z ->
  z <= q * 2 ^ k \/ (q + 1) * 2 ^ k <= z.
Proof.
  intros Hq Hk (K & j & Hj & HK & ->).
  destruct (Z_lt_le_dec j k) as [Hjk|Hjk].
  - left. apply Z.le_trans with (2 ^ 53 * 2 ^ (k - 1)).
    + assert (2 ^ j <= 2 ^ (k - 1)) by (apply Z.pow_le_mono_r; lia).
      assert (0 <= 2 ^ j) by (apply Z.pow_nonneg; lia).
      apply Z.mul_le_mono_nonneg; lia.
    + replace (2 ^ 53 * 2 ^ (k - 1)) with (2 ^ 52 * 2 ^ k).
      * apply Z.mul_le_mono_nonneg_r; [apply Z.pow_nonneg; lia|lia].
      * rewrite <- !Z.pow_add_r by lia. f_equal. lia.
  - replace (2 ^ j) with (2 ^ (j - k) * 2 ^ k) by (rewrite <- Z.pow_add_r by lia; f_equal; lia).
    rewrite Z.mul_assoc. set (w := K * 2 ^ (j - k)).
    assert (Hp : 0 < 2 ^ k) by (apply Z.pow_pos_nonneg; lia).
    destruct (Z_le_gt_dec w q); [left|right]; apply Z.mul_le_mono_nonneg_r; lia.
Qed.

Lemma round53_nearest m : 0 <= m ->
  is_double_int (round53 m) /\ forall z, is_double_int z -> Z.abs (m - round53 m) <= Z.abs (m - z).
Proof.
  intros Hm. unfold round53.
  destruct (Z.ltb_spec m (2 ^ 53)) as [Hlt|Hge].
  - split; [exists m, 0; cbn; lia|]. intros. rewrite Z.sub_diag. cbn. apply Z.abs_nonneg.
  - set (L := Z.log2 m). assert (Hpos : 0 < m) by lia.
    destruct (Z.log2_spec m Hpos) as [HL1 HL2]. fold L in HL1, HL2.
    assert (HL : 53 <= L) by (apply Z.log2_le_pow2; lia).
    set (k := L - 52). assert (Hk : 1 <= k) by lia.
    set (q := m / 2 ^ k). set (r := m mod 2 ^ k).
    assert (Hp : 0 < 2 ^ k) by (apply Z.pow_pos_nonneg; lia).
    assert (Hm' : m = q * 2 ^ k + r) by (unfold q, r; rewrite (Z.div_mod m (2 ^ k)) at 1 by lia; lia).
    assert (Hr : 0 <= r < 2 ^ k) by (apply Z.mod_pos_bound; lia).
    assert (Hq1 : 2 ^ 52 <= q).
    { apply Z.div_le_lower_bound; [lia|]. rewrite <- Z.pow_add_r by lia.
      replace (k + 52) with L by lia. lia. }
    assert (Hq2 : q < 2 ^ 53).
    { apply Z.div_lt_upper_bound; [lia|]. rewrite <- Z.pow_add_r by lia.
      replace (k + 53) with (Z.succ L) by lia. lia. }
    assert (Hh : 2 ^ k = 2 * 2 ^ (k - 1)).
    { replace k with (1 + (k - 1)) at 1 by lia. rewrite Z.pow_add_r by lia. reflexivity. }
    assert (Dq : is_double_int (q * 2 ^ k)) by (exists q, k; lia).
    assert (Dq1 : is_double_int ((q + 1) * 2 ^ k)) by (exists (q + 1), k; lia).
    assert (Hgap : forall z, is_double_int z -> z <= q * 2 ^ k \/ (q + 1) * 2 ^ k <= z)
      by (intros; now apply gap_free).
    rewrite Z.mul_add_distr_r, Z.mul_1_l in *.
    clearbody q r. set (B := 2 ^ k) in *. set (H := 2 ^ (k - 1)) in *. clearbody B H.
    set (A := q * B) in *. clearbody A.
    assert (Hcase : ((r <? H) || ((r =? H) && Z.even q) = true -> r <= H) /\
                    ((r <? H) || ((r =? H) && Z.even q) = false -> H <= r)).
    { destruct (Z.ltb_spec r H); cbn [orb]; (split; intros Hc); try discriminate; try lia. }
    destruct Hcase as [Ht Hf].
    destruct ((r <? H) || ((r =? H) && Z.even q)).
    + specialize (Ht eq_refl). clear Hf. split; [assumption|]. intros z Hz.
      specialize (Hgap z Hz). clear - Hm' Hr Hh Ht Hgap. subst m. lia.
    + specialize (Hf eq_refl). clear Ht. split; [assumption|]. intros z Hz.
      specialize (Hgap z Hz). clear - Hm' Hr Hh Hf Hgap. subst m. lia.
Qed.

Lemma round53_exact m : 0 <= m -> is_double_int m -> round53 m = m.
Proof.
  intros Hm Hd. destruct (round53_nearest m Hm) as [_ H]. specialize (H m Hd).
  rewrite Z.sub_diag in H. cbn in H. lia.
Qed.

(** ** Divergence *)

Lemma grow_diverges_zero fuel n : 0 < n -> grow fuel 0 n = OutOfFuel.
Proof.
  intros Hn. induction fuel as [|f IH]; cbn [grow]; destruct (Z.ltb_spec 0 n); try lia; auto.
Qed.

Lemma grow_diverges fuel i : (i <= 64)%nat -> grow fuel (2 ^ Z.of_nat (64 - i) mod 2 ^ 64) (2 ^ 64 - 1) = OutOfFuel.
Proof.
  revert fuel; induction i as [|i IH]; intros fuel Hi.
  - replace (2 ^ Z.of_nat (64 - 0) mod 2 ^ 64) with 0 by reflexivity.
    apply grow_diverges_zero. reflexivity.
  - set (e := Z.of_nat (64 - S i)). assert (He : 0 <= e <= 63) by lia.
    assert (Hp : 0 < 2 ^ e) by (apply Z.pow_pos_nonneg; lia).
    assert (Hp2 : 2 ^ e <= 2 ^ 63) by (apply Z.pow_le_mono_r; lia).
    change (2 ^ 64) with (2 * 2 ^ 63) in *.
    rewrite Z.mod_small by lia.
    destruct fuel as [|f]; cbn [grow]; (destruct (Z.ltb_spec (2 ^ e) (2 * 2 ^ 63 - 1)) as [?|Hx]; [|change (2 ^ 63) with 9223372036854775808 in *; lia]); [reflexivity|].
    specialize (IH f ltac:(lia)).
    replace (2 ^ e * 2) with (2 ^ Z.of_nat (64 - i)); [exact IH|].
    subst e. replace (Z.of_nat (64 - i)) with (Z.of_nat (64 - S i) + 1) by lia.
    rewrite Z.pow_add_r by lia. reflexivity.
Qed.

(** The first two bytes, without any growth. *)
Lemma parse_two F cap a b rest : 4 <= cap <= 2 ^ 33 ->
  exists st1 off, parse F (pinit cap (a :: b :: rest)) 2 = Ok (st1, Some off) /\
    p_cap st1 = cap /\ (p_len st1 <= Z.to_nat cap)%nat /\
    rd st1 (Some (p_gen st1, off)) 0 = Ok a /\ rd st1 (Some (p_gen st1, off)) 1 = Ok b.
Proof.
  intros Hc.
  assert (HH : holds (pinit cap (a :: b :: rest)) (a :: b :: rest)) by (apply pinit_holds; lia).
  destruct (parse_ok_cap F _ 2 _ HH) as (st1 & off & E & H1 & G); [lia|right; cbn; lia|cbn [List.length]; lia|].
  exists st1, off. split; [exact E|].
  assert (Hcap : p_cap st1 = cap).
  { revert E. unfold parse, pinit; cbn [p_len p_cap p_gen p_mem p_ptr p_in].
    change (Z.of_nat 0 <? 2) with true. cbn iota. change ((2 * 2) mod 2 ^ 64) with 4.
    destruct (Z.ltb_spec cap 4); [lia|]. cbn [bind].
    destruct (2 <=? _); intros E; inversion E; reflexivity. }
  split; [exact Hcap|]. split.
  - destruct H1 as (_ & _ & _ & Hm & Hl & _). rewrite Hcap in Hm. lia.
  - split; rewrite G by (change (Z.to_nat 2) with 2%nat; lia); reflexivity.
Qed.

(** ** Only a record length of one makes the parser diverge *)

Definition fine {A} (r : res A) : Prop := r <> OutOfFuel.

Lemma fine_bind {A B} (r : res A) (f : A -> res B) : fine r -> (forall a, r = Ok a -> fine (f a)) -> fine (bind r f).
Proof. unfold fine. destruct r; cbn; intros H1 H2; try discriminate; [now apply H2|congruence]. Qed.

Lemma rd_fine st record i : fine (rd st record i).
Proof.
  unfold fine, rd. destruct record as [[g off]|]; [|discriminate].
  destruct (g =? p_gen st)%nat; [|discriminate].
  destruct (nth_error _ _) as [[]|]; discriminate.
Qed.

Section Fine.
  Context (get : nat -> res Z) (Hg : forall i, fine (get i)).
  Lemma get_bytes_fine k i : fine (get_bytes get i k).
  Proof using Hg.
    revert i; induction k; intros i; [discriminate|]. cbn [get_bytes].
    apply fine_bind; [apply Hg|]. intros. apply fine_bind; [apply IHk|]. discriminate.
  Qed.
  Lemma dec_seq_fine {A} (dec : list Z -> A) k c i : fine (dec_seq get dec k c i).
  Proof using Hg.
    revert i; induction c; intros i; [discriminate|]. cbn [dec_seq].
    apply fine_bind; [apply get_bytes_fine|]. intros. apply fine_bind; [apply IHc|]. discriminate.
  Qed.
  Lemma dec_string_fine c i : fine (dec_string get c i).
  Proof using Hg.
    revert i; induction c; intros i; [discriminate|]. cbn [dec_string].
    apply fine_bind; [apply Hg|]. intros. apply fine_bind; [apply Hg|]. intros.
    destruct (_ =? 0); [discriminate|]. destruct (_ =? 0); [discriminate|].
    apply fine_bind; [apply IHc|]. discriminate.
  Qed.
  Lemma dec_record_fine n : fine (dec_record get n).
  Proof using Hg.
    unfold dec_record. apply fine_bind; [apply Hg|]. intros. apply fine_bind; [apply Hg|]. intros.
    repeat match goal with
    | |- fine (if ?b then _ else _) => destruct b
    | |- fine (bind (dec_seq _ _ _ _ _) _) => apply fine_bind; [apply dec_seq_fine|intros]
    | |- fine (bind (dec_string _ _ _) _) => apply fine_bind; [apply dec_string_fine|intros]
    | |- fine (bind (if ?b then _ else _) _) => destruct b; cbn [bind]
    | |- fine (Ok _) => discriminate
    | |- fine Throw => discriminate
    end.
  Qed.
End Fine.

Lemma loop_fine F fuel st record u :
  Forall byte u -> holds st u -> ~ meets_one u -> (grow_fuel <= F)%nat -> (List.length u < fuel)%nat ->
  fine (loop F fuel st record).
Proof.
  revert st record u; induction fuel as [|fuel IH]; intros st record u Hb HH Hm HF Hl; [lia|].
  cbn [loop]. apply fine_bind.
  - unfold pass.
    destruct u as [|a [|b u]].
    + destruct (parse_short F st 2 [] HH) as [st' ->]; [lia|exact HF|cbn; lia|discriminate].
    + destruct (parse_short F st 2 [a] HH) as [st' ->]; [lia|exact HF|cbn; lia|discriminate].
    + pose proof (Forall_inv Hb) as Ha'. pose proof (Forall_inv (Forall_inv_tail Hb)) as Hb'. unfold byte in *.
      destruct (parse_ok F st 2 _ HH) as (st1 & off & -> & H1 & G1); [lia|exact HF|cbn [List.length]; lia|].
      cbn [bind]. rewrite (G1 0%nat), (G1 1%nat) by (change (Z.to_nat 2) with 2%nat; lia). cbn [bind nth].
      change (Z.to_nat 2) with 2%nat in H1. cbn [skipn] in H1.
      destruct (Z.eqb_spec (a * 256 + b) 0).
      * apply fine_bind; [apply dec_record_fine; intros; apply rd_fine|discriminate].
      * assert (a * 256 + b <> 1).
        { intros E. apply Hm. replace a with 0 by lia. replace b with 1 by lia. constructor. }
        rewrite (Z.mod_small (a * 256 + b - 2)) by (change (2 ^ 64) with 18446744073709551616; lia).
        destruct (Z_le_gt_dec (a * 256 + b - 2) (Z.of_nat (List.length u))).
        -- destruct (parse_ok F st1 (a * 256 + b - 2) _ H1) as (st2 & off2 & -> & _ & _); [lia|exact HF|lia|].
           cbn [bind]. apply fine_bind; [apply dec_record_fine; intros; apply rd_fine|discriminate].
        -- destruct (parse_short F st1 (a * 256 + b - 2) _ H1) as (st2 & ->); [lia|exact HF|lia|discriminate].
  - intros [[[st' record'] ev]|] E; [|discriminate].
    apply fine_bind; [|intros [? ?]; discriminate].
    revert E. unfold pass.
    destruct u as [|a [|b u]].
    + destruct (parse_short F st 2 [] HH) as [st1 ->]; [lia|exact HF|cbn; lia|discriminate].
    + destruct (parse_short F st 2 [a] HH) as [st1 ->]; [lia|exact HF|cbn; lia|discriminate].
    + pose proof (Forall_inv Hb) as Ha'. pose proof (Forall_inv (Forall_inv_tail Hb)) as Hb'. unfold byte in *.
      destruct (parse_ok F st 2 _ HH) as (st1 & off & -> & H1 & G1); [lia|exact HF|cbn [List.length]; lia|].
      cbn [bind]. rewrite (G1 0%nat), (G1 1%nat) by (change (Z.to_nat 2) with 2%nat; lia). cbn [bind nth].
      change (Z.to_nat 2) with 2%nat in H1. cbn [skipn] in H1. cbn [List.length] in Hl.
      apply Forall_inv_tail, Forall_inv_tail in Hb.
      destruct (Z.eqb_spec (a * 256 + b) 0).
      * destruct (dec_record _ _); cbn [bind]; try discriminate. intros E; inversion E; subst.
        apply (IH _ _ u); try assumption; [|lia].
        intros Hm'. apply Hm. replace a with 0 by lia. replace b with 0 by lia. now constructor.
      * assert (a * 256 + b <> 1).
        { intros E. apply Hm. replace a with 0 by lia. replace b with 1 by lia. constructor. }
        rewrite (Z.mod_small (a * 256 + b - 2)) by (change (2 ^ 64) with 18446744073709551616; lia).
        destruct (Z_le_gt_dec (a * 256 + b - 2) (Z.of_nat (List.length u))).
        -- destruct (parse_ok F st1 (a * 256 + b - 2) _ H1) as (st2 & off2 & -> & H2 & _); [lia|exact HF|lia|].
           cbn [bind]. destruct (dec_record _ _); cbn [bind]; try discriminate. intros E; inversion E; subst.
           apply (IH _ _ _) with (2 := H2).
           ++ rewrite <- (firstn_skipn (Z.to_nat (a * 256 + b - 2)) u) in Hb. now apply Forall_app in Hb as [_ Hb].
           ++ intros Hm'. apply Hm. apply one_later; [lia|lia|exact Hm'].
           ++ exact HF.
           ++ rewrite skipn_length. lia.
        -- destruct (parse_short F st1 (a * 256 + b - 2) _ H1) as (st2 & ->); [lia|exact HF|lia|discriminate].
Qed.

Lemma loop_true F fuel st record evs ok : loop F fuel st record = Ok (evs, ok) -> ok = true.
Proof.
  revert st record evs ok; induction fuel as [|fuel IH]; intros st record evs ok; cbn [loop]; [discriminate|].
  destruct (pass F st record) as [[[[st' record'] ev]|]| | |]; cbn [bind]; try discriminate.
  - destruct (loop F fuel st' record') as [[evs' ok']| | |] eqn:E; cbn [bind]; try discriminate.
    intros Hx; inversion Hx; subst. eapply IH; eassumption.
  - intros Hx; inversion Hx; reflexivity.
Qed.

(** Events never name the catch-all record code. *)
Definition ev_type (e : event) : Z :=
  match e with
  | EvBits t _ _ | EvInt2 t _ _ | EvInt4 t _ _ | EvReal4 t _ _ | EvReal8 t _ _ | EvString t _ _ => t
  | EvBeginEnd t => t
  end.

Lemma dec_record_known get n e : dec_record get n = Ok (Some e) -> ev_type e <> UNKNOWN.
Proof.
  unfold dec_record. destruct (get 0%nat) as [r0| | |]; cbn [bind]; try discriminate.
  destruct (get 1%nat) as [r1| | |]; cbn [bind]; try discriminate.
  destruct (Z.eq_dec (record_type r0) UNKNOWN) as [E|E].
  - rewrite E. change (expected_data UNKNOWN) with 65535. cbn. discriminate.
  - repeat match goal with
    | |- (if ?b then _ else _) = _ -> _ => destruct b
    | |- bind (if ?b then _ else _) _ = _ -> _ => destruct b; cbn [bind]
    | |- bind ?r _ = _ -> _ => destruct r; cbn [bind]
    end; intros Hx; inversion Hx; subst; cbn [ev_type]; assumption.
Qed.

Lemma loop_known F fuel st record evs ok :
  loop F fuel st record = Ok (evs, ok) -> Forall (fun e => ev_type e <> UNKNOWN) evs.
Proof.
  revert st record evs ok; induction fuel as [|fuel IH]; intros st record evs ok; cbn [loop]; [discriminate|].
  destruct (pass F st record) as [[[[st' record'] ev]|]| | |] eqn:P; cbn [bind]; try discriminate.
  - destruct (loop F fuel st' record') as [[evs' ok']| | |] eqn:E; cbn [bind]; try discriminate.
    intros Hx; inversion Hx; subst. specialize (IH _ _ _ _ E).
    destruct ev as [e|]; [|exact IH]. constructor; [|exact IH].
    revert P. unfold pass. destruct (parse F st 2) as [[st1 [off|]]| | |]; cbn [bind]; try discriminate.
    destruct (rd st1 _ 0) as [b0| | |]; cbn [bind]; try discriminate.
    destruct (rd st1 _ 1) as [b1| | |]; cbn [bind]; try discriminate.
    destruct (_ =? 0).
    + destruct (dec_record _ _) eqn:D; cbn [bind]; try discriminate. intros Hy; inversion Hy; subst.
      eapply dec_record_known; eassumption.
    + destruct (parse F st1 _) as [[st2 [off2|]]| | |]; cbn [bind]; try discriminate.
      destruct (dec_record _ _) eqn:D; cbn [bind]; try discriminate. intros Hy; inversion Hy; subst.
      eapply dec_record_known; eassumption.
  - intros Hx; inversion Hx; constructor.
Qed.

(** ** Zero padding inside one buffer *)

Definition buffered (st : pst) (u : list Z) : Prop := holds st u /\ p_len st = List.length u.

Lemma parse_buffered F st n u : buffered st u -> 0 <= n <= Z.of_nat (List.length u) ->
  exists st' off, parse F st n = Ok (st', Some off) /\ buffered st' (skipn (Z.to_nat n) u) /\
    p_mem st' = p_mem st /\ p_gen st' = p_gen st /\
    forall i, (i < Z.to_nat n)%nat -> rd st' (Some (p_gen st', off)) i = Ok (nth i u 0).
Proof.
  intros [HH HL] Hn. unfold parse.
  destruct (Z.ltb_spec (Z.of_nat (p_len st)) n); [lia|]. cbn [bind].
  destruct (Z.leb_spec n (Z.of_nat (p_len st))); [|lia].
  do 2 eexists. split; [reflexivity|]. cbn [p_mem p_gen]. split; [split|].
  - pose proof HH as (Hmem & Hin & Hlu & Hlm & Hpl & Hcap).
    unfold holds; cbn [p_len p_ptr p_mem p_in p_cap]. repeat split; try lia.
    + set (k := Z.to_nat n) in *.
      rewrite (Nat.add_comm (p_ptr st)), <- skipn_skipn.
      rewrite (firstn_skipn_comm _ k u), (firstn_skipn_comm _ k (skipn _ _)). replace (k + (p_len st - k))%nat with (p_len st) by lia.
      rewrite Hmem, skipn_map. reflexivity.
    + rewrite skipn_skipn, Hin. f_equal. lia.
    + rewrite skipn_length. lia.
  - cbn [p_len]. rewrite skipn_length. lia.
  - split; [reflexivity|]. split; [reflexivity|].
    intros i Hi. unfold rd; cbn [p_gen p_mem]. rewrite Nat.eqb_refl.
    rewrite (holds_get st u i HH) by lia. reflexivity.
Qed.

Lemma pass_buffered F st record r rest : rec_ok r -> buffered st (enc_rec r ++ rest) ->
  exists st' record', pass F st record = Ok (Some (st', record', rec_event r)) /\ buffered st' rest /\
    rd st' record' 0 = Ok (g_type r) /\ rd st' record' 1 = Ok (g_tag r).
Proof.
  intros Hr HH. pose proof Hr as (Ht & Htag & Hb & Hlen).
  set (bs := [g_type r; g_tag r] ++ enc_body (g_body r)).
  set (N := 4 + Z.of_nat (List.length (enc_body (g_body r)))) in *.
  assert (Lb : List.length bs = (2 + List.length (enc_body (g_body r)))%nat) by reflexivity.
  assert (HN : 4 <= N < 65536) by lia.
  destruct (be2 N ltac:(lia)) as (a & b & Eab & Ha & Hbb & Hab).
  assert (Eu : enc_rec r ++ rest = a :: b :: bs ++ rest).
  { unfold enc_rec. fold N. rewrite Eab. fold bs. cbn [app]. reflexivity. }
  rewrite Eu in HH.
  unfold pass.
  destruct (parse_buffered F st 2 _ HH) as (st1 & off & -> & H1 & _ & _ & G1); [cbn [List.length]; lia|].
  cbn [bind]. rewrite (G1 0%nat), (G1 1%nat) by (change (Z.to_nat 2) with 2%nat; lia). cbn [bind nth].
  change (Z.to_nat 2) with 2%nat in H1. cbn [skipn] in H1.
  rewrite Hab. destruct (Z.eqb_spec N 0); [lia|].
  rewrite (Z.mod_small (N - 2)) by (change (2 ^ 64) with 18446744073709551616; lia).
  destruct (parse_buffered F st1 (N - 2) _ H1) as (st2 & off2 & -> & H2 & _ & _ & G2); [rewrite app_length; lia|].
  cbn [bind].
  assert (EN : Z.to_nat (N - 2) = List.length bs) by lia.
  rewrite EN in *.
  rewrite (dec_record_ok r).
  - cbn [bind]. do 2 eexists. split; [reflexivity|].
    rewrite skipn_app, skipn_all, Nat.sub_diag in H2. split; [exact H2|].
    split; rewrite G2 by lia; reflexivity.
  - exact Hr.
  - intros i Hi. fold bs in Hi |- *. rewrite G2 by exact Hi. rewrite app_nth1 by exact Hi. reflexivity.
Qed.

Lemma pass_zero F st record tag n t : rd st record 0 = Ok t -> rd st record 1 = Ok tag ->
  In t empty_records -> buffered st (repeat 0 (S (S n))) ->
  exists st', pass F st record = Ok (Some (st', record, Some (EvBeginEnd t))) /\ buffered st' (repeat 0 n) /\
    rd st' record 0 = Ok t /\ rd st' record 1 = Ok tag.
Proof.
  intros R0 R1 Ht HH. unfold pass.
  destruct (parse_buffered F st 2 _ HH) as (st1 & off & -> & H1 & Em & Eg & G1);
    [cbn [List.length repeat]; lia|].
  cbn [bind]. rewrite (G1 0%nat), (G1 1%nat) by (change (Z.to_nat 2) with 2%nat; lia). cbn [bind nth repeat].
  change (Z.to_nat 2) with 2%nat in H1. cbn [skipn repeat] in H1.
  change (0 * 256 + 0 =? 0) with true. cbn iota.
  assert (Er : forall i, rd st1 record i = rd st record i) by (intros; unfold rd; now rewrite Em, Eg).
  assert (D : dec_record (rd st1 record) 2 = Ok (Some (EvBeginEnd t))).
  { unfold dec_record. rewrite !Er, R0. cbn [bind]. rewrite R1. cbn [bind].
    destruct (expected_empty _ Ht) as [-> ->]. reflexivity. }
  rewrite D. cbn [bind]. exists st1. split; [reflexivity|]. split; [exact H1|]. now rewrite !Er.
Qed.

Lemma loop_zeros F fuel st record t tag n :
  rd st record 0 = Ok t -> rd st record 1 = Ok tag -> In t empty_records ->
  buffered st (repeat 0 n) -> (grow_fuel <= F)%nat -> (n < fuel)%nat ->
  loop F fuel st record = Ok (repeat (EvBeginEnd t) (n / 2), true).
Proof.
  intros R0 R1 Ht HH HF. revert fuel st R0 R1 HH.
  induction n as [n IH] using lt_wf_ind; intros fuel st R0 R1 HH Hf.
  destruct fuel as [|fuel]; [lia|]. cbn [loop].
  destruct n as [|[|n]].
  - rewrite (pass_incomplete F st record [] I (proj1 HH) HF). reflexivity.
  - rewrite (pass_incomplete F st record [0] I (proj1 HH) HF). reflexivity.
  - destruct (pass_zero F st record tag n t R0 R1 Ht HH) as (st' & -> & H' & R0' & R1').
    cbn [bind]. rewrite (IH n) by (assumption || lia). cbn [bind].
    replace (S (S n) / 2)%nat with (S (n / 2)); [reflexivity|].
    replace (S (S n)) with (1 * 2 + n)%nat by lia. rewrite Nat.div_add_l by lia. lia.
Qed.

Lemma loop_padded F fuel st record rs r n :
  Forall rec_ok (rs ++ [r]) -> In (g_type r) empty_records ->
  buffered st (enc_all (rs ++ [r]) ++ repeat 0 n) -> (grow_fuel <= F)%nat ->
  (List.length rs + 1 + n < fuel)%nat ->
  loop F fuel st record =
    Ok (events (rs ++ [r]) ++ repeat (EvBeginEnd (g_type r)) (n / 2), true).
Proof.
  intros Hrs Ht HH HF. revert fuel st record HH.
  induction rs as [|r0 rs IH]; intros fuel st record HH Hf;
    (destruct fuel as [|fuel]; [lia|]); cbn [loop app] in *;
    unfold enc_all in HH; cbn [map List.concat] in HH; rewrite <- app_assoc in HH.
  - destruct (pass_buffered F st record r _ (Forall_inv Hrs) HH) as (st' & record' & -> & H' & R0 & R1).
    cbn [bind]. cbn [app] in H'. rewrite (loop_zeros F fuel st' record' (g_type r) (g_tag r) n) by (assumption || cbn [List.length] in Hf; lia).
    cbn [bind events]. destruct (rec_event r); reflexivity.
  - destruct (pass_buffered F st record r0 _ (Forall_inv Hrs) HH) as (st' & record' & -> & H' & _ & _).
    cbn [bind]. rewrite (IH (Forall_inv_tail Hrs) fuel st' record' H') by (cbn [List.length] in Hf; lia).
    cbn [bind events]. destruct (rec_event r0); reflexivity.
Qed.

Lemma parse_init F cap input : 4 <= cap <= 2 ^ 33 -> (2 <= List.length input)%nat ->
  Z.of_nat (List.length input) <= cap ->
  exists st1, buffered st1 input /\ parse F (pinit cap input) 2 = parse F st1 2.
Proof.
  intros Hc Hl Hle.
  pose proof (refill_holds 0 cap 0 (repeat None (Z.to_nat cap)) input (repeat_length _ _) ltac:(lia) ltac:(lia) ltac:(lia)) as [HH HL].
  eexists. split; [split; [exact HH|rewrite HL; lia]|].
  unfold parse at 1. unfold pinit; cbn [p_len p_cap p_gen p_mem p_ptr p_in].
  change (Z.of_nat 0 <? 2) with true. cbn iota.
  change (2 * 2) with 4. change (4 mod 2 ^ 64) with 4.
  destruct (Z.ltb_spec cap 4); [lia|]. cbn [bind].
  unfold parse. cbn [p_len p_cap p_gen p_mem p_ptr p_in firstn map skipn Nat.add] in HL |- *.
  rewrite !Nat.sub_0_r. rewrite Nat.sub_0_r in HL.
  destruct (Z.ltb_spec (Z.of_nat (List.length (firstn (Z.to_nat cap) input))) 2); [lia|].
  reflexivity.
Qed.

Theorem padded_stream fuel cap rs r n :
  4 <= cap <= 2 ^ 32 -> Forall rec_ok (rs ++ [r]) -> In (g_type r) empty_records ->
  Z.of_nat (List.length (enc_all (rs ++ [r]) ++ repeat 0%Z n)) <= cap ->
  (List.length (enc_all (rs ++ [r]) ++ repeat 0%Z n) + grow_fuel <= fuel)%nat ->
  parse_stream fuel cap (enc_all (rs ++ [r]) ++ repeat 0%Z n) =
    Ok (events (rs ++ [r]) ++ repeat (EvBeginEnd (g_type r)) (n / 2), true).
Proof.
  intros Hc Hrs Ht Hl Hf. unfold parse_stream.
  set (input := enc_all (rs ++ [r]) ++ repeat 0%Z n) in *.
  pose proof (enc_all_length (rs ++ [r])) as Hel. rewrite app_length in Hel. cbn [List.length] in Hel.
  assert (Hil : List.length input = (List.length (enc_all (rs ++ [r])) + n)%nat)
    by (unfold input; rewrite app_length, repeat_length; reflexivity).
  assert (H4 : (2 <= List.length (enc_all (rs ++ [r])))%nat).
  { unfold enc_all. rewrite map_app, concat_app, app_length. cbn [map List.concat].
    rewrite app_nil_r. unfold enc_rec at 2. rewrite app_length, be_length. lia. }
  destruct (parse_init fuel cap input) as (st1 & HB & HP); [change (2 ^ 33) with (2 * 2 ^ 32); lia|lia|exact Hl|].
  assert (E : loop fuel fuel (pinit cap input) None = loop fuel fuel st1 None).
  { unfold grow_fuel in Hf. destruct fuel as [|f]; [lia|]. cbn [loop]. unfold pass. now rewrite HP. }
  rewrite E. unfold input in HB. unfold grow_fuel in Hf. apply loop_padded; try assumption; [unfold grow_fuel|]; lia.
Qed.

(** ** A checker for well-formedness, used by the examples *)

Definition byteb (b : Z) : bool := (0 <=? b) && (b <? 256).
Definition inb (t : Z) (l : list Z) : bool := existsb (Z.eqb t) l.
Definition rangeb (lo hi v : Z) : bool := (lo <=? v) && (v <? hi).
Definition body_okb (t : Z) (c : content) : bool :=
  match c with
  | CBits ws => inb t bit_records && forallb (rangeb 0 65536) ws
  | CInt2 vs => inb t int2_records && forallb (rangeb (- 2 ^ 15) (2 ^ 15)) vs
  | CInt4 vs => inb t int4_records && forallb (rangeb (- 2 ^ 31) (2 ^ 31)) vs
  | CReal8 rs => inb t real8_records &&
      forallb (fun r => rangeb 0 128 (r_exp r) && rangeb 0 (2 ^ 56) (r_frac r)) rs
  | CString cs => inb t string_records && forallb byteb cs
  | CNothing => inb t empty_records
  | COther bs => (inb t other_records || (60 <=? t)) && forallb byteb bs
  end.
Definition rec_okb (r : grec) : bool :=
  byteb (g_type r) && byteb (g_tag r) && body_okb (g_type r) (g_body r) &&
  (4 + Z.of_nat (List.length (enc_body (g_body r))) <? 65536).

Lemma inb_In t l : inb t l = true -> In t l.
Proof. unfold inb. intros H. apply existsb_exists in H as (x & Hx & E). apply Z.eqb_eq in E. now subst. Qed.
Lemma rangeb_ok lo hi v : rangeb lo hi v = true -> lo <= v < hi.
Proof. unfold rangeb. intros H. apply andb_prop in H as [H1 H2]. lia. Qed.
Lemma forallb_Forall {A} (f : A -> bool) (P : A -> Prop) l : (forall x, f x = true -> P x) -> forallb f l = true -> Forall P l.
Proof. intros H Hl. rewrite forallb_forall in Hl. apply Forall_forall. auto. Qed.

Lemma rec_okb_ok r : rec_okb r = true -> rec_ok r.
Proof.
  unfold rec_okb, rec_ok. intros H.
  apply andb_prop in H as [H H4]. apply andb_prop in H as [H H3]. apply andb_prop in H as [H1 H2].
  assert (Hby : forall b, byteb b = true -> byte b) by (intros b Hb; now apply rangeb_ok).
  repeat split; try (apply Hby; assumption); [|apply Z.ltb_lt; exact H4].
  destruct (g_body r); cbn [body_okb body_ok] in *; try (apply andb_prop in H3 as [H3 H3']).
  - split; [now apply inb_In|]. now apply (forallb_Forall _ _ _ (rangeb_ok 0 65536)).
  - split; [now apply inb_In|]. now apply (forallb_Forall _ _ _ (rangeb_ok _ _)).
  - split; [now apply inb_In|]. now apply (forallb_Forall _ _ _ (rangeb_ok _ _)).
  - split; [now apply inb_In|]. revert H3'. apply forallb_Forall. intros x Hx.
    apply andb_prop in Hx as [Ha Hb]. split; now apply rangeb_ok.
  - split; [now apply inb_In|]. now apply (forallb_Forall _ _ _ Hby).
  - now apply inb_In.
  - split; [|now apply (forallb_Forall _ _ _ Hby)].
    apply orb_prop in H3 as [H3|H3]; [left; now apply inb_In|right; lia].
Qed.

Lemma recs_okb_ok rs : forallb rec_okb rs = true -> Forall rec_ok rs.
Proof. apply forallb_Forall. apply rec_okb_ok. Qed.
