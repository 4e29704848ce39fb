From Coq Require Import Relations Permutation.
From Verif Require Import Base Names_Model Names_Spec Net_Model Connect_Model Connect_Spec Connect_Proofs Connect_Comps.
Local Open Scope list_scope.

(** two traces on the top layer, one below, joined by a via through the dielectric; a label on the first *)
Definition ex_touch (a b : nat * nat) : bool := (fst a <=? snd b)%nat && (fst b <=? snd a)%nat.
Definition ex_prims : list (cprim (nat * nat)) := [CGeom 0 (0, 4); CGeom 0 (8, 9); CText 0 "VCC" (1, 2); CGeom 2 (3, 7); COther].
Definition ex_pads : list (cpad (nat * nat)) := [{| cp_top := 0; cp_bot := 2; cp_shape := fun l => if (l =? 1)%Z then Some (4, 4) else Some (3, 5) |}].
Definition ex_comps := all_components ex_touch.

(** After the extraction two objects are on the same net exactly if they are connected: through pieces that touch on
    the same layer or on neighbouring layers of the stack-up. *)
Theorem C78_same_net : forall (G : Type) (touch : G -> G -> Prop) components, component_contract touch components ->
  forall nc stack prims pads, stack <> [] ->
  exists nc' sets, connectivity components nc stack prims pads = Ok (nc', sets) /\
    forall before a b i j, first_piece (pieces prims pads) a i -> first_piece (pieces prims pads) b j ->
      (net_after before sets a = net_after before sets b <-> connected touch stack (pieces prims pads) i j).
Proof.
  intros G touch components C nc stack prims pads Hs.
  destruct (connectivity_net touch components C nc stack prims pads Hs) as (nc' & sets & E & _ & A & _).
  exists nc', sets; split; [exact E|]; intros before a b i j Ha Hb.
  destruct (A before a i Ha) as (k & c & _ & _ & Hk & Hi & -> & _), (A before b j Hb) as (k' & c' & _ & _ & Hk' & Hj & -> & _).
  rewrite <- (same_component touch components C stack prims pads i j k k' c c' Hk Hk' Hi Hj); lia.
Qed.
Print Assumptions C78_same_net.
Example C78_same_net_ex : component_contract (fun a b => ex_touch a b = true) ex_comps /\
  match connectivity ex_comps nc_init [0; 1; 2]%Z ex_prims ex_pads with
  | Ok (nc, sets) => map (net_after (fun _ => 7%Z) sets) [OPrim 0; OPrim 1; OPrim 2; OPrim 3; OPad 0] = [0; 1; 0; 0; 0]%Z /\ map fst (nc_map nc) = ["VCC"; "Auto_Net"]%string
  | _ => False
  end.
Proof. split; [apply all_components_contract|vm_compute; auto]. Qed.
Example C78_first_pieces : first_piece (pieces ex_prims ex_pads) (OPrim 0) 0 /\ first_piece (pieces ex_prims ex_pads) (OPad 0) 4.
Proof.
  assert (B : forall o i l g, nth_error (pieces ex_prims ex_pads) i = Some (o, l, g) ->
              match o with OPrim 0 => 0 <= i | OPad 0 => 4 <= i | _ => True end).
  { intros o i l g H; do 7 (destruct i as [|i]; [cbn in H; injection H as <- <- <-; cbn; try lia; exact I|]); destruct i; discriminate. }
  split; (split; [do 2 eexists; reflexivity|]); intros j l g H; apply (B _ _ _ _ H).
Qed.

(** The net of an object is one of the collection.  It is called after a label connected to the object, with a number
    appended if the name was taken, or Auto_Net if there is no such label (or an empty one was met first). *)
Theorem C78_net_name : forall (G : Type) (touch : G -> G -> Prop) components, component_contract touch components ->
  forall nc stack prims pads, stack <> [] ->
  exists nc' sets, connectivity components nc stack prims pads = Ok (nc', sets) /\
    forall before a i, first_piece (pieces prims pads) a i ->
      exists name base used, nc_find nc' name = Some (mkNet name (net_after before sets a)) /\ first_free used base name /\
        ((exists j, connected touch stack (pieces prims pads) i j /\ text_of prims (pieces prims pads) j base /\ base <> ""%string) \/
         (base = "Auto_Net"%string /\
          ((exists j, connected touch stack (pieces prims pads) i j /\ text_of prims (pieces prims pads) j ""%string) \/
           (forall j t, connected touch stack (pieces prims pads) i j -> ~ text_of prims (pieces prims pads) j t)))).
Proof.
  intros G touch components C nc stack prims pads Hs.
  destruct (connectivity_net touch components C nc stack prims pads Hs) as (nc' & sets & E & _ & A & _).
  exists nc', sets; split; [exact E|]; intros before a i Ha.
  destruct (A before a i Ha) as (k & c & used & name & Hk & Hi & -> & F & Hf).
  set (s := add_pads (add_prims c_init 0 prims) 0 pads) in *.
  pose proof (objects_inv prims pads) as I; fold s in I.
  exists name, (base_name s c), used; split; [exact Hf|]; split; [exact F|].
  assert (Same : forall j, In j c -> connected touch stack (pieces prims pads) i j).
  { intros j Hj; apply (same_component touch components C stack prims pads i j k k c c Hk Hk Hi Hj); reflexivity. }
  assert (L : (exists j, In j c /\ alookup Nat.eqb j (c_texts s) = Some (label (c_texts s) c)) \/
              (label (c_texts s) c = ""%string /\ forall j, In j c -> alookup Nat.eqb j (c_texts s) = None)).
  { clear; induction c as [|j c IH]; [right; split; [reflexivity|intros j []]|]; cbn [label].
    destruct (alookup Nat.eqb j (c_texts s)) as [t|] eqn:E; [left; exists j; split; [left|]; auto|].
    destruct IH as [(j' & H & E')|[H E']]; [left; exists j'; split; [right|]; auto|right; split; [auto|]].
    intros j' [<-|Hj]; auto. }
  unfold base_name; destruct (String.eqb_spec (label (c_texts s) c) ""%string) as [Hl|Hl].
  - right; split; [reflexivity|]; destruct L as [(j & Hj & Ej)|[_ L]].
    + left; exists j; split; [auto|]; apply (i_texts _ _ _ I); rewrite Ej, Hl; reflexivity.
    + right; intros j t Hc Ht; apply (i_texts _ _ _ I) in Ht.
      assert (Hj : In j c); [|rewrite (L _ Hj) in Ht; discriminate].
      destruct Ha as [(l & g & Hn) _].
      assert (B : j < List.length (pieces prims pads)) by (apply (i_texts _ _ _ I) in Ht as (? & ? & ? & Hn' & _); eapply nth_lt; eauto).
      destruct (C (links stack) (map drop (pieces prims pads))) as (Hp & _ & _).
      assert (Hin : In j (List.concat (components (links stack) (map drop (pieces prims pads))))).
      { eapply Permutation_in; [apply Permutation_sym, Hp|]; apply in_seq; rewrite map_length; lia. }
      apply in_concat in Hin as (d & Hd & Hjd); apply In_nth_error in Hd as [k' Hk'].
      pose proof (proj2 (same_component touch components C stack prims pads i j k k' c d Hk Hk' Hi Hjd) Hc) as <-; congruence.
  - left; destruct L as [(j & Hj & Ej)|[L _]]; [|congruence].
    exists j; split; [auto|]; split; [apply (i_texts _ _ _ I); exact Ej|exact Hl].
Qed.
Print Assumptions C78_net_name.

(** The nets of before are gone: there are as many nets as connected components. *)
Theorem C78_net_count : forall (G : Type) (touch : G -> G -> Prop) components, component_contract touch components ->
  forall nc stack prims pads, stack <> [] ->
  exists nc' sets, connectivity components nc stack prims pads = Ok (nc', sets) /\
    exists cc, Permutation (List.concat cc) (seq 0 (List.length (pieces prims pads))) /\ ~ In [] cc /\
      (forall c i j, In c cc -> In i c -> (In j c <-> j < List.length (pieces prims pads) /\ connected touch stack (pieces prims pads) i j)) /\
      List.length (nc_map nc') = List.length cc.
Proof.
  intros G touch components C nc stack prims pads Hs.
  destruct (connectivity_net touch components C nc stack prims pads Hs) as (nc' & sets & E & L & _).
  exists nc', sets; split; [exact E|].
  destruct (C (links stack) (map drop (pieces prims pads))) as (Hp & Hn & _).
  exists (components (links stack) (map drop (pieces prims pads))); split; [rewrite map_length in Hp; exact Hp|]; split; [exact Hn|]; split; [|exact L].
  intros c i j Hc Hi; pose proof Hc as Hc'; apply In_nth_error in Hc' as [k Hk]; split.
  - intros Hj; split.
    + assert (In j (List.concat (components (links stack) (map drop (pieces prims pads))))) by (apply in_concat; eauto).
      eapply Permutation_in in H; [|exact Hp]; apply in_seq in H; rewrite map_length in H; lia.
    + apply (same_component touch components C stack prims pads i j k k c c Hk Hk Hi Hj); reflexivity.
  - intros [Hl Hj].
    assert (Hin : In j (List.concat (components (links stack) (map drop (pieces prims pads))))).
    { eapply Permutation_in; [apply Permutation_sym, Hp|]; apply in_seq; rewrite map_length; lia. }
    apply in_concat in Hin as (d & Hd & Hjd); apply In_nth_error in Hd as [k' Hk'].
    pose proof (proj2 (same_component touch components C stack prims pads i j k k' c d Hk Hk' Hi Hjd) Hj) as <-; congruence.
Qed.
Print Assumptions C78_net_count.

(** A via with touching shapes on all layers it goes through, these being neighbours in the stack-up, shares its net
    with everything connected to any of its shapes.  Missing: vias with a gap, see the next theorem. *)
Theorem C79_via_joins_partial : forall (G : Type) (touch : G -> G -> Prop) components, component_contract touch components ->
  (forall g, touch g g) ->
  forall nc stack prims pads n p, stack <> [] -> nth_error pads n = Some p ->
  (cp_top p <= cp_bot p)%Z ->
  (forall l, (cp_top p <= l <= cp_bot p)%Z -> cp_shape p l <> None) ->
  (forall l g g', (cp_top p <= l < cp_bot p)%Z -> cp_shape p l = Some g -> cp_shape p (l + 1) = Some g' -> next_to stack l (l + 1)%Z /\ touch g g') ->
  exists nc' sets, connectivity components nc stack prims pads = Ok (nc', sets) /\
    forall before a i j l g, first_piece (pieces prims pads) a i -> nth_error (pieces prims pads) j = Some (OPad n, l, g) ->
      connected touch stack (pieces prims pads) i j -> net_after before sets a = net_after before sets (OPad n).
Proof.
  intros G touch components C Hrefl nc stack prims pads n p Hs Hp Hr Hall Htouch.
  destruct (C78_same_net G touch components C nc stack prims pads Hs) as (nc' & sets & E & A).
  exists nc', sets; split; [exact E|]; intros before a i j l g Ha Hj Hc.
  set (P := pieces prims pads) in *.
  (* the pieces of the via are those of its layers, in order *)
  assert (In1 : forall l, (cp_top p <= l <= cp_bot p)%Z -> exists k g, nth_error P k = Some (OPad n, l, g) /\ cp_shape p l = Some g).
  { intros l0 Hl0; destruct (cp_shape p l0) as [g0|] eqn:Eg; [|exfalso; eapply Hall; eauto].
    assert (H : In (OPad n, l0, g0) P).
    { unfold P, pieces; apply in_app_iff; right; apply in_flat_map; exists (n, p); split.
      - unfold numbered; clear - Hp; revert n Hp; assert (Gn : forall m n, nth_error pads n = Some p -> In (m + n, p) (combine (seq m (List.length pads)) pads)).
        { induction pads as [|q pads IH]; intros m n H; [destruct n; discriminate|]; destruct n; cbn in H |- *.
          - injection H as ->; left; f_equal; lia.
          - right; replace (m + S n) with (S m + n) by lia; apply IH; auto. }
        intros n Hn; apply (Gn 0 n Hn).
      - cbn [pad_pieces fst snd]; apply in_flat_map; exists l0; split; [|cbn [fst snd]; rewrite Eg; left; auto].
        unfold layer_range; cbn [fst snd]; apply in_map_iff; exists (Z.to_nat (l0 - cp_top p)); split; [lia|]; apply in_seq; lia. }
    apply In_nth_error in H as [k Hk]; exists k, g0; auto. }
  assert (Own : forall k l g, nth_error P k = Some (OPad n, l, g) -> (cp_top p <= l <= cp_bot p)%Z /\ cp_shape p l = Some g).
  { intros k l0 g0 H; apply nth_error_In in H; unfold P, pieces in H; apply in_app_iff in H as [H|H].
    - apply in_flat_map in H as ((m & q) & _ & H); destruct q; cbn in H; intuition discriminate.
    - apply in_flat_map in H as ((m & q) & Hm & H); cbn [pad_pieces fst snd] in H; apply in_flat_map in H as (l1 & Hl1 & H); cbn [fst snd] in H, Hl1.
      destruct (cp_shape q l1) eqn:Eq; [|destruct H]; destruct H as [H|[]]; injection H as -> -> ->.
      assert (q = p).
      { clear - Hm Hp; unfold numbered in Hm.
        assert (Gn : forall m0, In (n, q) (combine (seq m0 (List.length pads)) pads) -> m0 <= n /\ nth_error pads (n - m0) = Some q).
        { clear Hm Hp; induction pads as [|r pads IH]; intros m0 H; [destruct H|]; cbn in H; destruct H as [H|H].
          - injection H as -> ->; rewrite Nat.sub_diag; auto.
          - apply IH in H as [H1 H2]; split; [lia|]; replace (n - m0) with (S (n - S m0)) by lia; exact H2. }
        apply Gn in Hm as [_ Hm]; rewrite Nat.sub_0_r in Hm; congruence. }
      subst q; split; [|exact Eq]; unfold layer_range in Hl1; apply in_map_iff in Hl1 as (x & <- & Hx); apply in_seq in Hx; lia. }
  assert (Chain : forall d l1 k1 g1 k2 g2, nth_error P k1 = Some (OPad n, l1, g1) -> nth_error P k2 = Some (OPad n, (l1 + Z.of_nat d)%Z, g2) -> connected touch stack P k1 k2).
  { induction d as [|d IH]; intros l1 k1 g1 k2 g2 H1 H2.
    - rewrite Z.add_0_r in H2; destruct (Own _ _ _ H1) as [R1 S1], (Own _ _ _ H2) as [R2 S2].
      apply rst_step; exists (OPad n), l1, g1, (OPad n), l1, g2; split; [auto|]; split; [auto|]; split; [auto|]; replace g2 with g1 by congruence; apply Hrefl.
    - destruct (Own _ _ _ H1) as [R1 S1], (Own _ _ _ H2) as [R2 S2].
      destruct (In1 (l1 + 1)%Z) as (k & g0 & Hk & Sg); [lia|].
      destruct (Htouch l1 g1 g0) as [Hnx Ht]; [lia|auto|auto|].
      apply (rst_trans _ _ _ k); [apply rst_step|apply (IH (l1 + 1)%Z k g0 k2 g2 Hk)].
      + exists (OPad n), l1, g1, (OPad n), (l1 + 1)%Z, g0; repeat split; auto.
      + replace (l1 + 1 + Z.of_nat d)%Z with (l1 + Z.of_nat (S d))%Z by lia; exact H2. }
  destruct (In1 (cp_top p)) as (k0 & g0 & Hk0 & _); [lia|].
  destruct (first_exists _ _ _ _ _ Hk0) as [i0 Hi0].
  apply (A before a (OPad n) i i0 Ha Hi0).
  pose proof Hi0 as [(l0 & g1 & Hn0) _]; eapply rst_trans; [exact Hc|].
  destruct (Own _ _ _ Hj) as [Rj _], (Own _ _ _ Hn0) as [R0 _].
  destruct (Z.le_ge_cases l0 l) as [Hle|Hle].
  - apply rst_sym, (Chain (Z.to_nat (l - l0)) l0 i0 g1 j g Hn0); rewrite Z2Nat.id by lia; replace (l0 + (l - l0))%Z with l by lia; exact Hj.
  - apply (Chain (Z.to_nat (l0 - l)) l j g i0 g1 Hj); rewrite Z2Nat.id by lia; replace (l + (l0 - l))%Z with l0 by lia; exact Hn0.
Qed.
Print Assumptions C79_via_joins_partial.
Example C79_via_ex : forall l, (0 <= l <= 2)%Z -> cp_shape (nth 0 ex_pads {| cp_top := 0; cp_bot := 0; cp_shape := fun _ => None |}) l <> None.
Proof. intros l _; cbn; destruct (l =? 1)%Z; discriminate. Qed.

(** A via without a shape on one of its layers: the trace at its lower end is not on its net. *)
Definition gap_pads : list (cpad (nat * nat)) := [{| cp_top := 0; cp_bot := 2; cp_shape := fun l => if (l =? 1)%Z then None else Some (3, 5) |}].
Theorem C79_gap_refuted : exists nc sets j l g,
  connectivity ex_comps nc_init [0; 1; 2]%Z ex_prims gap_pads = Ok (nc, sets) /\ first_piece (pieces ex_prims gap_pads) (OPrim 3) 3 /\ nth_error (pieces ex_prims gap_pads) j = Some (OPad 0, l, g) /\ connected (fun a b => ex_touch a b = true) [0; 1; 2]%Z (pieces ex_prims gap_pads) 3 j /\ net_after (fun _ => 0%Z) sets (OPrim 3) <> net_after (fun _ => 0%Z) sets (OPad 0).
Proof.
  do 2 eexists; exists 5, 2%Z, (3, 5); split; [vm_compute; reflexivity|]; split; [|split; [reflexivity|split]].
  - split; [do 2 eexists; reflexivity|]; intros j l g H; do 3 (destruct j as [|j]; [cbn in H; discriminate|]); lia.
  - apply rst_step; exists (OPrim 3), 2%Z, (3, 7), (OPad 0), 2%Z, (3, 5); repeat split; auto.
  - vm_compute; discriminate.
Qed.
Print Assumptions C79_gap_refuted.

(** A bond wire keeps the number of a net that no longer exists, and with it belongs to whatever net now has that number. *)
Theorem C79_other_objects_keep_their_number : forall (G : Type) (touch : G -> G -> Prop) components, component_contract touch components ->
  forall nc stack prims pads nc' sets k before,
  connectivity components nc stack prims pads = Ok (nc', sets) -> nth_error prims k = Some COther ->
  net_after before sets (OPrim k) = before (OPrim k).
Proof.
  intros G touch components C nc stack prims pads nc' sets k before E Hk.
  assert (Hs : stack <> []) by (intros ->; discriminate).
  destruct (connectivity_net touch components C nc stack prims pads Hs) as (nc1 & sets1 & E1 & _ & _ & A).
  rewrite E in E1; injection E1 as <- <-; apply A; intros i [(l & g & H) _].
  apply nth_error_In in H; unfold pieces in H; apply in_app_iff in H as [H|H].
  - apply in_flat_map in H as ((m & q) & Hm & H); unfold numbered in Hm.
    assert (Gn : forall m0, In (m, q) (combine (seq m0 (List.length prims)) prims) -> m0 <= m /\ nth_error prims (m - m0) = Some q).
    { clear; induction prims as [|r prims IH]; intros m0 H; [destruct H|]; cbn in H; destruct H as [H|H].
      - injection H as -> ->; rewrite Nat.sub_diag; auto.
      - apply IH in H as [H1 H2]; split; [lia|]; replace (m - m0) with (S (m - S m0)) by lia; exact H2. }
    apply Gn in Hm as [_ Hm]; rewrite Nat.sub_0_r in Hm.
    destruct q; cbn in H; try (destruct H as [H|[]]); try contradiction; injection H as -> -> ->; congruence.
  - apply in_flat_map in H as ((m & q) & _ & H); cbn [pad_pieces fst snd] in H; apply in_flat_map in H as (l1 & _ & H); cbn [fst snd] in H.
    destruct (cp_shape q l1); [destruct H as [H|[]]; discriminate|destruct H].
Qed.
Print Assumptions C79_other_objects_keep_their_number.
Theorem C79_bondwire_refuted : exists nc nc' sets,
  (exists x, nc_find nc "GND"%string = Some (mkNet "GND"%string 1%Z) /\ nc_find nc "VCC"%string = Some x) /\
  connectivity ex_comps nc [0; 1; 2]%Z ex_prims ex_pads = Ok (nc', sets) /\
  nth_error ex_prims 4 = Some COther /\
  (* the bond wire was on GND; now it is on the net of the unconnected trace *)
  net_after (fun _ => 1%Z) sets (OPrim 4) = net_after (fun _ => 1%Z) sets (OPrim 1) /\ nc_find nc' "GND"%string = None.
Proof.
  exists (fst (nc_create (fst (nc_create nc_init "VCC"%string)) "GND"%string)); do 2 eexists.
  split; [eexists; split; vm_compute; reflexivity|]; split; [vm_compute; reflexivity|]; repeat split.
Qed.
Print Assumptions C79_bondwire_refuted.

(** A layout without stack-up layers makes the extraction read past the end of the layer list. *)
Theorem C79_no_layers_is_ub : forall (G : Type) (components : list (Z * Z) -> list (Z * G) -> list (list nat)) nc prims pads,
  connectivity components nc [] prims pads = UB.
Proof. reflexivity. Qed.
Print Assumptions C79_no_layers_is_ub.
