(** Correctness of cardinality.py. *)
From Coq Require Import ZArith List Bool Lia Arith.
From Verif Require Import Spec_Cnf M_Util M_Card P_Cnf P_Util P_Util2 P_Util3.
Import ListNotations.
Open Scope Z_scope.

Definition count (a : assignment) (ls : list lit) : Z := count_true (values a ls).

Lemma count_cons a l ls : count a (l :: ls) = Z.b2z (evl a l) + count a ls.
Proof. reflexivity. Qed.
Lemma count_app a xs ys : count a (xs ++ ys) = count a xs + count a ys.
Proof. unfold count. rewrite values_app. apply count_true_app. Qed.
Lemma count_nonneg a ls : 0 <= count a ls.
Proof. apply count_true_bound. Qed.
Lemma count_agree n a b ls : agree n a b -> Forall (lit_ok n) ls -> count a ls = count b ls.
Proof. intros. unfold count. erewrite values_agree by eassumption. reflexivity. Qed.
Lemma count_pos_In a ls : 0 < count a ls <-> exists l, In l ls /\ evl a l = true.
Proof.
  induction ls as [|l ls IH].
  - cbn. split; [lia|]. intros (l & [] & _).
  - rewrite count_cons. pose proof (count_nonneg a ls). split.
    + intros H1. destruct (evl a l) eqn:E; [exists l; cbn; auto|]. cbn [Z.b2z] in H1.
      destruct (proj1 IH ltac:(lia)) as (x & Hx & Ex). exists x. cbn; auto.
    + intros (x & [->|Hx] & Ex); [rewrite Ex; cbn [Z.b2z]; lia|].
      assert (0 < count a ls) by (apply IH; eauto). destruct (evl a l); cbn [Z.b2z]; lia.
Qed.
Lemma satc_count a ls : satc a ls = true <-> 1 <= count a ls.
Proof.
  rewrite satc_In, <- count_pos_In. lia.
Qed.

Lemma quadratic_loop_sat a : forall ls prefix, Forall nonzero ls -> Forall nonzero prefix ->
  count a prefix <= 1 ->
  (sat a (quadratic_loop prefix ls) = true <-> count a (prefix ++ ls) <= 1).
Proof.
  induction ls as [|l ls IH]; intros prefix Hl Hp Hc.
  - cbn [quadratic_loop]. rewrite app_nil_r. split; [auto|reflexivity].
  - inversion Hl as [|? ? Hl1 Hl2]; subst. cbn [quadratic_loop]. rewrite sat_app, andb_true_iff, sat_map.
    assert (Hfirst : (forall x, In x prefix -> satc a [- l; - x] = true) <-> count a (prefix ++ [l]) <= 1).
    { rewrite count_app, count_cons. change (count a []) with 0.
      split.
      - intros H. destruct (evl a l) eqn:El; cbn [Z.b2z]; [|lia].
        destruct (Z.le_gt_cases (count a prefix) 0); [lia|]. exfalso.
        destruct (proj1 (count_pos_In a prefix) ltac:(lia)) as (x & Hx & Ex).
        specialize (H x Hx). rewrite Forall_forall in Hp.
        rewrite !satc_cons, satc_nil, !evl_neg, El, Ex in H by (apply Hl1 || apply Hp; assumption). discriminate.
      - intros H x Hx. rewrite Forall_forall in Hp.
        rewrite !satc_cons, satc_nil, !evl_neg by (apply Hl1 || apply Hp; assumption).
        destruct (evl a l) eqn:El; [|reflexivity]. cbn [Z.b2z] in H.
        destruct (evl a x) eqn:Ex; [|reflexivity]. exfalso.
        assert (0 < count a prefix) by (apply count_pos_In; eauto). lia. }
    rewrite Hfirst. replace (prefix ++ l :: ls) with ((prefix ++ [l]) ++ ls) by (rewrite <- app_assoc; reflexivity).
    split.
    + intros [H1 H2]. apply IH; try assumption. apply Forall_app. split; [assumption|repeat constructor; assumption].
    + intros H. assert (H1 : count a (prefix ++ [l]) <= 1).
      { rewrite count_app in H. pose proof (count_nonneg a ls). lia. }
      split; [exact H1|]. apply IH; try assumption. apply Forall_app. split; [assumption|repeat constructor; assumption].
Qed.

Lemma quadratic_amo_sat a ls : Forall nonzero ls ->
  (sat a (quadratic_amo ls) = true <-> count a ls <= 1).
Proof. intros H. apply quadratic_loop_sat; [assumption|constructor|cbn; lia]. Qed.

Lemma quadratic_one_sat a ls : Forall nonzero ls ->
  (sat a (quadratic_one ls) = true <-> count a ls = 1).
Proof.
  intros H. unfold quadratic_one. rewrite sat_app, sat_cons, sat_nil, andb_true_r, andb_true_iff.
  rewrite quadratic_amo_sat, satc_count by assumption. lia.
Qed.

Lemma quadratic_loop_ok n : forall ls prefix, Forall (lit_ok n) ls -> Forall (lit_ok n) prefix ->
  cnf_ok n (quadratic_loop prefix ls).
Proof.
  induction ls as [|l ls IH]; intros prefix Hl Hp; [constructor|].
  inversion Hl; subst. cbn [quadratic_loop]. apply cnf_ok_app.
  - apply Forall_map. eapply Forall_impl; [|exact Hp]. intros x Hx.
    repeat constructor; unfold lit_ok in *; lia.
  - apply IH; [assumption|]. apply Forall_app. split; [assumption|repeat constructor; apply H1].
Qed.
Lemma quadratic_amo_ok n ls : Forall (lit_ok n) ls -> cnf_ok n (quadratic_amo ls).
Proof. intros. apply quadratic_loop_ok; [assumption|constructor]. Qed.

(** * heule *)
Lemma heule_fuel_ok : forall fuel ls cutoff top, (length ls < fuel)%nat -> (3 <= cutoff)%nat -> 0 <= top ->
  Forall (lit_ok top) ls -> enc_ok top (heule_fuel fuel ls cutoff top) (fun a => count a ls <= 1).
Proof.
  induction fuel as [|fuel IH]; intros ls cutoff top Hf Hc Ht Hl; [lia|].
  cbn [heule_fuel]. destruct (Nat.leb_spec 3 cutoff); [|lia]. cbn [negb].
  destruct (Nat.leb_spec (length ls) cutoff) as [Hle|Hgt].
  - eexists _, _. split; [reflexivity|]. split; [lia|]. split; [apply quadratic_amo_ok; assumption|].
    assert (NZ : Forall nonzero ls) by (eapply Forall_ok_nonzero; eassumption).
    split; intros a Ha; [apply quadratic_amo_sat; assumption|].
    exists a. split; [apply agree_refl|]. apply quadratic_amo_sat; assumption.
  - set (mid := Nat.div (length ls) 2).
    pose proof (Nat.div_mod (length ls) 2 ltac:(lia)) as D. fold mid in D.
    pose proof (Nat.mod_upper_bound (length ls) 2 ltac:(lia)) as M.
    set (L := firstn mid ls). set (R := skipn mid ls).
    assert (LL : length L = mid) by (unfold L; rewrite firstn_length; lia).
    assert (LR : length R = (length ls - mid)%nat) by (unfold R; rewrite skipn_length; lia).
    assert (HLR : forall a, count a ls = count a L + count a R).
    { intros a. rewrite <- count_app. unfold L, R. rewrite firstn_skipn. reflexivity. }
    assert (OL : Forall (lit_ok top) L) by (apply Forall_firstn; assumption).
    assert (OR : Forall (lit_ok top) R) by (apply Forall_skipn; assumption).
    assert (Oaux : lit_ok (top + 1) (top + 1)) by (unfold lit_ok; lia).
    destruct (IH (L ++ [top + 1]) cutoff (top + 1)) as (c1 & top1 & E1 & A1 & A2 & A3 & A4); try lia.
    { rewrite app_length. cbn [length]. lia. }
    { apply Forall_app. split; [eapply Forall_ok_mono; [|exact OL]; lia|repeat constructor; apply Oaux]. }
    rewrite E1.
    destruct (IH (R ++ [- (top + 1)]) cutoff top1) as (c2 & top2 & E2 & B1 & B2 & B3 & B4); try lia.
    { rewrite app_length. cbn [length]. lia. }
    { apply Forall_app. split; [eapply Forall_ok_mono; [|exact OR]; lia|repeat constructor; unfold lit_ok in *; lia]. }
    rewrite E2. eexists _, _. split; [reflexivity|]. split; [lia|].
    split; [apply cnf_ok_app; [eapply cnf_ok_mono; [|exact A2]; lia|assumption]|].
    assert (CL : forall a, count a (L ++ [top + 1]) = count a L + Z.b2z (evl a (top + 1))).
    { intros a. rewrite count_app, count_cons. change (count a []) with 0. lia. }
    assert (CR : forall a, count a (R ++ [- (top + 1)]) = count a R + 1 - Z.b2z (evl a (top + 1))).
    { intros a. rewrite count_app, count_cons, evl_neg by lia. change (count a []) with 0.
      destruct (evl a (top + 1)); cbn [negb Z.b2z]; lia. }
    split.
    + intros a. rewrite sat_app, andb_true_iff. intros [S1 S2].
      specialize (A3 a S1). specialize (B3 a S2). cbv beta in A3, B3. rewrite CL in A3. rewrite CR in B3. rewrite HLR. lia.
    + intros a Ha. set (a1 := upd a (top + 1) (Z.eqb (count a L) 0)).
      assert (AG : agree top a a1) by (apply upd_agree; lia).
      assert (Ec : evl a1 (top + 1) = Z.eqb (count a L) 0) by (rewrite evl_pos by lia; apply upd_same).
      rewrite HLR in Ha. pose proof (count_nonneg a L). pose proof (count_nonneg a R).
      destruct (A4 a1) as (b1 & X1 & Y1).
      { rewrite CL, Ec, <- (count_agree top a a1) by assumption.
        destruct (Z.eqb_spec (count a L) 0); cbn [Z.b2z]; lia. }
      destruct (B4 b1) as (b2 & X2 & Y2).
      { rewrite CR. rewrite <- (evl_agree (top + 1) a1 b1) by assumption.
        rewrite <- (count_agree (top + 1) a1 b1); [|assumption|eapply Forall_ok_mono; [|exact OR]; lia].
        rewrite <- (count_agree top a a1) by assumption. rewrite Ec.
        destruct (Z.eqb_spec (count a L) 0); cbn [Z.b2z]; lia. }
      exists b2. split.
      * eapply agree_trans; [exact AG|]. eapply agree_trans; eapply agree_mono; [|exact X1| |exact X2]; lia.
      * rewrite sat_app, Y2, andb_true_r. rewrite <- (sat_agree top1 b1 b2); assumption.
Qed.

Lemma heule_amo_ok ls cutoff top : (3 <= cutoff)%nat -> 0 <= top -> Forall (lit_ok top) ls ->
  enc_ok top (heule_amo ls cutoff top) (fun a => count a ls <= 1).
Proof. intros. apply heule_fuel_ok; auto. Qed.

(** Adding the clause "some literal is true" to an encoder. *)
Lemma enc_ok_add_clause top cs top' P ls : enc_ok top (Some (cs, top')) P -> Forall (lit_ok top) ls ->
  enc_ok top (Some (cs ++ [ls], top')) (fun a => P a /\ 1 <= count a ls).
Proof.
  intros (cs' & t & E & H1 & H2 & H3 & H4) Hl. injection E as <- <-.
  eexists _, _. split; [reflexivity|]. split; [assumption|].
  split; [apply cnf_ok_app; [assumption|]; constructor; [eapply Forall_ok_mono; [|exact Hl]; lia|constructor]|].
  split.
  - intros a. rewrite sat_app, sat_cons, sat_nil, andb_true_r, andb_true_iff, satc_count. intros [S1 S2]. auto.
  - intros a [Ha1 Ha2]. destruct (H4 a Ha1) as (b & B1 & B2). exists b. split; [assumption|].
    rewrite sat_app, sat_cons, sat_nil, andb_true_r, B2. cbn [andb].
    apply satc_count. rewrite <- (count_agree top a b) by assumption. assumption.
Qed.

Lemma enc_ok_ext top r (P Q : assignment -> Prop) : (forall a, P a <-> Q a) -> enc_ok top r P -> enc_ok top r Q.
Proof.
  intros H (cs & t & E & H1 & H2 & H3 & H4). exists cs, t. repeat (split; [assumption|]). split.
  - intros a Ha. apply H, H3, Ha.
  - intros a Ha. apply H4, H, Ha.
Qed.

Lemma heule_one_ok ls cutoff top : (3 <= cutoff)%nat -> 0 <= top -> Forall (lit_ok top) ls ->
  enc_ok top (heule_one ls cutoff top) (fun a => count a ls = 1).
Proof.
  intros Hc Ht Hl. pose proof (heule_amo_ok ls cutoff top Hc Ht Hl) as H. unfold heule_one.
  destruct (heule_amo ls cutoff top) as [[cs top']|] eqn:E.
  - eapply enc_ok_ext; [|apply enc_ok_add_clause; eassumption]. cbv beta. intros a. lia.
  - destruct H as (? & ? & H & _). discriminate.
Qed.

(** * logarithmic *)
(** [idx_ok]: every true literal's index equals the location number. *)
Lemma logarithmic_loop_ok loc : forall ls i, Forall nonzero loc -> Forall nonzero ls ->
  0 <= i -> i + len ls <= 2 ^ len loc ->
  exists cs, logarithmic_loop i ls loc = Some cs /\
    (forall n, Forall (lit_ok n) loc -> Forall (lit_ok n) ls -> cnf_ok n cs) /\
    forall a, sat a cs = true <->
      forall k, (k < length ls)%nat -> evl a (nth k ls 0) = true -> value a loc = i + Z.of_nat k.
Proof.
  induction ls as [|l ls IH]; intros i Hloc Hls Hi Hb.
  - exists []. split; [reflexivity|]. split; [constructor|]. intros a. split; [cbn; lia|reflexivity].
  - inversion Hls as [|? ? Hl Hls']; subst. rewrite len_cons in Hb. pose proof (len_nonneg ls).
    cbn [logarithmic_loop].
    destruct (set_number i loc) as [cs1|] eqn:ES.
    2:{ assert (HX : exists cs, set_number i loc = Some cs) by (apply set_number_some; lia).
        destruct HX as [? HX]. congruence. }
    destruct (IH (i + 1)) as (cs2 & E2 & O2 & S2); auto; try lia.
    rewrite E2. eexists. split; [reflexivity|]. split.
    + intros n H1 H2. inversion H2; subst. apply cnf_ok_app; [|auto].
      apply implies_ok; [constructor; [assumption|constructor]|]. exact (set_number_ok n i loc cs1 H1 ES).
    + intros a. rewrite sat_app, andb_true_iff, S2, sat_implies by (repeat constructor; exact Hl).
      cbn [forallb]. rewrite andb_true_r, orb_true_iff, (set_number_spec i loc cs1 Hloc ES).
      rewrite Z.mod_small by lia. split.
      * intros [H1 H2] [|k] Hk Hv; cbn [nth] in Hv.
        -- rewrite Hv in H1. destruct H1 as [H1|H1]; [discriminate|]. lia.
        -- rewrite (H2 k) by (assumption || (cbn in Hk; lia)). lia.
      * intros Hall. split.
        -- destruct (evl a l) eqn:El; [right|left; reflexivity].
           specialize (Hall 0%nat). cbn [nth length] in Hall. rewrite Hall by (lia || assumption). lia.
        -- intros k Hk Hv. specialize (Hall (S k)). cbn [nth length] in Hall. rewrite Hall by (lia || assumption). lia.
Qed.

Lemma count_le1_unique a ls : (forall j k, (j < length ls)%nat -> (k < length ls)%nat ->
     evl a (nth j ls 0) = true -> evl a (nth k ls 0) = true -> j = k) <-> count a ls <= 1.
Proof.
  induction ls as [|l ls IH].
  - cbn. split; [lia|]. intros _ j k Hj. lia.
  - rewrite count_cons. split.
    + intros H. assert (H1 : count a ls <= 1).
      { apply IH. intros j k Hj Hk E1 E2.
        assert (S j = S k) by (apply H; cbn [nth length]; (lia || assumption)). lia. }
      destruct (evl a l) eqn:El; cbn [Z.b2z]; [|lia].
      destruct (Z.le_gt_cases (count a ls) 0); [lia|]. exfalso.
      destruct (proj1 (count_pos_In a ls) ltac:(lia)) as (x & Hx & Ex).
      destruct (In_nth ls x 0 Hx) as (k & Hk & Ek).
      assert (0%nat = S k) by (apply H; cbn [nth length]; try lia; try assumption; rewrite Ek; assumption). lia.
    + intros H. pose proof (count_nonneg a ls).
      assert (IH' : count a ls <= 1) by (destruct (evl a l); cbn [Z.b2z] in H; lia).
      rewrite <- IH in IH'. 
      intros [|j] [|k] Hj Hk E1 E2; cbn [nth] in E1, E2; cbn in Hj, Hk.
      * reflexivity.
      * exfalso. rewrite E1 in H. cbn [Z.b2z] in H.
        assert (0 < count a ls) by (apply count_pos_In; exists (nth k ls 0); split; [apply nth_In; lia|assumption]). lia.
      * exfalso. rewrite E2 in H. cbn [Z.b2z] in H.
        assert (0 < count a ls) by (apply count_pos_In; exists (nth j ls 0); split; [apply nth_In; lia|assumption]). lia.
      * f_equal. apply IH'; (lia || assumption).
Qed.

Lemma logarithmic_amo_ok ls top : ls <> [] -> 0 <= top -> Forall (lit_ok top) ls ->
  enc_ok top (logarithmic_amo ls top) (fun a => count a ls = 1).
Proof.
  intros Hne Ht Hl. unfold logarithmic_amo, bin_length.
  assert (Hlen : 1 <= len ls) by (destruct ls; [congruence|rewrite len_cons; pose proof (len_nonneg ls); lia]).
  destruct (Z.ltb_spec 0 (len ls)); [|lia].
  pose proof (Z.log2_up_nonneg (len ls)) as HW. set (w := Z.log2_up (len ls)) in *.
  assert (HP : len ls <= 2 ^ w).
  { destruct (Z.eq_dec (len ls) 1) as [E|E].
    - rewrite E. pose proof (Z.pow_pos_nonneg 2 w ltac:(lia) HW). lia.
    - apply Z.log2_up_spec. lia. }
  set (loc := fresh top (Z.to_nat w)).
  assert (Lloc : len loc = w) by (unfold len, loc; rewrite fresh_length; lia).
  assert (Oloc : Forall (lit_ok (top + w)) loc) by (apply fresh_ok; lia).
  assert (Ols : Forall (lit_ok (top + w)) ls) by (eapply Forall_ok_mono; [|exact Hl]; lia).
  destruct (logarithmic_loop_ok loc ls 0) as (cs & E & O & S);
    try (eapply Forall_ok_nonzero; eassumption); try lia; [rewrite Lloc; lia|].
  rewrite E. eexists _, _. split; [reflexivity|]. split; [lia|].
  split; [constructor; auto; apply O; assumption|].
  split.
  - intros a. rewrite sat_cons, andb_true_iff, satc_count, S. intros [H1 H2].
    assert (count a ls <= 1); [|lia]. apply count_le1_unique. intros j k Hj Hk Ej Ek.
    pose proof (H2 j Hj Ej). pose proof (H2 k Hk Ek). lia.
  - intros a Ha.
    assert (H1 : 0 < count a ls) by lia. apply count_pos_In in H1. destruct H1 as (x & Hx & Ex).
    destruct (In_nth ls x 0 Hx) as (k & Hk & Ek).
    exists (upds a top (get_bits (Z.of_nat k) (Z.to_nat w))). split; [apply upds_agree|].
    set (b := upds a top (get_bits (Z.of_nat k) (Z.to_nat w))).
    assert (AG : agree top a b) by apply upds_agree.
    rewrite sat_cons. apply andb_true_iff. split.
    + apply satc_count. rewrite <- (count_agree top a b) by assumption. lia.
    + apply S. intros j Hj Ej. unfold b, loc. rewrite value_upds_bits, Z2Nat.id by lia.
      rewrite Z.mod_small by (unfold len in *; lia).
      assert (j = k); [|lia]. eapply (proj2 (count_le1_unique a ls)); try assumption; try lia.
      * rewrite (evl_agree top a b); [assumption|assumption|].
        rewrite Forall_forall in Hl. apply Hl, nth_In, Hj.
      * rewrite Ek. assumption.
Qed.

Lemma logarithmic_one_ok ls top : ls <> [] -> 0 <= top -> Forall (lit_ok top) ls ->
  enc_ok top (logarithmic_one ls top) (fun a => count a ls = 1).
Proof.
  intros Hne Ht Hl. pose proof (logarithmic_amo_ok ls top Hne Ht Hl) as H. unfold logarithmic_one.
  destruct (logarithmic_amo ls top) as [[cs top']|] eqn:E.
  - eapply enc_ok_ext; [|apply enc_ok_add_clause; eassumption]. cbv beta. intros a. lia.
  - destruct H as (? & ? & H & _). discriminate.
Qed.
