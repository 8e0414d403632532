(** Sums, increments, population count, negation, symmetry breaking. *)
From Coq Require Import ZArith List Bool Lia Arith.
From Verif Require Import Spec_Cnf M_Util P_Cnf P_Util P_Util2.
Import ListNotations.
Open Scope Z_scope.

(** A stateful encoder run that expresses [P]. *)
Definition enc_ok (top : Z) (r : option (cnf * Z)) (P : assignment -> Prop) : Prop :=
  exists cs top', r = Some (cs, top') /\ top <= top' /\ cnf_ok top' cs /\
    (forall a, sat a cs = true -> P a) /\
    (forall a, P a -> exists b, agree top a b /\ sat b cs = true).

Lemma enc_ok_encodes top r P : enc_ok top r P ->
  exists cs top', r = Some (cs, top') /\ top <= top' /\ encodes top cs P.
Proof.
  intros (cs & top' & E & H & _ & H1 & H2). exists cs, top'. repeat split; assumption.
Qed.

Lemma add_enc_ok xs ys os ci ovf top :
  length ys = length xs -> length os = length xs \/ length os = S (length xs) ->
  xs <> [] \/ ci <> None \/ (ovf = true /\ os = []) -> 0 <= top ->
  Forall (lit_ok top) xs -> Forall (lit_ok top) ys -> Forall (lit_ok top) os -> opt_ok (lit_ok top) ci ->
  exists cs, add_numbers_st xs ys os ci ovf top = Some (cs, top + len xs) /\
    enc_ok top (add_numbers_st xs ys os ci ovf top) (add_sem xs ys os ci ovf).
Proof.
  intros L1 L2 Hne Ht Hx Hy Ho Hci.
  destruct (add_numbers_complete xs ys os ci ovf top) as (cs & E & Hok & HC); auto.
  exists cs. split; [exact E|].
  exists cs, (top + len xs). split; [exact E|]. split; [pose proof (len_nonneg xs); lia|].
  split; [exact Hok|]. split; [|exact HC].
  intros a. unfold add_numbers_st in E.
  destruct (add_numbers xs ys os (fresh top (length xs)) ci ovf) as [cs'|] eqn:EA; [|discriminate].
  injection E as ->. eapply add_numbers_sound; [..|exact EA];
    try (eapply Forall_ok_nonzero; eassumption).
  - apply (Forall_ok_nonzero (top + len xs)). apply fresh_ok; unfold len; lia.
  - eapply opt_ok_impl; [|eassumption]. apply lit_ok_nonzero.
Qed.

Lemma value_upds_bits a top n k : 0 <= top ->
  value (upds a top (get_bits n k)) (fresh top k) = n mod 2 ^ Z.of_nat k.
Proof.
  intros H. unfold value. rewrite <- num_get_bits. f_equal.
  pose proof (upds_values a top (get_bits n k) H) as E. rewrite get_bits_length in E. exact E.
Qed.

(** * sum_numbers *)
Fixpoint zsum (l : list Z) : Z := match l with [] => 0 | x :: t => x + zsum t end.

Definition sum_sem (numbers : list (list lit)) (output : list lit) (ovf : bool) (a : assignment) : Prop :=
  let s := zsum (map (value a) numbers) in
  if ovf then s mod 2 ^ len output = value a output else s = value a output.

Lemma zsum_values_nonneg a l : 0 <= zsum (map (value a) l).
Proof. induction l as [|x l IH]; cbn; [lia|]. pose proof (value_nonneg a x). lia. Qed.

Lemma sum_loop_ok size rest : forall nin output ovf top,
  rest <> [] -> 0 <= top -> (size <> 0%nat \/ ovf = true) ->
  length nin = size -> length output = size -> Forall (fun n => length n = size) rest ->
  Forall (lit_ok top) nin -> Forall (lit_ok top) output -> Forall (Forall (lit_ok top)) rest ->
  enc_ok top (sum_loop size nin rest output ovf top) (sum_sem (nin :: rest) output ovf).
Proof.
  induction rest as [|number rest IH]; intros nin output ovf top Hne Ht Hsz Ln Lo Lr On Oo Or; [congruence|].
  inversion Lr as [|? ? Lnum Lr']; inversion Or as [|? ? Onum Or']; subst.
  assert (Hadd : forall (o : list Z) (t : Z), length o = length nin -> 0 <= t ->
     nin <> [] \/ @None Z <> None \/ (ovf = true /\ o = [])).
  { intros o t Lo' _. destruct nin; [|left; discriminate]. destruct Hsz as [Hs|Hs]; [exfalso; apply Hs; reflexivity|].
    right. right. split; [exact Hs|]. destruct o; [reflexivity|discriminate]. }
  destruct rest as [|n2 rest'].
  - cbn [sum_loop].
    destruct (add_enc_ok nin number output None ovf top) as (cs & E & Hok); auto; [apply (Hadd output top); assumption|exact I|].
    rewrite E. destruct Hok as (cs' & top' & E' & H1 & H2 & H3 & H4). rewrite E in E'. injection E' as <- <-.
    exists (cs ++ []), (top + len nin). rewrite app_nil_r. split; [reflexivity|]. repeat (split; [assumption|]).
    assert (EQ : forall a, add_sem nin number output None ovf a <-> sum_sem [nin; number] output ovf a).
    { intros a. unfold add_sem, sum_sem. cbn [map zsum cval]. rewrite Lo, Nat.eqb_refl.
      unfold len. rewrite Lo. rewrite !Z.add_0_r. tauto. }
    split; intros a Ha; [apply EQ, H3, Ha|apply H4, EQ, Ha].
  - cbn [sum_loop].
    set (size := length nin) in *.
    set (nout := fresh top size). set (top1 := top + Z.of_nat size).
    assert (Ht1 : top <= top1) by (unfold top1; lia).
    assert (Onout : Forall (lit_ok top1) nout) by (apply fresh_ok; unfold top1; lia).
    destruct (add_enc_ok nin number nout None ovf top1) as (cs & E & Hok);
      try (eapply Forall_ok_mono; [|eassumption]; lia); try assumption; try lia.
    { left. unfold nout. apply fresh_length. }
    { apply (Hadd nout top); [apply fresh_length|lia]. }
    { exact I. }
    rewrite E. destruct Hok as (cs' & top' & E' & H1 & H2 & H3 & H4). rewrite E in E'. injection E' as <- <-.
    set (top2 := top1 + len nin) in *.
    destruct (IH nout output ovf top2) as (cs2 & top3 & E2 & G1 & G2 & G3 & G4);
      try discriminate; try lia; try assumption; try (eapply Forall_ok_mono; [|eassumption]; lia).
    { apply fresh_length. }
    { eapply Forall_impl; [|exact Or']. intros c. apply Forall_ok_mono. lia. }
    fold nout in E2. fold top2. cbn [sum_loop] in E2. rewrite E2.
    exists (cs ++ cs2), top3. split; [reflexivity|]. split; [lia|].
    split; [apply cnf_ok_app; [eapply cnf_ok_mono; [|exact H2]; lia|assumption]|].
    assert (Hval : len output = Z.of_nat size) by (unfold len; rewrite Lo; reflexivity).
    assert (Lnout : Nat.eqb (length nout) (length nin) = true).
    { apply Nat.eqb_eq. apply fresh_length. }
    assert (Hlnin : len nin = Z.of_nat size) by reflexivity.
    split.
    + intros a. rewrite sat_app, andb_true_iff. intros [S1 S2].
      specialize (H3 a S1). specialize (G3 a S2).
      unfold add_sem in H3. unfold sum_sem in *. cbn [map zsum] in *. cbn [cval] in H3.
      rewrite Lnout, Hlnin in H3. rewrite Hval in *. destruct ovf; [|lia].
      rewrite <- G3, <- H3. rewrite Z.add_0_r.
      rewrite Z.add_mod_idemp_l by (apply Z.pow_nonzero; lia). f_equal. lia.
    + intros a Ha. unfold sum_sem in Ha. cbn [map zsum] in Ha.
      set (s := value a nin + value a number) in *.
      set (a1 := upds a top (get_bits s size)).
      assert (A1 : agree top a a1) by apply upds_agree.
      assert (V1 : value a1 nout = s mod 2 ^ Z.of_nat size).
      { unfold value, nout, a1. rewrite <- (get_bits_length s size) at 2.
        rewrite upds_values by lia. apply num_get_bits. }
      assert (P0 : 0 < 2 ^ Z.of_nat size) by (apply Z.pow_pos_nonneg; lia).
      assert (Hsum : zsum (map (value a) (n2 :: rest')) = zsum (map (value a1) (n2 :: rest'))).
      { f_equal. apply map_ext_in. intros n Hin. rewrite Forall_forall in Or'.
        apply (value_agree top); [exact A1|]. apply Or'. assumption. }
      cbn [map zsum] in Hsum.
      assert (Hs : ovf = false -> s mod 2 ^ Z.of_nat size = s).
      { intros ->. apply Z.mod_small. split.
        - unfold s. pose proof (value_nonneg a nin). pose proof (value_nonneg a number). lia.
        - pose proof (value_bound a output) as B. rewrite Hval in B.
          pose proof (zsum_values_nonneg a (n2 :: rest')) as B2. cbn [map zsum] in B2. unfold s. lia. }
      assert (OOs : value a output = value a1 output) by (apply (value_agree top); assumption).
      destruct (H4 a1) as (b1 & B1 & SB1).
      { unfold add_sem. rewrite Lnout, Hlnin. cbn [cval]. rewrite Z.add_0_r.
        rewrite <- !(value_agree top a a1) by assumption. fold s. rewrite V1.
        destruct ovf; [reflexivity|]. rewrite Hs; reflexivity. }
      destruct (G4 b1) as (b2 & B2 & SB2).
      { unfold sum_sem. cbn [map zsum].
        assert (Hn : value b1 nout = value a1 nout) by (symmetry; apply (value_agree top1); assumption).
        assert (Hs2 : zsum (map (value b1) (n2 :: rest')) = zsum (map (value a1) (n2 :: rest'))).
        { f_equal. apply map_ext_in. intros n Hin. rewrite Forall_forall in Or'. symmetry.
          apply (value_agree top); [eapply agree_mono; [|exact B1]; lia|]. apply Or'. assumption. }
        cbn [map zsum] in Hs2. rewrite Hn, Hs2, <- Hsum, V1.
        rewrite <- (value_agree top1 a1 b1 output), <- OOs by first [assumption | eapply Forall_ok_mono; [|eassumption]; lia].
        rewrite Hval in *. destruct ovf.
        - rewrite Z.add_mod_idemp_l by lia. rewrite <- Ha. f_equal. unfold s. lia.
        - rewrite Hs by reflexivity. unfold s. lia. }
      exists b2. split.
      * eapply agree_trans; [exact A1|]. eapply agree_trans; eapply agree_mono; [|exact B1| |exact B2]; lia.
      * rewrite sat_app, SB2, andb_true_r. rewrite <- (sat_agree top2 b1 b2); assumption.
Qed.

Lemma sum_numbers_ok numbers output ovf top :
  (2 <= length numbers)%nat -> 0 <= top -> (output <> [] \/ ovf = true) ->
  Forall (fun n => length n = length output) numbers ->
  Forall (Forall (lit_ok top)) numbers -> Forall (lit_ok top) output ->
  enc_ok top (sum_numbers numbers output ovf top) (sum_sem numbers output ovf).
Proof.
  intros HL Ht Hne Hl Hn Ho. destruct numbers as [|n1 [|n2 rest]]; cbn in HL; try lia.
  inversion Hl as [|? ? L1 Lr]; inversion Hn as [|? ? N1 Nr]; subst.
  unfold sum_numbers.
  assert (HB : forallb (fun n => Nat.eqb (length n) (length n1)) (n1 :: n2 :: rest)
               && Nat.eqb (length n1) (length output) = true).
  { apply andb_true_iff. split; [|apply Nat.eqb_eq; exact L1].
    apply forallb_forall. intros n Hin. apply Nat.eqb_eq. rewrite Forall_forall in Hl. rewrite (Hl _ Hin). auto. }
  rewrite HB. apply sum_loop_ok; try assumption; try discriminate; auto.
  - destruct Hne as [Hne|Hne]; [left|right; assumption]. rewrite L1. destruct output; [congruence|discriminate].
  - eapply Forall_impl; [|exact Lr]. cbn. intros n ->. auto.
Qed.

(** * increment_number *)
Lemma increment_loop_sat a : forall input output prefix,
  length input = length output -> Forall nonzero input -> Forall nonzero output -> Forall nonzero prefix ->
  (sat a (increment_loop prefix input output) = true <->
   value a output = (value a input + Z.b2z (forallb (evl a) prefix)) mod 2 ^ len input).
Proof.
  induction input as [|i is_ IH]; intros [|o os] prefix HL Hi Ho Hp; cbn in HL; try discriminate.
  - cbn [increment_loop]. rewrite !value_nil. unfold len. cbn [length].
    change (2 ^ Z.of_nat 0) with 1. rewrite Z.mod_1_r. split; reflexivity.
  - inversion Hi as [|? ? Hi1 Hi2]; inversion Ho as [|? ? Ho1 Ho2]; subst. cbn [increment_loop].
    rewrite !sat_app, !andb_true_iff, sat_implies, literals_different_sat by assumption.
    rewrite IH by first [assumption | lia | apply Forall_app; split; [assumption|repeat constructor; assumption]].
    assert (HF : sat a (flat_map (fun l => implies [- l] (literals_same i o)) prefix) = true <->
                 (forallb (evl a) prefix = true \/ evl a i = evl a o)).
    { rewrite sat_flat_map. split.
      - intros H. destruct (forallb (evl a) prefix) eqn:EF; [left; reflexivity|right].
        assert (HN : exists l, In l prefix /\ evl a l = false).
        { clear - EF. induction prefix as [|p ps IHp]; [discriminate|]. cbn in EF.
          destruct (evl a p) eqn:EP.
          - destruct (IHp EF) as (l & H1 & H2). exists l. cbn. auto.
          - exists p. cbn. auto. }
        destruct HN as (l & H1 & H2). specialize (H l H1).
        assert (Hl : l <> 0) by (rewrite Forall_forall in Hp; apply Hp; assumption).
        rewrite sat_implies in H by (repeat constructor; unfold nonzero; lia).
        cbn [forallb] in H. rewrite evl_neg, H2, literals_same_sat in H by assumption. cbn in H.
        apply eqb_prop in H. assumption.
      - intros H l Hin. assert (Hl : l <> 0) by (rewrite Forall_forall in Hp; apply Hp; assumption).
        rewrite sat_implies by (repeat constructor; unfold nonzero; lia).
        cbn [forallb]. rewrite evl_neg, literals_same_sat by assumption.
        destruct H as [H| ->]; [|rewrite eqb_reflx, orb_true_r; reflexivity].
        rewrite forallb_forall in H. rewrite (H l Hin). reflexivity. }
    rewrite HF. rewrite !value_cons, forallb_app. cbn [forallb]. rewrite andb_true_r.
    rewrite len_cons, Z.pow_add_r, Z.pow_1_r, (Z.mul_comm (2 ^ _) 2) by first [apply len_nonneg | lia].
    rewrite Z.rem_mul_r by first [lia | apply Z.pow_pos_nonneg; [lia|apply len_nonneg]].
    set (p := forallb (evl a) prefix). set (N := 2 ^ len is_).
    assert (Hdm : (Z.b2z (evl a i) + 2 * value a is_ + Z.b2z p) mod 2 = Z.b2z (xorb (evl a i) p) /\
                  (Z.b2z (evl a i) + 2 * value a is_ + Z.b2z p) / 2 = value a is_ + Z.b2z (p && evl a i)).
    { destruct (evl a i), p; cbn [Z.b2z xorb andb]; split; Z.div_mod_to_equations; lia. }
    destruct Hdm as [Hm Hd]. rewrite Hm, Hd.
    destruct (evl a i), (evl a o), p; cbn [Z.b2z xorb andb eqb negb orb]; split; intros H.
    all: try (destruct H as (H1 & H2 & H3); try discriminate; try (destruct H2; discriminate); lia).
    all: try (exfalso; lia).
    all: repeat split; try reflexivity; try (left; reflexivity); try (right; reflexivity); lia.
Qed.

Lemma increment_number_spec input output cs : Forall nonzero input -> Forall nonzero output ->
  increment_number input output = Some cs ->
  forall a, sat a cs = true <-> value a output = (value a input + 1) mod 2 ^ len input.
Proof.
  intros Hi Ho E a. unfold increment_number in E.
  destruct (_ && _) eqn:EB; [|discriminate]. injection E as <-.
  apply andb_true_iff in EB. destruct EB as [EB _]. apply Nat.eqb_eq in EB.
  rewrite increment_loop_sat by (assumption || constructor). reflexivity.
Qed.
Lemma increment_number_some input output :
  (exists cs, increment_number input output = Some cs) <-> length input = length output /\ input <> [].
Proof.
  unfold increment_number. destruct (Nat.eqb_spec (length input) (length output)); cbn [andb].
  - destruct input; cbn; split; try (intros [? ?]; discriminate).
    + intros [_ H]. congruence.
    + intros _. split; [assumption|discriminate].
    + intros _. eexists. reflexivity.
  - split; [intros [? ?]; discriminate|tauto].
Qed.

(** * break_symmetry *)
Definition pval (a : assignment) (p : option lit) : bool :=
  match p with None => false | Some l => evl a l end.

Lemma break_bit_sat a l r d p : l <> 0 -> r <> 0 -> d <> 0 -> opt_ok nonzero p ->
  (sat a (break_bit l r d p) = true <->
   evl a d = pval a p || (negb (evl a l) && evl a r) /\ pval a p || implb (evl a l) (evl a r) = true).
Proof.
  intros Hl Hr Hd Hp. destruct p as [p|]; cbn [break_bit pval opt_ok] in *; cnf_unfold.
  - destruct (evl a l), (evl a r), (evl a d), (evl a p); cbn; split; intros; try tauto; try discriminate;
      destruct H; discriminate.
  - destruct (evl a l), (evl a r), (evl a d); cbn; split; intros; try tauto; try discriminate;
      destruct H; discriminate.
Qed.

Lemma break_bit_ok n l r d p : lit_ok n l -> lit_ok n r -> lit_ok n d -> opt_ok (lit_ok n) p ->
  cnf_ok n (break_bit l r d p).
Proof.
  intros. destruct p; cbn [break_bit opt_ok] in *; repeat constructor; unfold lit_ok in *; try lia.
Qed.

Lemma break_loop_sound a : forall ls rs ds p,
  length ls = length rs -> length ds = length ls ->
  Forall nonzero ls -> Forall nonzero rs -> Forall nonzero ds -> opt_ok nonzero p ->
  sat a (break_loop ls rs ds p) = true -> pval a p = true \/ lex_le (values a ls) (values a rs) = true.
Proof.
  induction ls as [|l ls IH]; intros [|r rs] [|d ds] p H1 H2 Hl Hr Hd Hp HS; cbn in H1, H2; try discriminate.
  - right. reflexivity.
  - inversion Hl; inversion Hr; inversion Hd; subst. cbn [break_loop] in HS.
    rewrite sat_app, andb_true_iff in HS. destruct HS as [S1 S2].
    apply break_bit_sat in S1; try assumption. destruct S1 as [E1 E2].
    apply IH in S2; try assumption; try lia. cbn [pval] in S2. rewrite E1 in S2.
    destruct (pval a p); [left; reflexivity|right]. cbn [orb] in *.
    unfold values in *. cbn [map lex_le]. destruct (evl a l), (evl a r); cbn in *; try discriminate; auto;
      destruct S2; auto; discriminate.
Qed.

Lemma break_loop_complete : forall ls rs p top a,
  length ls = length rs -> 0 <= top ->
  Forall (lit_ok top) ls -> Forall (lit_ok top) rs -> opt_ok (lit_ok top) p ->
  pval a p = true \/ lex_le (values a ls) (values a rs) = true ->
  exists b, agree top a b /\ sat b (break_loop ls rs (fresh top (length ls)) p) = true.
Proof.
  induction ls as [|l ls IH]; intros [|r rs] p top a HL Ht Hl Hr Hp HV; cbn in HL; try discriminate.
  - exists a. split; [apply agree_refl|reflexivity].
  - inversion Hl as [|? ? Hl1 Hl2]; inversion Hr as [|? ? Hr1 Hr2]; subst. cbn [length fresh break_loop].
    set (dv := pval a p || (negb (evl a l) && evl a r)).
    set (a1 := upd a (top + 1) dv).
    assert (A1 : agree top a a1) by (apply upd_agree; lia).
    assert (Ed : evl a1 (top + 1) = dv) by (rewrite evl_pos by lia; apply upd_same).
    unfold values in HV. cbn [map lex_le] in HV.
    destruct (IH rs (Some (top + 1)) (top + 1) a1) as (b & B1 & B2); try lia;
      try (eapply Forall_ok_mono; [|eassumption]; lia).
    { cbn. unfold lit_ok. lia. }
    { cbn [pval]. rewrite Ed. rewrite <- !(values_agree top a a1) by assumption. unfold dv, values.
      destruct (pval a p); [left; reflexivity|]. cbn [orb]. destruct HV as [HV|HV]; [discriminate|].
      destruct (evl a l), (evl a r); cbn in *; auto. }
    exists b. split; [eapply agree_trans; [exact A1|]; eapply agree_mono; [|exact B1]; lia|].
    rewrite sat_app, B2, andb_true_r.
    rewrite <- (sat_agree (top + 1) a1 b); [|assumption|].
    2:{ apply break_bit_ok; try (eapply lit_ok_mono; [|eassumption]; lia).
        - unfold lit_ok. lia.
        - eapply opt_ok_impl; [|eassumption]. intros x. apply lit_ok_mono. lia. }
    assert (Ep : pval a1 p = pval a p).
    { destruct p; cbn in *; [|reflexivity]. symmetry. apply (evl_agree top); assumption. }
    apply break_bit_sat; try (apply (lit_ok_nonzero top); assumption); try lia.
    { eapply opt_ok_impl; [|eassumption]. apply lit_ok_nonzero. }
    rewrite Ed, Ep, <- !(evl_agree top a a1) by assumption. split; [reflexivity|].
    destruct (pval a p); [reflexivity|]. cbn [orb]. destruct HV as [HV|HV]; [discriminate|].
    destruct (evl a l), (evl a r); cbn in *; auto.
Qed.

Lemma break_loop_ok : forall ls rs p top, 0 <= top ->
  length ls = length rs ->
  Forall (lit_ok top) ls -> Forall (lit_ok top) rs -> opt_ok (lit_ok top) p ->
  cnf_ok (top + len ls) (break_loop ls rs (fresh top (length ls)) p).
Proof.
  induction ls as [|l ls IH]; intros [|r rs] p top Ht HL Hl Hr Hp; cbn in HL; try discriminate; [constructor|].
  inversion Hl; inversion Hr; subst. cbn [length fresh break_loop]. rewrite len_cons. pose proof (len_nonneg ls).
  apply cnf_ok_app.
  - apply break_bit_ok; try (eapply lit_ok_mono; [|eassumption]; lia).
    + unfold lit_ok. lia.
    + eapply opt_ok_impl; [|eassumption]. intros x. apply lit_ok_mono. lia.
  - replace (top + (len ls + 1)) with (top + 1 + len ls) by lia. apply IH; try lia;
      try (eapply Forall_ok_mono; [|eassumption]; lia). cbn. unfold lit_ok. lia.
Qed.

Lemma break_symmetry_ok left right top : length left = length right -> 0 <= top ->
  Forall (lit_ok top) left -> Forall (lit_ok top) right ->
  enc_ok top (break_symmetry left right top) (fun a => lex_le (values a left) (values a right) = true).
Proof.
  intros HL Ht Hl Hr. unfold break_symmetry. rewrite HL, Nat.eqb_refl, <- HL.
  eexists _, _. split; [reflexivity|]. split; [pose proof (len_nonneg left); lia|].
  split; [apply break_loop_ok; auto; exact I|]. split.
  - intros a HS. apply break_loop_sound in HS.
    + destruct HS as [HS|HS]; [discriminate|assumption].
    + assumption.
    + rewrite fresh_length. reflexivity.
    + eapply Forall_ok_nonzero; eassumption.
    + eapply Forall_ok_nonzero; eassumption.
    + apply (Forall_ok_nonzero (top + len left)). apply fresh_ok; unfold len; lia.
    + exact I.
  - intros a Ha. apply break_loop_complete; auto; exact I.
Qed.

(** * read_number *)
Lemma lor_pow2 acc i : 0 <= i -> 0 <= acc < 2 ^ i -> Z.lor acc (2 ^ i) = acc + 2 ^ i.
Proof.
  intros Hi Ha. rewrite <- Z.lxor_lor, Z.add_nocarry_lxor; try reflexivity.
  all: apply Z.bits_inj'; intros k Hk; rewrite Z.land_spec, Z.bits_0, Z.pow2_bits_eqb by assumption;
    destruct (Z.eqb_spec i k) as [->|]; [|apply andb_false_r]; rewrite andb_true_r;
    rewrite Z.testbit_false by assumption; rewrite Z.div_small by assumption; reflexivity.
Qed.

Lemma read_number_from_spec bits : forall i acc, 0 <= i -> 0 <= acc < 2 ^ i ->
  read_number_from i acc bits = acc + 2 ^ i * num bits.
Proof.
  unfold read_number_from. induction bits as [|b bits IH]; intros i acc Hi Ha; cbn [fold_left num].
  - cbn [snd]. lia.
  - rewrite IH; [| lia |].
    + rewrite Z.pow_add_r, Z.pow_1_r by lia. destruct b; cbn [Z.b2z]; [|lia].
      rewrite shiftl1, lor_pow2 by assumption. lia.
    + rewrite Z.pow_add_r, Z.pow_1_r by lia. destruct b; [|lia].
      rewrite shiftl1, lor_pow2 by assumption. lia.
Qed.
Lemma read_number_num bits : read_number bits = num bits.
Proof. unfold read_number. rewrite read_number_from_spec; [|lia|cbn; lia]. change (2 ^ 0) with 1. lia. Qed.

Lemma get_bits_num bits : get_bits (num bits) (length bits) = bits.
Proof.
  apply num_inj; [apply get_bits_length|]. rewrite num_get_bits, Z.mod_small; [reflexivity|].
  pose proof (num_bound bits). unfold len in *. assumption.
Qed.

Lemma num_last bits : bits <> [] ->
  num bits = num (removelast bits) + 2 ^ (len bits - 1) * Z.b2z (last bits false).
Proof.
  intros H. rewrite (app_removelast_last false H) at 1. rewrite num_app.
  replace (len (removelast bits)) with (len bits - 1).
  - cbn [num]. rewrite Z.mul_0_r, Z.add_0_r. reflexivity.
  - rewrite (app_removelast_last false H) at 1. rewrite len_app. unfold len at 2. cbn. lia.
Qed.

(** * invert_number *)
Lemma invert_bit_sat a x y ci co : x <> 0 -> y <> 0 -> opt_ok nonzero ci -> opt_ok nonzero co ->
  (sat a (invert_bit x y ci co) = true <->
   (exists k, Z.b2z (evl a x) + Z.b2z (evl a y) + cval a ci = 2 * k /\
              match co with None => True | Some c => Z.b2z (evl a c) = k end)).
Proof.
  intros Hx Hy Hci Hco.
  assert (HK : forall m (c : bool), (exists k, m = 2 * k /\ Z.b2z c = k) <-> m = 2 * Z.b2z c).
  { intros m c. split; [intros (k & -> & <-); reflexivity|intros ->; eexists; split; reflexivity]. }
  assert (HE : forall m, (exists k, m = 2 * k /\ True) <-> m mod 2 = 0).
  { intros m. split.
    - intros (k & -> & _). rewrite Z.mul_comm. apply Z_mod_mult.
    - intros Hm. exists (m / 2). split; [|exact I]. pose proof (Z.div_mod m 2 ltac:(lia)). lia. }
  destruct ci as [ci|], co as [co|]; cbn [invert_bit opt_ok cval] in *; unfold literals_same; cbn [app];
    cnf_unfold; rewrite ?HK, ?HE;
    try (destruct (evl a x), (evl a y), (evl a ci), (evl a co); cbn; split; (reflexivity || discriminate));
    try (destruct (evl a x), (evl a y), (evl a ci); cbn; split; (reflexivity || discriminate));
    try (destruct (evl a x), (evl a y), (evl a co); cbn; split; (reflexivity || discriminate));
    try (destruct (evl a x), (evl a y); cbn; split; (reflexivity || discriminate)).
Qed.

Lemma invert_bit_ok n x y ci co : lit_ok n x -> lit_ok n y -> opt_ok (lit_ok n) ci -> opt_ok (lit_ok n) co ->
  cnf_ok n (invert_bit x y ci co).
Proof.
  intros. destruct ci, co; cbn [invert_bit opt_ok literals_same app] in *;
    repeat constructor; unfold lit_ok in *; try lia.
Qed.

Lemma invert_loop_ok : forall xs ys ci top, xs <> [] -> length xs = length ys -> 0 <= top ->
  Forall (lit_ok top) xs -> Forall (lit_ok top) ys -> opt_ok (lit_ok top) ci ->
  enc_ok top (Some (invert_loop xs ys ci top))
    (fun a => (value a xs + value a ys + cval a ci) mod 2 ^ len xs = 0).
Proof.
  induction xs as [|x xs IH]; intros [|y ys] ci top Hne HL Ht Hx Hy Hci; cbn in HL; try discriminate; [congruence|].
  inversion Hx as [|? ? Hx1 Hx2]; inversion Hy as [|? ? Hy1 Hy2]; subst.
  assert (NZci : opt_ok nonzero ci) by (eapply opt_ok_impl; [|eassumption]; apply lit_ok_nonzero).
  assert (NZx := lit_ok_nonzero _ _ Hx1). assert (NZy := lit_ok_nonzero _ _ Hy1).
  destruct xs as [|x2 xs'].
  - destruct ys; [|discriminate]. cbn [invert_loop].
    eexists _, _. split; [reflexivity|]. split; [lia|]. split; [apply invert_bit_ok; auto; exact I|].
    assert (EQ : forall a, sat a (invert_bit x y ci None) = true <->
        (value a [x] + value a [y] + cval a ci) mod 2 ^ len [x] = 0).
    { intros a. rewrite invert_bit_sat by (assumption || exact I).
      rewrite !value_cons, !value_nil. change (2 ^ len [x]) with 2. split.
      - intros (k & Hk & _). replace (_ + _ + _) with (k * 2) by lia. apply Z_mod_mult.
      - intros H. exists ((Z.b2z (evl a x) + 2 * 0 + (Z.b2z (evl a y) + 2 * 0) + cval a ci) / 2).
        split; [|exact I]. pose proof (Z.div_mod (Z.b2z (evl a x) + 2 * 0 + (Z.b2z (evl a y) + 2 * 0) + cval a ci) 2 ltac:(lia)). lia. }
    split; intros a Ha; [apply EQ; assumption|]. exists a. split; [apply agree_refl|]. apply EQ. assumption.
  - change (invert_loop (x :: x2 :: xs') (y :: ys) ci top) with
      (let '(cs, top') := invert_loop (x2 :: xs') ys (Some (top + 1)) (top + 1) in
       (invert_bit x y ci (Some (top + 1)) ++ cs, top')).
    remember (x2 :: xs') as xs eqn:Exs.
    assert (Hne' : xs <> []) by (subst; discriminate).
    destruct (invert_loop xs ys (Some (top + 1)) (top + 1)) as [cs top'] eqn:EL.
    destruct (IH ys (Some (top + 1)) (top + 1)) as (cs' & top'' & E & G1 & G2 & G3 & G4);
      try assumption; try lia; try (eapply Forall_ok_mono; [|eassumption]; lia).
    { cbn. unfold lit_ok. lia. }
    rewrite EL in E. injection E as <- <-.
    eexists _, _. split; [reflexivity|]. split; [lia|]. 
    assert (OKb : cnf_ok (top + 1) (invert_bit x y ci (Some (top + 1)))).
    { apply invert_bit_ok; try (eapply lit_ok_mono; [|eassumption]; lia).
      - eapply opt_ok_impl; [|exact Hci]. intros l. apply lit_ok_mono. lia.
      - cbn. unfold lit_ok. lia. }
    split; [apply cnf_ok_app; [eapply cnf_ok_mono; [|exact OKb]; lia|assumption]|].
    assert (NZt : opt_ok nonzero (Some (top + 1))) by (cbn; unfold nonzero; lia).
    assert (AR : forall a k, Z.b2z (evl a x) + Z.b2z (evl a y) + cval a ci = 2 * k ->
        ((value a (x :: xs) + value a (y :: ys) + cval a ci) mod 2 ^ len (x :: xs) = 0 <->
         (value a xs + value a ys + k) mod 2 ^ len xs = 0)).
    { intros a k Hk. rewrite !value_cons.
      replace (Z.b2z (evl a x) + 2 * value a xs + (Z.b2z (evl a y) + 2 * value a ys) + cval a ci)
        with (2 * (value a xs + value a ys + k)) by lia.
      rewrite len_cons, Z.pow_add_r, Z.pow_1_r, (Z.mul_comm (2 ^ _) 2) by first [apply len_nonneg | lia].
      rewrite Zmult_mod_distr_l. lia. }
    split.
    + intros a. rewrite sat_app, andb_true_iff. intros [S1 S2].
      apply invert_bit_sat in S1; try assumption. destruct S1 as (k & Hk & Hc).
      apply (AR a k Hk). specialize (G3 a S2). cbn [cval] in G3. rewrite Hc in G3. exact G3.
    + intros a Ha.
      assert (HE : exists k, Z.b2z (evl a x) + Z.b2z (evl a y) + cval a ci = 2 * k).
      { rewrite !value_cons in Ha. rewrite len_cons, Z.pow_add_r, Z.pow_1_r, (Z.mul_comm (2 ^ _) 2) in Ha by first [apply len_nonneg | lia].
        assert (P0 : 0 < 2 ^ len xs) by (apply Z.pow_pos_nonneg; [lia|apply len_nonneg]).
        apply Z.mod_divide in Ha; [|lia]. destruct Ha as [q Hq].
        exists (q * 2 ^ len xs - value a xs - value a ys). lia. }
      destruct HE as [k Hk].
      assert (Hk01 : k = 0 \/ k = 1).
      { pose proof (cval_bound a ci). destruct (evl a x), (evl a y); cbn [Z.b2z] in Hk; lia. }
      set (c := Z.eqb k 1).
      set (a1 := upd a (top + 1) c).
      assert (A1 : agree top a a1) by (apply upd_agree; lia).
      assert (Ec : evl a1 (top + 1) = c) by (rewrite evl_pos by lia; apply upd_same).
      assert (Hck : Z.b2z c = k) by (unfold c; destruct Hk01; subst; reflexivity).
      destruct (G4 a1) as (b & B1 & B2).
      { cbn [cval]. rewrite Ec, Hck. rewrite <- !(value_agree top a a1) by assumption.
        apply (AR a k Hk). exact Ha. }
      exists b. split; [eapply agree_trans; [exact A1|]; eapply agree_mono; [|exact B1]; lia|].
      rewrite sat_app, B2, andb_true_r. rewrite <- (sat_agree (top + 1) a1 b) by assumption.
      apply invert_bit_sat; try assumption. exists k. rewrite Ec, Hck. split; [|reflexivity].
      rewrite <- !(evl_agree top a a1) by assumption. rewrite <- (cval_agree top a a1) by assumption. exact Hk.
Qed.

Lemma last_clause_sat a ls : ls <> [] -> Forall nonzero ls ->
  (satc a (removelast ls ++ [- last ls 0]) = true <-> value a ls <> 2 ^ (len ls - 1)).
Proof.
  intros Hne H.
  assert (HL : last ls 0 <> 0) by (apply (last_Forall nonzero); assumption).
  assert (Hd : ls = removelast ls ++ [last ls 0]) by (apply app_removelast_last; assumption).
  assert (Hlen : len ls - 1 = len (removelast ls)).
  { rewrite Hd at 1. rewrite len_app. unfold len at 2. cbn. lia. }
  rewrite satc_app, satc_cons, satc_nil, orb_false_r, evl_neg by assumption.
  rewrite Hlen. rewrite Hd at 3. rewrite value_app, value_cons, value_nil.
  set (r := removelast ls).
  assert (P : 0 < 2 ^ len r) by (apply Z.pow_pos_nonneg; [lia|apply len_nonneg]).
  pose proof (value_bound a r) as B.
  assert (HS : satc a r = false <-> value a r = 0).
  { unfold value. rewrite <- all_false_num. unfold values. rewrite forallb_map'. clear.
    induction r as [|l r IH]; [split; reflexivity|]. rewrite satc_cons. cbn [forallb].
    rewrite orb_false_iff, andb_true_iff, negb_true_iff, IH. reflexivity. }
  destruct (evl a (last ls 0)); cbn [negb Z.b2z].
  - rewrite orb_false_r. split.
    + intros H1 H2. assert (value a r = 0) by lia. apply HS in H0. congruence.
    + intros H1. destruct (satc a r); [reflexivity|]. exfalso. apply H1. rewrite (proj1 HS eq_refl). lia.
  - rewrite orb_true_r. split; [|reflexivity]. intros _. lia.
Qed.

Lemma invert_number_ok xs ys top : xs <> [] -> length xs = length ys -> 0 <= top ->
  Forall (lit_ok top) xs -> Forall (lit_ok top) ys ->
  enc_ok top (invert_number xs ys top)
    (fun a => (value a xs + value a ys) mod 2 ^ len xs = 0 /\ value a xs <> 2 ^ (len xs - 1)).
Proof.
  intros Hne HL Ht Hx Hy. unfold invert_number. rewrite HL, Nat.eqb_refl. cbn [negb].
  destruct (invert_loop_ok xs ys None top) as (cs & top' & E & G1 & G2 & G3 & G4); auto; [exact I|].
  destruct xs as [|x xs']; [congruence|]. remember (x :: xs') as xs.
  injection E as E. rewrite E.
  assert (NZ : Forall nonzero xs) by (eapply Forall_ok_nonzero; eassumption).
  eexists _, _. split; [reflexivity|]. split; [assumption|].
  assert (Ocl : Forall (lit_ok top) (removelast xs ++ [- last xs 0])).
  { apply Forall_app. split.
    - rewrite (app_removelast_last 0 Hne) in Hx. apply Forall_app in Hx. tauto.
    - repeat constructor; apply (last_Forall (lit_ok top) xs 0 Hne) in Hx; unfold lit_ok in Hx; lia. }
  split; [apply cnf_ok_app; [assumption|]; constructor; [eapply Forall_ok_mono; [|exact Ocl]; lia|constructor]|].
  split.
  - intros a. rewrite sat_app, sat_cons, sat_nil, andb_true_r, andb_true_iff. intros [S1 S2].
    split; [|apply last_clause_sat; assumption]. specialize (G3 a S1). cbn [cval] in G3. rewrite Z.add_0_r in G3. exact G3.
  - intros a [H1 H2]. destruct (G4 a) as (b & B1 & B2); [cbn [cval]; rewrite Z.add_0_r; exact H1|].
    exists b. split; [assumption|]. rewrite sat_app, sat_cons, sat_nil, andb_true_r, B2. cbn [andb].
    rewrite <- (satc_agree top a b) by assumption. apply last_clause_sat; assumption.
Qed.

(** * get_popcount *)
Lemma count_true_app xs ys : count_true (xs ++ ys) = count_true xs + count_true ys.
Proof. induction xs as [|x xs IH]; cbn [app count_true]; lia. Qed.
Lemma count_true_bound bs : 0 <= count_true bs <= len bs.
Proof.
  induction bs as [|b bs IH]; [cbn; lia|]. rewrite len_cons. cbn [count_true]. destruct b; cbn [Z.b2z]; lia.
Qed.
Lemma values_app a xs ys : values a (xs ++ ys) = values a xs ++ values a ys.
Proof. apply map_app. Qed.

Lemma log2_up_half k : 2 <= k -> Z.log2_up (k + 1) = Z.log2_up (2 * k + 1) - 1 /\
                                 Z.log2_up (k + 1) = Z.log2_up (2 * k + 1 + 1) - 1.
Proof.
  intros Hk.
  pose proof (Z.log2_up_spec (k + 1) ltac:(lia)) as [H1 H2].
  pose proof (Z.log2_up_pos (k + 1) ltac:(lia)) as H0.
  set (w := Z.log2_up (k + 1)) in *.
  assert (E1 : 2 ^ Z.pred w = 2 ^ (w - 1)) by (f_equal; lia).
  assert (Hw : 2 <= w).
  { destruct (Z.le_gt_cases 2 w); [assumption|]. assert (w = 1) by lia. rewrite H3 in H2. cbn in H2. lia. }
  assert (E2 : 2 ^ w = 2 * 2 ^ (w - 1)) by (rewrite <- Z.pow_succ_r by lia; f_equal; lia).
  assert (E3 : 2 ^ (w + 1) = 2 * 2 ^ w) by (rewrite <- Z.pow_succ_r by lia; f_equal; lia).
  assert (P1 : Z.log2_up (2 * k + 1) = w + 1).
  { apply Z.log2_up_unique; [lia|]. replace (Z.pred (w + 1)) with w by lia. lia. }
  assert (P2 : Z.log2_up (2 * k + 1 + 1) = w + 1).
  { apply Z.log2_up_unique; [lia|]. replace (Z.pred (w + 1)) with w by lia. lia. }
  lia.
Qed.

Lemma split_half {A} (l : list A) (d : A) : (4 <= length l)%nat ->
  let k := Nat.div (length l) 2 in
  let B := firstn k (skipn k l) in
  length (firstn k l) = k /\ length B = k /\ (2 <= k)%nat /\ (k < length l)%nat /\
  l = firstn k l ++ B ++ (if Nat.eqb (Nat.modulo (length l) 2) 0 then [] else [last l d]) /\
  len l = 2 * Z.of_nat k + (if Nat.eqb (Nat.modulo (length l) 2) 0 then 0 else 1).
Proof.
  intros HL k B.
  pose proof (Nat.div_mod (length l) 2 ltac:(lia)) as D. fold k in D.
  pose proof (Nat.mod_upper_bound (length l) 2 ltac:(lia)) as M.
  assert (Hk : (2 <= k)%nat) by lia.
  assert (LA : length (firstn k l) = k) by (rewrite firstn_length; lia).
  assert (LB : length B = k) by (unfold B; rewrite firstn_length, skipn_length; lia).
  split; [exact LA|]. split; [exact LB|]. split; [exact Hk|]. split; [lia|].
  assert (Hl : l = firstn k l ++ B ++ skipn k (skipn k l)).
  { unfold B. rewrite firstn_skipn, firstn_skipn. reflexivity. }
  assert (LC : length (skipn k (skipn k l)) = Nat.modulo (length l) 2) by (rewrite !skipn_length; lia).
  destruct (Nat.eqb_spec (Nat.modulo (length l) 2) 0) as [E|E].
  - split; [|unfold len; lia]. destruct (skipn k (skipn k l)) eqn:ES; [|rewrite E in LC; discriminate]. exact Hl.
  - split; [|unfold len; lia].
    assert (E1 : Nat.modulo (length l) 2 = 1%nat) by lia. rewrite E1 in LC.
    destruct (skipn k (skipn k l)) as [|z [|]] eqn:ES; try discriminate.
    rewrite Hl at 1. do 2 f_equal. rewrite Hl. rewrite app_assoc, last_last. reflexivity.
Qed.

Lemma popcount_fuel_ok : forall fuel bits output top,
  (length bits <= fuel)%nat -> (2 <= length bits)%nat -> 0 <= top ->
  len output = Z.log2_up (len bits + 1) ->
  Forall (lit_ok top) bits -> Forall (lit_ok top) output ->
  enc_ok top (popcount_fuel fuel bits output top) (fun a => value a output = count_true (values a bits)).
Proof.
  induction fuel as [|fuel IH]; intros bits output top Hf HL Ht HW Hb Ho; [lia|].
  cbn [popcount_fuel]. unfold bin_length.
  destruct (Z.ltb_spec 0 (len bits + 1)); [|pose proof (len_nonneg bits); lia].
  rewrite HW, Z.eqb_refl. cbn [negb].
  destruct (Nat.leb_spec (length bits) 1); [lia|].
  destruct (Nat.leb_spec (length bits) 3).
  - assert (HW2 : length output = 2%nat).
    { unfold len in HW. destruct bits as [|b0 [|b1 [|b2 [|]]]]; cbn [length] in *; try lia;
        cbn in HW; lia. }
    set (ci := if Nat.eqb (length bits) 3 then Some (nth 2 bits 0) else None).
    assert (Hci : opt_ok (lit_ok top) ci).
    { unfold ci. destruct (Nat.eqb_spec (length bits) 3) as [E3|]; [|exact I]. cbn [opt_ok].
      rewrite Forall_forall in Hb. apply Hb. apply nth_In. lia. }
    assert (N0 : lit_ok top (nth 0 bits 0)) by (rewrite Forall_forall in Hb; apply Hb; apply nth_In; lia).
    assert (N1 : lit_ok top (nth 1 bits 0)) by (rewrite Forall_forall in Hb; apply Hb; apply nth_In; lia).
    destruct (add_enc_ok [nth 0 bits 0] [nth 1 bits 0] output ci false top) as (cs & E & Hok);
      auto; try (repeat constructor; try apply N0; try apply N1; fail); try (left; discriminate).
    destruct Hok as (cs' & top' & E' & G1 & G2 & G3 & G4).
    exists cs', top'. split; [exact E'|]. split; [assumption|]. split; [assumption|].
    assert (EQ : forall a, add_sem [nth 0 bits 0] [nth 1 bits 0] output ci false a <->
                           value a output = count_true (values a bits)).
    { intros a. unfold add_sem. rewrite !value_cons, !value_nil. unfold ci.
      destruct bits as [|b0 [|b1 [|b2 [|]]]]; cbn [length] in *; try lia; cbn [Nat.eqb nth cval values map count_true]; lia. }
    split; intros a Ha; [apply EQ, G3, Ha|apply G4, EQ, Ha].
  - destruct (split_half bits 0) as (LA & LB & Hk & Hkl & Hbits & Hlen); [lia|].
    set (k := Nat.div (length bits) 2) in *.
    set (A := firstn k bits) in *. set (B := firstn k (skipn k bits)) in *.
    set (ci := if Nat.eqb (Nat.modulo (length bits) 2) 0 then None else Some (last bits 0)).
    set (w' := Init.Nat.pred (length output)).
    destruct (log2_up_half (Z.of_nat k)) as [W1 W2]; [lia|].
    assert (HLo : length output = S w').
    { unfold w'. destruct output; cbn; [|reflexivity].
      pose proof (Z.log2_up_pos (len bits + 1) ltac:(unfold len; lia)). unfold len in HW at 1. cbn in HW. lia. }
    assert (Hw' : Z.of_nat w' = Z.log2_up (Z.of_nat k + 1)).
    { pose proof (Z.log2_up_pos (len bits + 1) ltac:(unfold len; lia)).
      assert (HWn : Z.of_nat w' = len output - 1) by (unfold len; rewrite HLo; lia).
      rewrite HWn, HW. destruct (Nat.eqb _ 0); rewrite Hlen; [rewrite Z.add_0_r, W1|rewrite W2]; reflexivity. }
    assert (Hw1 : (1 <= w')%nat).
    { pose proof (Z.log2_up_pos (Z.of_nat k + 1) ltac:(lia)). lia. }
    set (oa := fresh top w'). set (ob := fresh (top + Z.of_nat w') w').
    set (top0 := top + 2 * Z.of_nat w').
    assert (Hoa : Forall (lit_ok top0) oa) by (apply fresh_ok; unfold top0; lia).
    assert (Hob : Forall (lit_ok top0) ob) by (apply fresh_ok; unfold top0; lia).
    assert (HbA : Forall (lit_ok top) A) by (apply Forall_firstn; assumption).
    assert (HbB : Forall (lit_ok top) B) by (apply Forall_firstn, Forall_skipn; assumption).
    destruct (IH A oa top0) as (ca & top1 & EA & A1 & A2 & A3 & A4); try (unfold top0 in *; lia).
    { unfold len at 1. unfold oa. rewrite fresh_length, Hw'. f_equal. unfold len. lia. }
    { eapply Forall_ok_mono; [|exact HbA]. unfold top0. lia. }
    { exact Hoa. }
    rewrite EA.
    destruct (IH B ob top1) as (cb & top2 & EB & B1 & B2 & B3 & B4); try (unfold top0 in *; lia).
    { unfold len at 1. unfold ob. rewrite fresh_length, Hw'. f_equal. unfold len. lia. }
    { eapply Forall_ok_mono; [|exact HbB]. unfold top0 in *. lia. }
    { eapply Forall_ok_mono; [|exact Hob]. unfold top0 in *. lia. }
    rewrite EB.
    assert (Hci : opt_ok (lit_ok top) ci).
    { unfold ci. destruct (Nat.eqb _ 0); [exact I|]. cbn [opt_ok].
      apply last_Forall; [destruct bits; [cbn in HL; lia|discriminate]|assumption]. }
    assert (Htop2 : top0 <= top2) by lia.
    assert (Htop02 : top <= top2) by (unfold top0 in *; lia).
    destruct (add_enc_ok oa ob output ci false top2) as (cc & EC & Hok).
    { unfold oa, ob. rewrite !fresh_length. reflexivity. }
    { right. unfold oa. rewrite fresh_length. exact HLo. }
    { left. unfold oa. destruct w'; [lia|discriminate]. }
    { lia. }
    { eapply Forall_ok_mono; [|exact Hoa]; lia. }
    { eapply Forall_ok_mono; [|exact Hob]; lia. }
    { eapply Forall_ok_mono; [|exact Ho]; lia. }
    { eapply opt_ok_impl; [|exact Hci]. intros l. apply lit_ok_mono. lia. }
    destruct Hok as (cc' & top3 & EC' & C1 & C2 & C3 & C4). rewrite EC in EC'. injection EC' as <- <-.
    rewrite EC. set (top3 := top2 + len oa) in *.
    eexists _, _. split; [reflexivity|]. split; [unfold top0 in *; lia|].
    split. { apply cnf_ok_app; [eapply cnf_ok_mono; [|exact A2]; lia|].
             apply cnf_ok_app; [eapply cnf_ok_mono; [|exact B2]; lia|assumption]. }
    assert (CNT : forall a, count_true (values a bits)
              = count_true (values a A) + count_true (values a B) + cval a ci).
    { intros a. rewrite Hbits at 1. fold A B. rewrite !values_app, !count_true_app. unfold ci.
      destruct (Nat.eqb _ 0); cbn [values map count_true cval]; lia. }
    split.
    + intros a. rewrite !sat_app, !andb_true_iff. intros (S1 & S2 & S3).
      specialize (A3 a S1). specialize (B3 a S2). specialize (C3 a S3).
      unfold add_sem in C3. rewrite CNT, <- A3, <- B3. lia.
    + intros a Ha.
      set (na := count_true (values a A)). set (nb := count_true (values a B)).
      set (a1 := upds a top (get_bits na w')).
      set (a2 := upds a1 (top + Z.of_nat w') (get_bits nb w')).
      assert (AG1 : agree top a a1) by apply upds_agree.
      assert (AG2 : agree (top + Z.of_nat w') a1 a2) by apply upds_agree.
      assert (AG12 : agree top a a2) by (eapply agree_trans; [exact AG1|eapply agree_mono; [|exact AG2]; lia]).
      assert (CAP : forall n, 0 <= n <= Z.of_nat k -> n mod 2 ^ Z.of_nat w' = n).
      { intros n Hn. apply Z.mod_small. rewrite Hw'.
        pose proof (Z.log2_up_spec (Z.of_nat k + 1) ltac:(lia)). lia. }
      assert (Bna : 0 <= na <= Z.of_nat k).
      { unfold na. pose proof (count_true_bound (values a A)) as BB. unfold len in BB. rewrite values_length, LA in BB. exact BB. }
      assert (Bnb : 0 <= nb <= Z.of_nat k).
      { unfold nb. pose proof (count_true_bound (values a B)) as BB. unfold len in BB. rewrite values_length, LB in BB. exact BB. }
      assert (Voa : value a2 oa = na).
      { transitivity (value a1 oa).
        - symmetry. apply (value_agree (top + Z.of_nat w')); [exact AG2|]. apply fresh_ok; lia.
        - unfold oa, a1. rewrite value_upds_bits by lia. apply CAP, Bna. }
      assert (Vob : value a2 ob = nb).
      { unfold ob, a2. rewrite value_upds_bits by lia. apply CAP, Bnb. }
      destruct (A4 a2) as (b1 & X1 & Y1).
      { rewrite Voa. unfold na. f_equal. apply (values_agree top); assumption. }
      destruct (B4 b1) as (b2 & X2 & Y2).
      { rewrite <- (value_agree top0 a2 b1) by assumption. rewrite Vob. unfold nb. f_equal.
        transitivity (values a2 B); [apply (values_agree top); assumption|].
        apply (values_agree top); [|assumption]. eapply agree_mono; [|exact X1]. unfold top0. lia. }
      assert (AGb : agree top0 a2 b2) by (eapply agree_trans; [exact X1|eapply agree_mono; [|exact X2]; lia]).
      assert (AGt : agree top a b2).
      { eapply agree_trans; [exact AG12|]. eapply agree_mono; [|exact AGb]. unfold top0; lia. }
      destruct (C4 b2) as (b3 & X3 & Y3).
      { unfold add_sem. rewrite <- !(value_agree top0 a2 b2) by assumption. rewrite Voa, Vob.
        rewrite <- (cval_agree top a b2), <- (value_agree top a b2) by assumption.
        rewrite Ha, CNT. reflexivity. }
      exists b3. split.
      * eapply agree_trans; [exact AGt|]. eapply agree_mono; [|exact X3]. lia.
      * rewrite !sat_app, Y3, andb_true_r. apply andb_true_iff. split.
        -- rewrite <- (sat_agree top1 b1 b3); [exact Y1| |exact A2].
           eapply agree_trans; [exact X2|eapply agree_mono; [|exact X3]; lia].
        -- rewrite <- (sat_agree top2 b2 b3); [exact Y2|exact X3|exact B2].
Qed.
