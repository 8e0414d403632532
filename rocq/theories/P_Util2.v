(** Correctness of the arithmetic encoders of util.py. *)
From Coq Require Import ZArith List Bool Lia Arith.
From Verif Require Import Spec_Cnf M_Util P_Cnf P_Util.
Import ListNotations.
Open Scope Z_scope.

Definition cval (a : assignment) (c : option lit) : Z :=
  match c with None => 0 | Some l => Z.b2z (evl a l) end.
Definition opt_ok (P : lit -> Prop) (c : option lit) : Prop :=
  match c with None => True | Some l => P l end.

Lemma opt_ok_impl (P Q : lit -> Prop) c : (forall l, P l -> Q l) -> opt_ok P c -> opt_ok Q c.
Proof. destruct c; cbn; auto. Qed.

Lemma cval_agree n a b c : agree n a b -> opt_ok (lit_ok n) c -> cval a c = cval b c.
Proof.
  intros H Hc. destruct c; cbn in *; [|reflexivity]. rewrite (evl_agree n a b); auto.
Qed.
Lemma cval_bound a c : 0 <= cval a c <= 1.
Proof. destruct c as [l|]; cbn; [|lia]. destruct (evl a l); cbn; lia. Qed.

(** * add_numbers *)
Lemma add_bit_sat a x y o ci co :
  x <> 0 -> y <> 0 -> o <> 0 -> co <> 0 -> opt_ok nonzero ci ->
  (sat a (add_bit x y o ci co) = true <->
   Z.b2z (evl a x) + Z.b2z (evl a y) + cval a ci = Z.b2z (evl a o) + 2 * Z.b2z (evl a co)).
Proof.
  intros Hx Hy Ho Hco Hci. destruct ci as [ci|]; cbn [add_bit cval opt_ok] in *; cnf_unfold.
  - destruct (evl a x), (evl a y), (evl a o), (evl a ci), (evl a co); cbn; split; (reflexivity || discriminate).
  - destruct (evl a x), (evl a y), (evl a o), (evl a co); cbn; split; (reflexivity || discriminate).
Qed.

Lemma add_bit_ok n x y o ci co : lit_ok n x -> lit_ok n y -> lit_ok n o -> lit_ok n co ->
  opt_ok (lit_ok n) ci -> cnf_ok n (add_bit x y o ci co).
Proof.
  intros. destruct ci; cbn [add_bit opt_ok] in *;
    repeat constructor; unfold lit_ok in *; try lia.
Qed.

Lemma add_loop_sound xs : forall ys os ci carries cs lc,
  length ys = length xs -> (length xs <= length os)%nat ->
  Forall nonzero xs -> Forall nonzero ys -> Forall nonzero os -> Forall nonzero carries -> opt_ok nonzero ci ->
  add_loop xs ys os ci carries = Some (cs, lc) ->
  opt_ok nonzero lc /\
  forall a, sat a cs = true ->
    value a xs + value a ys + cval a ci
    = value a (firstn (length xs) os) + 2 ^ len xs * cval a lc.
Proof.
  induction xs as [|x xs IH]; intros [|y ys] [|o os] ci carries cs lc L1 L2 Hx Hy Ho Hc Hci E;
    cbn in L1, L2; try discriminate; try lia.
  - injection E as <- <-. split; [assumption|]. intros a _. cbn [length firstn]. rewrite !value_nil.
    unfold len. cbn [length]. change (2 ^ Z.of_nat 0) with 1. lia.
  - injection E as <- <-. split; [assumption|]. intros a _. cbn [length firstn]. rewrite !value_nil.
    unfold len. cbn [length]. change (2 ^ Z.of_nat 0) with 1. lia.
  - cbn [add_loop] in E. destruct carries as [|c carries]; [discriminate|].
    destruct (add_loop xs ys os (Some c) carries) as [[rest lc']|] eqn:EL; [|discriminate].
    apply (f_equal (fun o => match o with Some p => p | None => ([], None) end)) in E.
    cbv beta iota in E. apply pair_equal_spec in E. destruct E as [<- <-].
    inversion Hx; inversion Hy; inversion Ho; inversion Hc; subst.
    destruct (IH ys os (Some c) carries rest lc') as [I1 I2]; try assumption; try lia.
    split; [assumption|]. intros a. rewrite sat_app, andb_true_iff. intros [S1 S2].
    apply add_bit_sat in S1; try assumption. specialize (I2 a S2). cbn [cval] in I2.
    cbn [length firstn]. rewrite !value_cons. unfold len in *. cbn [length].
    rewrite Nat2Z.inj_succ, Z.pow_succ_r by lia. lia.
Qed.

(** Fixed or fresh carries: any sequence of literals is sound; fresh ones are
    complete. *)
Lemma add_loop_complete xs : forall ys os ci top a,
  length ys = length xs -> (length xs <= length os)%nat -> 0 <= top ->
  Forall (lit_ok top) xs -> Forall (lit_ok top) ys -> Forall (lit_ok top) os -> opt_ok (lit_ok top) ci ->
  (value a xs + value a ys + cval a ci) mod 2 ^ len xs = value a (firstn (length xs) os) ->
  exists cs lc b,
    add_loop xs ys os ci (fresh top (length xs)) = Some (cs, lc) /\
    opt_ok (lit_ok (top + len xs)) lc /\ (lc = None -> xs = [] /\ ci = None) /\
    cnf_ok (top + len xs) cs /\ agree top a b /\ sat b cs = true.
Proof.
  induction xs as [|x xs IH]; intros [|y ys] os ci top a L1 L2 Ht Hx Hy Ho Hci HV;
    cbn in L1; try discriminate; try lia.
  - exists [], ci, a. cbn. repeat split; try constructor; auto.
    unfold len. cbn. rewrite Z.add_0_r. assumption.
  - destruct os as [|o os]; [cbn in L2; lia|]. cbn [length fresh firstn] in *.
    inversion Hx as [|? ? Hx1 Hx2]; inversion Hy as [|? ? Hy1 Hy2]; inversion Ho as [|? ? Ho1 Ho2]; subst.
    set (s := Z.b2z (evl a x) + Z.b2z (evl a y) + cval a ci).
    set (c := Z.leb 2 s).
    set (a1 := upd a (top + 1) c).
    assert (A1 : agree top a a1) by (apply upd_agree; lia).
    assert (Ec : evl a1 (top + 1) = c) by (rewrite evl_pos by lia; apply upd_same).
    assert (Hs : 0 <= s <= 3).
    { unfold s. pose proof (cval_bound a ci). destruct (evl a x), (evl a y); cbn [Z.b2z]; lia. }
    rewrite !value_cons in HV. rewrite len_cons in HV.
    unfold len in HV. rewrite Z.pow_add_r, Z.pow_1_r in HV by lia.
    assert (HM : Z.b2z (evl a x) + 2 * value a xs + (Z.b2z (evl a y) + 2 * value a ys) + cval a ci
                 = s + 2 * (value a xs + value a ys)) by (unfold s; lia).
    rewrite HM in HV. clear HM.
    rewrite (Z.mul_comm (2 ^ _) 2), Z.rem_mul_r in HV by lia.
    rewrite (Z.mul_comm 2 (value a xs + value a ys)), Z_mod_plus_full, Z_div_plus_full in HV by lia.
    assert (Hmod : Z.b2z (evl a o) = s mod 2 /\
              value a (firstn (length xs) os) = (s / 2 + (value a xs + value a ys)) mod 2 ^ Z.of_nat (length xs)).
    { pose proof (Z.mod_pos_bound s 2 ltac:(lia)).
      destruct (evl a o); cbn [Z.b2z] in *; lia. }
    destruct Hmod as [Ho' HV'].
    assert (Hc : Z.b2z c = s / 2).
    { unfold c. destruct (Z.leb_spec 2 s).
      - apply Z.div_unique with (r := s - 2); cbn [Z.b2z]; lia.
      - rewrite Z.div_small by lia. reflexivity. }
    destruct (IH ys os (Some (top + 1)) (top + 1) a1) as (cs & lc & b & E & H1 & H2 & H3 & H4 & H5);
      try lia; try (eapply Forall_ok_mono; [|eassumption]; lia).
    { cbn. unfold lit_ok. lia. }
    { cbn [cval]. rewrite Ec, Hc. unfold len.
      erewrite <- !(value_agree top a a1); try eassumption; [|apply Forall_firstn; assumption].
      rewrite HV'. f_equal. lia. }
    rewrite len_cons in *. replace (top + 1 + len xs) with (top + (len xs + 1)) in * by lia.
    exists (add_bit x y o ci (top + 1) ++ cs), lc, b.
    cbn [add_loop]. rewrite E.
    assert (OKb : cnf_ok (top + 1) (add_bit x y o ci (top + 1))).
    { apply add_bit_ok; try (eapply lit_ok_mono; [|eassumption]; lia).
      - unfold lit_ok. lia.
      - eapply opt_ok_impl; [|eassumption]. intros l. apply lit_ok_mono. lia. }
    split; [reflexivity|]. split; [assumption|]. split.
    { intros Hlc. destruct (H2 Hlc). discriminate. }
    split; [|split].
    + apply cnf_ok_app; [|assumption]. eapply cnf_ok_mono; [|exact OKb]. pose proof (len_nonneg xs). lia.
    + eapply agree_trans; [exact A1|]. eapply agree_mono; [|exact H4]. lia.
    + rewrite sat_app, H5, andb_true_r.
      rewrite <- (sat_agree (top + 1) a1 b) by assumption.
      apply add_bit_sat; try (apply (lit_ok_nonzero top); assumption); try lia.
      { eapply opt_ok_impl; [|eassumption]. apply lit_ok_nonzero. }
      rewrite Ec, <- !(evl_agree top a a1) by assumption.
      rewrite <- (cval_agree top a a1) by assumption.
      fold s. rewrite Hc, Ho'. pose proof (Z.div_mod s 2 ltac:(lia)). lia.
Qed.

Lemma last_firstn_value a os n : length os = S n ->
  value a os = value a (firstn n os) + 2 ^ Z.of_nat n * Z.b2z (evl a (last os 0)).
Proof.
  intros H. rewrite (value_split a n os) by lia. f_equal. f_equal.
  assert (HS : skipn n os = [last os 0]).
  { rewrite <- (firstn_skipn n os) at 2.
    assert (length (skipn n os) = 1%nat) by (rewrite skipn_length; lia).
    destruct (skipn n os) as [|z [|]]; cbn in *; try lia. rewrite last_last. reflexivity. }
  rewrite HS, value_cons, value_nil. lia.
Qed.

Lemma last_Forall {A} (P : A -> Prop) l d : l <> [] -> Forall P l -> P (last l d).
Proof.
  intros Hn H. destruct (exists_last Hn) as (l' & x & ->). rewrite last_last.
  apply Forall_app in H. destruct H as [_ H]. inversion H. assumption.
Qed.

(** What the adder asserts, for the three modes of use. *)
Definition add_sem (xs ys os : list lit) (ci : option lit) (ovf : bool) (a : assignment) : Prop :=
  if ovf then
    if Nat.eqb (length os) (length xs)
    then (value a xs + value a ys + cval a ci) mod 2 ^ len xs = value a os
    else value a xs + value a ys + cval a ci = value a os
  else value a xs + value a ys + cval a ci = value a os.

Lemma add_numbers_sound xs ys os carries ci ovf cs :
  Forall nonzero xs -> Forall nonzero ys -> Forall nonzero os -> Forall nonzero carries -> opt_ok nonzero ci ->
  add_numbers xs ys os carries ci ovf = Some cs ->
  forall a, sat a cs = true -> add_sem xs ys os ci ovf a.
Proof.
  intros Hx Hy Ho Hc Hci E a HS. unfold add_numbers in E.
  destruct (Nat.eqb (length xs) (length ys)) eqn:L1; [|discriminate]. apply Nat.eqb_eq in L1. cbn [negb] in E.
  destruct (_ || _) eqn:L2; [|discriminate]. cbn [negb] in E.
  apply orb_true_iff in L2. rewrite !Nat.eqb_eq in L2.
  destruct (add_loop xs ys os ci carries) as [[cs0 lc]|] eqn:EL; [|discriminate].
  destruct (add_loop_sound xs ys os ci carries cs0 lc) as [Hlc HV]; try assumption; try lia.
  unfold add_sem.
  destruct (Nat.ltb (length xs) (length os)) eqn:L3.
  - apply Nat.ltb_lt in L3. assert (L : length os = S (length xs)) by lia.
    destruct lc as [c|]; [|discriminate]. injection E as <-. rewrite sat_app, andb_true_iff in HS.
    destruct HS as [S1 S2]. specialize (HV a S1). cbn [cval opt_ok] in HV, Hlc.
    assert (HL : last os 0 <> 0).
    { apply (last_Forall nonzero); [destruct os; [discriminate|congruence]|assumption]. }
    rewrite literals_same_sat in S2 by assumption. apply eqb_prop in S2.
    assert (value a xs + value a ys + cval a ci = value a os).
    { rewrite (last_firstn_value a os (length xs) L), <- S2. exact HV. }
    destruct ovf; [|assumption]. destruct (Nat.eqb_spec (length os) (length xs)); [lia|assumption].
  - apply Nat.ltb_ge in L3. assert (L : length os = length xs) by lia.
    rewrite L, Nat.eqb_refl. rewrite firstn_all2 in HV by lia.
    destruct ovf; cbn [negb] in E.
    + injection E as <-. rewrite (HV a HS). rewrite (Z.mul_comm (2 ^ _)), Z_mod_plus_full.
      apply Z.mod_small. pose proof (value_bound a os) as B. unfold len in *. rewrite <- L. exact B.
    + destruct lc as [c|]; [|discriminate]. injection E as <-. rewrite sat_app, andb_true_iff in HS.
      destruct HS as [S1 S2]. specialize (HV a S1). cbn [cval opt_ok] in HV, Hlc.
      rewrite sat_cons, satc_cons, satc_nil, evl_neg in S2 by assumption.
      destruct (evl a c); [discriminate|]. cbn [Z.b2z] in HV. lia.
Qed.

Lemma add_numbers_complete xs ys os ci ovf top :
  length ys = length xs -> length os = length xs \/ length os = S (length xs) ->
  xs <> [] \/ ci <> None \/ (ovf = true /\ os = []) ->
  0 <= top ->
  Forall (lit_ok top) xs -> Forall (lit_ok top) ys -> Forall (lit_ok top) os -> opt_ok (lit_ok top) ci ->
  exists cs,
    add_numbers_st xs ys os ci ovf top = Some (cs, top + len xs) /\
    cnf_ok (top + len xs) cs /\
    forall a, add_sem xs ys os ci ovf a -> exists b, agree top a b /\ sat b cs = true.
Proof.
  intros L1 L2 Hne Ht Hx Hy Ho Hci.
  (* the generated clauses do not depend on the assignment: take any assignment
     to learn their shape *)
  assert (HG : exists cs lc, add_loop xs ys os ci (fresh top (length xs)) = Some (cs, lc) /\
            opt_ok (lit_ok (top + len xs)) lc /\ (lc = None -> xs = [] /\ ci = None) /\
            cnf_ok (top + len xs) cs /\
            forall a, (value a xs + value a ys + cval a ci) mod 2 ^ len xs = value a (firstn (length xs) os) ->
              exists b, agree top a b /\ sat b cs = true).
  { assert (L2' : (length xs <= length os)%nat) by lia.
    assert (H0 : exists cs lc, add_loop xs ys os ci (fresh top (length xs)) = Some (cs, lc) /\
            opt_ok (lit_ok (top + len xs)) lc /\ (lc = None -> xs = [] /\ ci = None) /\
            cnf_ok (top + len xs) cs).
    { clear Hne L2. revert ys os ci top L1 L2' Ht Hx Hy Ho Hci. induction xs as [|x xs IH];
        intros [|y ys] os ci top L1 L2 Ht Hx Hy Ho Hci; cbn in L1; try discriminate; try lia.
      - exists [], ci. cbn. repeat split; try constructor; auto.
        unfold len. cbn. rewrite Z.add_0_r. assumption.
      - destruct os as [|o os]; [cbn in L2; lia|]. cbn [length fresh] in *.
        inversion Hx; inversion Hy; inversion Ho; subst.
        destruct (IH ys os (Some (top + 1)) (top + 1)) as (cs & lc & E & J1 & J2 & J3);
          try lia; try (eapply Forall_ok_mono; [|eassumption]; lia).
        { cbn. unfold lit_ok. lia. }
        rewrite len_cons in *. replace (top + 1 + len xs) with (top + (len xs + 1)) in * by lia.
        exists (add_bit x y o ci (top + 1) ++ cs), lc. cbn [add_loop]. rewrite E.
        split; [reflexivity|]. split; [assumption|]. split; [intros Hlc; destruct (J2 Hlc); discriminate|].
        apply cnf_ok_app; [|assumption]. pose proof (len_nonneg xs).
        apply add_bit_ok; try (eapply lit_ok_mono; [|eassumption]; lia).
        + unfold lit_ok. lia.
        + eapply opt_ok_impl; [|eassumption]. intros l. apply lit_ok_mono. lia. }
    destruct H0 as (cs & lc & E & H1 & H2 & H3). exists cs, lc. repeat (split; [assumption|]).
    intros a HV. destruct (add_loop_complete xs ys os ci top a) as (cs' & lc' & b & E' & _ & _ & _ & H4 & H5); auto.
    rewrite E in E'. injection E' as <- <-. exists b. auto. }
  destruct HG as (cs & lc & E & Hlc & Hlc0 & Hok & Hcomp).
  assert (Hlc1 : lc <> None \/ (ovf = true /\ os = [] /\ xs = [])).
  { destruct lc; [left; discriminate|]. destruct (Hlc0 eq_refl) as [-> ->].
    destruct Hne as [?|[?|[? ?]]]; try congruence. right. auto. }
  unfold add_numbers_st, add_numbers. rewrite L1, Nat.eqb_refl. cbn [negb].
  assert (Lb : (Nat.eqb (length os) (length xs) || Nat.eqb (length os) (S (length xs))) = true).
  { apply orb_true_iff. rewrite !Nat.eqb_eq. assumption. }
  rewrite Lb. cbn [negb]. rewrite E. unfold add_sem.
  pose proof (add_loop_sound xs ys os ci (fresh top (length xs)) cs lc) as SND.
  assert (HfrNZ : Forall nonzero (fresh top (length xs))).
  { apply (Forall_ok_nonzero (top + len xs)). apply fresh_ok; unfold len; lia. }
  destruct SND as [_ SND]; try assumption; try lia; try (eapply Forall_ok_nonzero; eassumption).
  { eapply opt_ok_impl; [|eassumption]. apply lit_ok_nonzero. }
  assert (NZc : opt_ok nonzero lc) by (eapply opt_ok_impl; [|eassumption]; apply lit_ok_nonzero).
  destruct (Nat.ltb (length xs) (length os)) eqn:L3.
  - apply Nat.ltb_lt in L3. assert (L : length os = S (length xs)) by lia.
    destruct lc as [c|]; [|destruct Hlc1 as [?|(? & -> & ->)]; [congruence|cbn in L; lia]].
    assert (HLl : lit_ok top (last os 0)).
    { apply last_Forall; [destruct os; [discriminate|congruence]|assumption]. }
    eexists. split; [reflexivity|]. split.
    + apply cnf_ok_app; [assumption|]. apply literals_same_ok; [exact Hlc|].
      eapply lit_ok_mono; [|exact HLl]. pose proof (len_nonneg xs). lia.
    + intros a Ha.
      assert (Ha' : value a xs + value a ys + cval a ci = value a os).
      { destruct ovf; [|assumption]. destruct (Nat.eqb_spec (length os) (length xs)); [lia|assumption]. }
      clear Ha.
      rewrite (last_firstn_value a os (length xs) L) in Ha'.
      destruct (Hcomp a) as (b & Hb & Sb).
      { rewrite Ha'. unfold len. rewrite (Z.mul_comm (2 ^ _)), Z_mod_plus_full. apply Z.mod_small.
        pose proof (value_bound a (firstn (length xs) os)) as B. unfold len in B.
        rewrite firstn_length_le in B by lia. exact B. }
      exists b. split; [exact Hb|]. rewrite sat_app, Sb. cbn [andb].
      cbn [opt_ok] in NZc. rewrite literals_same_sat by (exact NZc || exact (proj1 HLl)).
      specialize (SND b Sb).
      rewrite <- !(value_agree top a b) in SND by (try apply Forall_firstn; assumption).
      rewrite <- (cval_agree top a b) in SND by assumption.
      rewrite Ha' in SND. cbn [cval] in SND. unfold len in SND.
      rewrite <- (evl_agree top a b (last os 0)) by assumption.
      assert (P : 0 < 2 ^ Z.of_nat (length xs)) by (apply Z.pow_pos_nonneg; lia).
      destruct (evl a (last os 0)), (evl b c); cbn [Z.b2z] in SND; try reflexivity; nia.
  - apply Nat.ltb_ge in L3. assert (L : length os = length xs) by lia.
    rewrite L, Nat.eqb_refl. rewrite firstn_all2 in Hcomp, SND by lia.
    destruct ovf; cbn [negb].
    + eexists. split; [reflexivity|]. split; [assumption|]. exact Hcomp.
    + destruct lc as [c|]; [|destruct Hlc1 as [?|(? & -> & ->)]; [congruence|discriminate]].
      eexists. split; [reflexivity|]. split.
      * apply cnf_ok_app; [assumption|]. repeat constructor; [|].
        -- cbn in NZc. unfold nonzero in NZc. lia.
        -- destruct Hlc. lia.
      * intros a Ha. destruct (Hcomp a) as (b & Hb & Sb).
        { rewrite Ha. apply Z.mod_small. pose proof (value_bound a os) as B. unfold len in *. rewrite <- L. exact B. }
        exists b. split; [assumption|]. rewrite sat_app, Sb. cbn [andb].
        cbn [opt_ok] in NZc. rewrite sat_cons, satc_cons, satc_nil, evl_neg by exact NZc.
        specialize (SND b Sb).
        rewrite <- !(value_agree top a b) in SND by assumption.
        rewrite <- (cval_agree top a b) in SND by assumption.
        rewrite Ha in SND. cbn [cval] in SND.
        assert (P : 0 < 2 ^ len xs) by (apply Z.pow_pos_nonneg; [lia|apply len_nonneg]).
        destruct (evl b c); cbn [Z.b2z] in SND; [nia|reflexivity].
Qed.
