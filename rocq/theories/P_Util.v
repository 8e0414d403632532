(** Correctness of the encoders of util.py. *)
From Coq Require Import ZArith List Bool Lia Arith.
From Verif Require Import Spec_Cnf M_Util P_Cnf.
Import ListNotations.
Open Scope Z_scope.

Ltac cnf_unfold :=
  rewrite ?sat_app, ?sat_cons, ?sat_nil, ?satc_cons, ?satc_nil;
  rewrite ?evl_neg by assumption.

Ltac nz :=
  match goal with
  | H : lit_ok _ ?l |- ?l <> 0 => exact (proj1 H)
  | H : nonzero ?l |- ?l <> 0 => exact H
  | _ => assumption
  end.

(** * Boolean helpers *)
Lemma literals_same_sat a x y : x <> 0 -> y <> 0 ->
  sat a (literals_same x y) = eqb (evl a x) (evl a y).
Proof.
  intros. unfold literals_same. cnf_unfold. destruct (evl a x), (evl a y); reflexivity.
Qed.
Lemma literals_different_sat a x y : x <> 0 -> y <> 0 ->
  sat a (literals_different x y) = negb (eqb (evl a x) (evl a y)).
Proof.
  intros. unfold literals_different. cnf_unfold. destruct (evl a x), (evl a y); reflexivity.
Qed.
Lemma set_all_false_sat a ls : Forall nonzero ls ->
  sat a (set_all_false ls) = forallb (fun l => negb (evl a l)) ls.
Proof.
  induction 1 as [|l ls H _ IH]; [reflexivity|].
  unfold set_all_false in *. cbn [map forallb]. rewrite sat_cons, IH, satc_cons, satc_nil, evl_neg by exact H.
  rewrite orb_false_r. reflexivity.
Qed.
Lemma set_all_true_sat a ls : sat a (set_all_true ls) = forallb (evl a) ls.
Proof.
  induction ls as [|l ls IH]; [reflexivity|].
  unfold set_all_true in *. cbn [map forallb]. rewrite sat_cons, IH, satc_cons, satc_nil.
  rewrite orb_false_r. reflexivity.
Qed.
Lemma literals_same_ok n x y : lit_ok n x -> lit_ok n y -> cnf_ok n (literals_same x y).
Proof. intros. repeat constructor; try assumption; unfold lit_ok in *; lia. Qed.
Lemma literals_different_ok n x y : lit_ok n x -> lit_ok n y -> cnf_ok n (literals_different x y).
Proof. intros. repeat constructor; try assumption; unfold lit_ok in *; lia. Qed.

Lemma all_false_num bs : forallb negb bs = true <-> num bs = 0.
Proof.
  induction bs as [|b bs IH]; cbn [forallb num]; [tauto|].
  pose proof (num_nonneg bs). rewrite andb_true_iff, IH. destruct b; cbn [negb Z.b2z]; split; intros; lia.
Qed.
Lemma forallb_map' {A B} (f : A -> B) (g : B -> bool) l :
  forallb g (map f l) = forallb (fun x => g (f x)) l.
Proof. induction l; cbn; congruence. Qed.
Lemma set_all_false_value a ls : Forall nonzero ls ->
  (sat a (set_all_false ls) = true <-> value a ls = 0).
Proof.
  intros H. rewrite set_all_false_sat by assumption. unfold value. rewrite <- all_false_num.
  unfold values. rewrite forallb_map'. reflexivity.
Qed.

(** * set_number *)
Lemma set_bits_sat a ls bs : length bs = length ls -> Forall nonzero ls ->
  (sat a (map (fun '(l, b) => [set_literal l b]) (combine ls bs)) = true <-> values a ls = bs).
Proof.
  revert bs. induction ls as [|l ls IH]; intros [|b bs] HL H; cbn in HL; try discriminate.
  - split; reflexivity.
  - inversion H as [|? ? Hl Hls]; subst. cbn [combine map values].
    rewrite sat_cons, satc_cons, satc_nil, orb_false_r, andb_true_iff, evl_set_literal, eqb_true_iff by exact Hl.
    rewrite IH by congruence || assumption. unfold values. cbn [map].
    split; [intros [-> ->]; reflexivity|]. intros E. injection E. auto.
Qed.

Lemma set_number_spec v ls cs : Forall nonzero ls -> set_number v ls = Some cs ->
  forall a, sat a cs = true <-> value a ls = v mod 2 ^ len ls.
Proof.
  intros H E a. unfold set_number in E. destruct (v <? _) eqn:EV; [|discriminate].
  injection E as <-. rewrite set_bits_sat by (assumption || apply get_bits_length).
  unfold value, len. rewrite <- num_get_bits. split.
  - intros ->. reflexivity.
  - apply num_inj. rewrite values_length, get_bits_length. reflexivity.
Qed.

Lemma set_number_some v ls : (exists cs, set_number v ls = Some cs) <-> v < 2 ^ len ls.
Proof.
  unfold set_number. rewrite shiftl1 by apply len_nonneg.
  destruct (v <? _) eqn:E; [apply Z.ltb_lt in E|apply Z.ltb_ge in E]; split; intros H.
  - assumption.
  - eexists. reflexivity.
  - destruct H. discriminate.
  - lia.
Qed.

Lemma set_number_ok n v ls cs : Forall (lit_ok n) ls -> set_number v ls = Some cs -> cnf_ok n cs.
Proof.
  intros H E. unfold set_number in E. destruct (v <? _); [|discriminate]. injection E as <-.
  apply Forall_map. apply Forall_forall. intros [l b] Hin. constructor; [|constructor].
  apply set_literal_ok. apply in_combine_l in Hin. rewrite Forall_forall in H. auto.
Qed.

Lemma set_not_number_sat_aux a ls bs : length bs = length ls -> Forall nonzero ls ->
  satc a (map (fun c => - nth 0 c 0) (map (fun '(l, b) => [set_literal l b]) (combine ls bs)))
  = negb (sat a (map (fun '(l, b) => [set_literal l b]) (combine ls bs))).
Proof.
  revert bs. induction ls as [|l ls IH]; intros [|b bs] HL H; cbn in HL; try discriminate; [reflexivity|].
  inversion H as [|? ? Hl Hls]; subst. cbn [combine map nth].
  rewrite satc_cons, sat_cons, satc_cons, satc_nil, IH by congruence || assumption.
  assert (Hs : set_literal l b <> 0) by (unfold nonzero in Hl; destruct b; cbn; lia).
  rewrite evl_neg by exact Hs. destruct (evl a (set_literal l b)); cbn; reflexivity || apply orb_false_r.
Qed.

Lemma set_not_number_spec v ls c : Forall nonzero ls -> set_not_number v ls = Some c ->
  forall a, satc a c = true <-> value a ls <> v mod 2 ^ len ls.
Proof.
  intros H E a. unfold set_not_number in E. destruct (set_number v ls) as [cs|] eqn:ES; [|discriminate].
  injection E as <-. pose proof (set_number_spec v ls cs H ES a) as HS.
  unfold set_number in ES. destruct (v <? _); [|discriminate]. injection ES as <-.
  rewrite set_not_number_sat_aux by (assumption || apply get_bits_length).
  rewrite negb_true_iff, <- HS. rewrite <- not_true_iff_false. reflexivity.
Qed.

Lemma set_not_number_some v ls : (exists c, set_not_number v ls = Some c) <-> v < 2 ^ len ls.
Proof.
  rewrite <- set_number_some. unfold set_not_number.
  destruct (set_number v ls); split; intros [x Hx]; try discriminate; eexists; reflexivity.
Qed.

(** * set_numbers *)
Lemma set_numbers_loop_spec a las lbs bas bbs cs ds :
  length lbs = length las -> length bas = length las -> length bbs = length las ->
  Forall nonzero las -> Forall nonzero lbs ->
  set_numbers_loop las lbs bas bbs = (cs, ds) ->
  (* every recorded difference is a pair of literals with distinct requested bits *)
  (forall la lb ba, In (la, lb, ba) ds -> la <> 0 /\ lb <> 0) /\
  (sat a cs = true ->
   (forall k : bool,
      (forall la lb ba, In (la, lb, ba) ds -> evl a la = xorb k ba) ->
      if k then values a las = bbs /\ values a lbs = bas
      else values a las = bas /\ values a lbs = bbs)) /\
  (values a las = bas /\ values a lbs = bbs ->
     sat a cs = true /\ forall la lb ba, In (la, lb, ba) ds -> evl a la = ba) /\
  (values a las = bbs /\ values a lbs = bas ->
     sat a cs = true /\ forall la lb ba, In (la, lb, ba) ds -> evl a la = negb ba).
Proof.
  revert lbs bas bbs cs ds.
  induction las as [|la las IH]; intros [|lb lbs] [|ba bas] [|bb bbs] cs ds L1 L2 L3 Ha Hb E;
    cbn in L1, L2, L3; try discriminate.
  - injection E as <- <-. cbn. repeat split; intros; try contradiction; try tauto.
    destruct k; auto.
  - inversion Ha as [|? ? Hla Hlas]; inversion Hb as [|? ? Hlb Hlbs]; subst.
    cbn [set_numbers_loop] in E.
    destruct (set_numbers_loop las lbs bas bbs) as [cs' ds'] eqn:EL.
    specialize (IH lbs bas bbs cs' ds').
    destruct IH as (I1 & I2 & I3 & I4); try congruence || assumption.
    destruct (eqb ba bb) eqn:EB; apply pair_equal_spec in E; destruct E as [<- <-].
    + apply eqb_prop in EB. subst bb.
      split; [exact I1|]. split; [|split].
      * rewrite !sat_cons, !satc_cons, !satc_nil, !orb_false_r, !andb_true_iff.
        rewrite !evl_set_literal by assumption. rewrite !eqb_true_iff. intros (Ea & Eb & Hs) k Hk.
        specialize (I2 Hs k Hk). unfold values in *. cbn [map]. rewrite Ea, Eb.
        destruct k; destruct I2 as [-> ->]; split; reflexivity.
      * unfold values in *. cbn [map]. intros [Ea Eb]. injection Ea as Ea1 Ea2. injection Eb as Eb1 Eb2.
        destruct I3 as [I3 I3']; [auto|].
        rewrite !sat_cons, !satc_cons, !satc_nil, !evl_set_literal, Ea1, Eb1, eqb_reflx, I3 by assumption.
        auto.
      * unfold values in *. cbn [map]. intros [Ea Eb]. injection Ea as Ea1 Ea2. injection Eb as Eb1 Eb2.
        destruct I4 as [I4 I4']; [auto|].
        rewrite !sat_cons, !satc_cons, !satc_nil, !evl_set_literal, Ea1, Eb1, eqb_reflx, I4 by assumption.
        auto.
    + apply eqb_false_iff in EB.
      assert (EB' : bb = negb ba) by (destruct ba, bb; cbn in *; congruence). subst bb.
      split; [|split; [|split]].
      * intros x y z [Hx|Hx]; [injection Hx as <- <- <-; auto|eauto].
      * rewrite sat_app, literals_different_sat, andb_true_iff by assumption.
        intros [Hd Hs] k Hk. specialize (I2 Hs k).
        assert (I2' := I2 (fun x y z Hin => Hk x y z (or_intror Hin))).
        pose proof (Hk la lb ba (or_introl eq_refl)) as Hla'.
        unfold values in *. cbn [map]. rewrite Hla' in Hd |- *.
        assert (Hlb' : evl a lb = negb (xorb k ba)).
        { destruct (evl a lb), (xorb k ba); cbn in Hd |- *; congruence. }
        rewrite Hlb'. destruct k; destruct I2' as [-> ->]; split; destruct ba; reflexivity.
      * unfold values in *. cbn [map]. intros [Ea Eb]. injection Ea as Ea1 Ea2. injection Eb as Eb1 Eb2.
        destruct I3 as [I3 I3']; [auto|].
        rewrite sat_app, literals_different_sat, Ea1, Eb1, I3 by assumption. split.
        -- destruct ba; reflexivity.
        -- intros x y z [Hx|Hx]; [injection Hx as <- <- <-; auto|eauto].
      * unfold values in *. cbn [map]. intros [Ea Eb]. injection Ea as Ea1 Ea2. injection Eb as Eb1 Eb2.
        destruct I4 as [I4 I4']; [auto|].
        rewrite sat_app, literals_different_sat, Ea1, Eb1, I4 by assumption. split.
        -- destruct ba; reflexivity.
        -- intros x y z [Hx|Hx]; [injection Hx as <- <- <-; auto|eauto].
Qed.

Lemma set_numbers_spec va vb las lbs cs :
  0 <= va -> 0 <= vb -> Forall nonzero las -> Forall nonzero lbs ->
  set_numbers va vb las lbs = Some cs ->
  forall a, sat a cs = true <->
    (value a las = va /\ value a lbs = vb) \/ (value a las = vb /\ value a lbs = va).
Proof.
  intros Hva Hvb Ha Hb E a. unfold set_numbers in E.
  destruct (Nat.eqb _ _) eqn:EL; [|discriminate]. apply Nat.eqb_eq in EL. cbn [negb] in E.
  destruct (va <? _) eqn:EA; [|discriminate]. cbn [negb] in E.
  destruct (vb <? _) eqn:EB; [|discriminate]. cbn [negb] in E.
  apply Z.ltb_lt in EA, EB. rewrite shiftl1 in EA, EB by lia.
  set (n := length las) in *.
  assert (Va : num (get_bits va n) = va) by (rewrite num_get_bits, Z.mod_small; lia).
  assert (Vb : num (get_bits vb n) = vb) by (rewrite num_get_bits, Z.mod_small; lia).
  destruct (set_numbers_loop las lbs (get_bits va n) (get_bits vb n)) as [cs0 ds] eqn:ELp.
  destruct (set_numbers_loop_spec a las lbs (get_bits va n) (get_bits vb n) cs0 ds) as (I1 & I2 & I3 & I4);
    try (rewrite get_bits_length; reflexivity); try assumption; try (symmetry; assumption).
  assert (Hval : forall ls w, length ls = n -> 0 <= w < 2 ^ Z.of_nat n ->
            (values a ls = get_bits w n <-> value a ls = w)).
  { intros ls w Hl Hw. unfold value. split.
    - intros ->. rewrite num_get_bits, Z.mod_small; lia.
    - intros Hn. apply num_inj; [rewrite values_length, get_bits_length; assumption|].
      rewrite num_get_bits, Z.mod_small; lia. }
  assert (La := Hval las va eq_refl ltac:(lia)). assert (La' := Hval las vb eq_refl ltac:(lia)).
  assert (Lb := Hval lbs vb ltac:(congruence) ltac:(lia)). assert (Lb' := Hval lbs va ltac:(congruence) ltac:(lia)).
  rewrite La, Lb in I3. rewrite La', Lb' in I4.
  destruct ds as [|[[la0 lb0] ba0] ds'].
  - injection E as <-. split.
    + intros Hs. left. rewrite <- La, <- Lb. apply (I2 Hs false). intros ? ? ? [].
    + intros [H|H]; [apply I3|apply I4]; assumption.
  - injection E as <-. rewrite sat_app, andb_true_iff, sat_flat_map.
    destruct (I1 la0 lb0 ba0 (or_introl eq_refl)) as [N0 _].
    split.
    + intros [Hs Hd]. specialize (I2 Hs (xorb (evl a la0) ba0)).
      assert (HH : forall la lb ba, In (la, lb, ba) ((la0, lb0, ba0) :: ds') ->
                   evl a la = xorb (xorb (evl a la0) ba0) ba).
      { intros la lb ba [Hin|Hin].
        - injection Hin as <- <- <-. destruct (evl a la0), ba0; reflexivity.
        - destruct (I1 la lb ba (or_intror Hin)) as [N1 _].
          specialize (Hd _ Hin). cbv beta iota in Hd. destruct (eqb ba0 ba) eqn:EQ.
          + rewrite literals_same_sat in Hd by assumption.
            destruct (evl a la0), (evl a la), ba0, ba; cbn in *; congruence.
          + rewrite literals_different_sat in Hd by assumption.
            destruct (evl a la0), (evl a la), ba0, ba; cbn in *; congruence. }
      specialize (I2 HH). destruct (xorb (evl a la0) ba0); [right; rewrite <- La', <- Lb'|left; rewrite <- La, <- Lb]; exact I2.
    + intros H. assert (HH : sat a cs0 = true /\ exists k, forall la lb ba, In (la, lb, ba) ((la0, lb0, ba0) :: ds') ->
                   evl a la = xorb k ba).
      { destruct H as [H|H]; [apply I3 in H|apply I4 in H]; destruct H as [Hs H]; split; try assumption.
        - exists false. intros. rewrite (H _ _ _ H0). destruct ba; reflexivity.
        - exists true. intros. rewrite (H _ _ _ H0). destruct ba; reflexivity. }
      destruct HH as [Hs [k Hk]]. split; [assumption|].
      intros [[la lb] ba] Hin. destruct (I1 la lb ba (or_intror Hin)) as [N1 _].
      rewrite (Hk la0 lb0 ba0 (or_introl eq_refl)) || idtac.
      pose proof (Hk la0 lb0 ba0 (or_introl eq_refl)) as K0.
      pose proof (Hk la lb ba (or_intror Hin)) as K1.
      destruct (eqb ba0 ba) eqn:EQ.
      * rewrite literals_same_sat, K0, K1 by assumption. destruct k, ba0, ba; cbn in *; congruence.
      * rewrite literals_different_sat, K0, K1 by assumption. destruct k, ba0, ba; cbn in *; congruence.
Qed.

Lemma set_numbers_some va vb las lbs :
  (exists cs, set_numbers va vb las lbs = Some cs) <->
  length las = length lbs /\ va < 2 ^ len las /\ vb < 2 ^ len las.
Proof.
  unfold set_numbers, len. rewrite shiftl1 by lia.
  destruct (Nat.eqb _ _) eqn:EL; cbn [negb].
  - apply Nat.eqb_eq in EL.
    destruct (va <? _) eqn:EA; cbn [negb]; [apply Z.ltb_lt in EA|apply Z.ltb_ge in EA].
    + destruct (vb <? _) eqn:EB; cbn [negb]; [apply Z.ltb_lt in EB|apply Z.ltb_ge in EB].
      * split; [tauto|intros _].
        destruct (set_numbers_loop _ _ _ _) as [cs [|[[? ?] ?] ds]]; eexists; reflexivity.
      * split; [intros [? ?]; discriminate|lia].
    + split; [intros [? ?]; discriminate|lia].
  - apply Nat.eqb_neq in EL. split; [intros [? ?]; discriminate|tauto].
Qed.

(** * set_numbers_equal *)
Lemma same_all_sat a xs ys : length xs = length ys -> Forall nonzero xs -> Forall nonzero ys ->
  (sat a (flat_map (fun '(x, y) => literals_same x y) (combine xs ys)) = true <-> values a xs = values a ys).
Proof.
  revert ys. induction xs as [|x xs IH]; intros [|y ys] HL Hx Hy; cbn in HL; try discriminate; [split; reflexivity|].
  inversion Hx; inversion Hy; subst. cbn [combine flat_map]. unfold values in *. cbn [map].
  rewrite sat_app, literals_same_sat, andb_true_iff, eqb_true_iff, IH by (assumption || congruence).
  split; [intros [-> ->]; reflexivity|]. intros E. injection E. auto.
Qed.

Lemma values_eq_value a xs ys : length xs = length ys -> (values a xs = values a ys <-> value a xs = value a ys).
Proof.
  intros H. unfold value. split; [congruence|]. apply num_inj. rewrite !values_length. assumption.
Qed.

Lemma combine_firstn_eq {A B} (xs : list A) (ys : list B) :
  combine xs ys = combine (firstn (length ys) xs) (firstn (length xs) ys).
Proof.
  revert ys. induction xs as [|x xs IH]; intros [|y ys]; try reflexivity.
  cbn. f_equal. apply IH.
Qed.

Lemma Forall_firstn {A} (P : A -> Prop) n l : Forall P l -> Forall P (firstn n l).
Proof. intros H. rewrite <- (firstn_skipn n l) in H. apply Forall_app in H. tauto. Qed.
Lemma Forall_skipn {A} (P : A -> Prop) n l : Forall P l -> Forall P (skipn n l).
Proof. intros H. rewrite <- (firstn_skipn n l) in H. apply Forall_app in H. tauto. Qed.

Lemma value_split a n ls : (n <= length ls)%nat ->
  value a ls = value a (firstn n ls) + 2 ^ Z.of_nat n * value a (skipn n ls).
Proof.
  intros H. rewrite <- (firstn_skipn n ls) at 1. rewrite value_app. unfold len.
  rewrite firstn_length_le by assumption. reflexivity.
Qed.

Lemma set_numbers_equal_spec xs ys adl cs : Forall nonzero xs -> Forall nonzero ys ->
  set_numbers_equal xs ys adl = Some cs ->
  forall a, sat a cs = true <-> value a xs = value a ys.
Proof.
  intros Hx Hy E a. unfold set_numbers_equal in E. destruct adl.
  - injection E as <-.
    rewrite !sat_app, !andb_true_iff, !set_all_false_value by (apply Forall_skipn; assumption).
    rewrite combine_firstn_eq.
    rewrite same_all_sat, values_eq_value by (try apply Forall_firstn; try assumption; rewrite ?firstn_length; lia).
    set (m := Nat.min (length xs) (length ys)).
    destruct (Nat.le_ge_cases (length xs) (length ys)) as [L|L].
    + rewrite (skipn_all2 xs) by assumption.
      rewrite (firstn_all2 xs) by assumption.
      rewrite (value_split a (length xs) ys) by assumption.
      pose proof (value_nonneg a (skipn (length xs) ys)).
      pose proof (value_bound a xs) as B1. unfold len in B1.
      pose proof (value_bound a (firstn (length xs) ys)) as B2. unfold len in B2.
      rewrite firstn_length_le in B2 by assumption.
      rewrite value_nil. split; [intros (_ & -> & ->); lia|]. intros HE.
      assert (value a (skipn (length xs) ys) = 0) by nia. split; [reflexivity|]. split; [assumption|].
      rewrite H0 in HE. lia.
    + rewrite (skipn_all2 ys) by assumption.
      rewrite (firstn_all2 ys) by assumption.
      rewrite (value_split a (length ys) xs) by assumption.
      pose proof (value_nonneg a (skipn (length ys) xs)).
      pose proof (value_bound a ys) as B1. unfold len in B1.
      pose proof (value_bound a (firstn (length ys) xs)) as B2. unfold len in B2.
      rewrite firstn_length_le in B2 by assumption.
      rewrite value_nil. split; [intros (-> & _ & ->); lia|]. intros HE.
      assert (value a (skipn (length ys) xs) = 0) by nia. split; [assumption|]. split; [reflexivity|].
      rewrite H0 in HE. lia.
  - destruct (Nat.eqb _ _) eqn:EL; [|discriminate]. apply Nat.eqb_eq in EL. injection E as <-.
    rewrite same_all_sat, values_eq_value by assumption. reflexivity.
Qed.

Lemma set_numbers_equal_some xs ys adl :
  (exists cs, set_numbers_equal xs ys adl = Some cs) <-> adl = true \/ length xs = length ys.
Proof.
  unfold set_numbers_equal. destruct adl.
  - split; [auto|]. intros _. eexists. reflexivity.
  - destruct (Nat.eqb _ _) eqn:EL; [apply Nat.eqb_eq in EL|apply Nat.eqb_neq in EL].
    + split; [auto|]. intros _. eexists. reflexivity.
    + split; [intros [? ?]; discriminate|]. intros [?|?]; [discriminate|contradiction].
Qed.

Lemma same_all_ok n xs ys : Forall (lit_ok n) xs -> Forall (lit_ok n) ys ->
  cnf_ok n (flat_map (fun '(x, y) => literals_same x y) (combine xs ys)).
Proof.
  revert ys. induction xs as [|x xs IH]; intros [|y ys] Hx Hy; try (constructor; fail).
  inversion Hx; inversion Hy; subst. cbn [combine flat_map].
  apply cnf_ok_app; [apply literals_same_ok|apply IH]; assumption.
Qed.

(** * set_maximum *)
Lemma masked_clause_sat a v tail : Forall nonzero tail ->
  satc a (map (fun '(_, x) => - x) (filter (fun '(b, _) => b) (combine (get_bits v (length tail)) tail)))
  = negb (forallb (fun '(b, x) => implb b (evl a x)) (combine (get_bits v (length tail)) tail)).
Proof.
  revert v. induction tail as [|x tail IH]; intros v H; [reflexivity|].
  inversion H as [|? ? Hx Ht]; subst. cbn [length]. rewrite get_bits_cons. cbn [combine filter].
  destruct (Z.odd v); cbn [map forallb implb].
  - rewrite satc_cons, IH, evl_neg by assumption. destruct (evl a x); reflexivity.
  - rewrite IH by assumption. reflexivity.
Qed.

(** The masked bits are all set: then the number is at least the mask. *)
Lemma superset_ge a v tail : 0 <= v < 2 ^ len tail ->
  forallb (fun '(b, x) => implb b (evl a x)) (combine (get_bits v (length tail)) tail) = true ->
  v <= value a tail.
Proof.
  revert v. induction tail as [|x tail IH]; intros v Hv H.
  - unfold len in Hv. cbn in Hv. unfold value. cbn. lia.
  - cbn [length] in H. rewrite get_bits_cons in H. cbn [combine forallb] in H.
    apply andb_true_iff in H. destruct H as [H1 H2]. rewrite shiftr1 in H2.
    unfold len in Hv. cbn [length] in Hv. rewrite Nat2Z.inj_succ, Z.pow_succ_r in Hv by lia.
    specialize (IH (v / 2)).
    assert (0 <= v / 2 < 2 ^ len tail).
    { split; [apply Z.div_pos; lia|apply Z.div_lt_upper_bound; unfold len; lia]. }
    specialize (IH H H2). rewrite value_cons.
    pose proof (Z.div_mod v 2 ltac:(lia)) as D. rewrite <- odd_b2z in D.
    destruct (Z.odd v), (evl a x); cbn [implb] in H1; cbn [Z.b2z] in *; try discriminate; lia.
Qed.
Lemma superset_refl a tail :
  forallb (fun '(b, x) => implb b (evl a x)) (combine (get_bits (value a tail) (length tail)) tail) = true.
Proof.
  assert (E : get_bits (value a tail) (length tail) = values a tail).
  { apply num_inj; [rewrite get_bits_length, values_length; reflexivity|].
    rewrite num_get_bits, Z.mod_small; [reflexivity|]. pose proof (value_bound a tail). unfold len in *. assumption. }
  rewrite E. clear E. induction tail as [|x tail IH]; [reflexivity|].
  unfold values in *. cbn [map combine forallb]. rewrite IH. destruct (evl a x); reflexivity.
Qed.

Lemma set_maximum_spec v ls cs : Forall nonzero ls -> set_maximum v ls = Some cs ->
  0 <= v < 2 ^ len ls /\ forall a, sat a cs = true <-> value a ls <= v.
Proof.
  revert v cs. induction ls as [|l tail IH]; intros v cs H E; cbn [set_maximum] in E.
  - destruct (v =? 0) eqn:EV; [|discriminate]. apply Z.eqb_eq in EV. injection E as <-. subst.
    split; [cbn; lia|]. intros a. unfold value. cbn. split; [lia|reflexivity].
  - inversion H as [|? ? Hl Ht]; subst.
    destruct (set_maximum (Z.shiftr v 1) tail) as [cs0|] eqn:EM; [|discriminate].
    destruct (IH _ _ Ht EM) as [HB HS]. rewrite shiftr1 in HB, HS, E.
    assert (BV : 0 <= v < 2 ^ len (l :: tail)).
    { unfold len in *. cbn [length]. rewrite Nat2Z.inj_succ, Z.pow_succ_r by lia.
      pose proof (Z.div_mod v 2 ltac:(lia)). pose proof (Z.mod_pos_bound v 2 ltac:(lia)). lia. }
    split; [exact BV|]. intros a.
    replace (Z.land v 1) with (v mod 2) in E
      by (change 1 with (Z.ones 1); rewrite Z.land_ones by lia; reflexivity).
    pose proof (Z.div_mod v 2 ltac:(lia)) as D. pose proof (Z.mod_pos_bound v 2 ltac:(lia)) as M.
    destruct (v mod 2 =? 0) eqn:EO; [apply Z.eqb_eq in EO|apply Z.eqb_neq in EO]; injection E as <-.
    + rewrite sat_app, sat_cons, sat_nil, satc_cons, masked_clause_sat, evl_neg by assumption.
      rewrite andb_true_r, andb_true_iff, HS, value_cons.
      destruct (evl a l) eqn:EL; cbn [negb orb Z.b2z].
      * rewrite negb_true_iff. split.
        -- intros [H1 H2]. assert (value a tail <> v / 2).
           { intros EQ. rewrite <- EQ in H2. rewrite superset_refl in H2. discriminate. }
           lia.
        -- intros HL. split; [lia|]. apply not_true_iff_false. intros HT.
           apply superset_ge in HT; [|assumption]. lia.
      * split; [lia|]. intros. split; [lia|reflexivity].
    + rewrite HS, value_cons. destruct (evl a l); cbn [Z.b2z]; lia.
Qed.

Lemma set_maximum_some v ls : (exists cs, set_maximum v ls = Some cs) <-> 0 <= v < 2 ^ len ls.
Proof.
  revert v. induction ls as [|l tail IH]; intros v; cbn [set_maximum].
  - unfold len. cbn. destruct (v =? 0) eqn:EV; [apply Z.eqb_eq in EV|apply Z.eqb_neq in EV]; split; intros H.
    + lia.
    + eexists. reflexivity.
    + destruct H. discriminate.
    + lia.
  - specialize (IH (Z.shiftr v 1)). rewrite shiftr1 in *.
    assert (HB : 0 <= v < 2 ^ len (l :: tail) <-> 0 <= v / 2 < 2 ^ len tail).
    { unfold len. cbn [length]. rewrite Nat2Z.inj_succ, Z.pow_succ_r by lia.
      pose proof (Z.div_mod v 2 ltac:(lia)). pose proof (Z.mod_pos_bound v 2 ltac:(lia)). lia. }
    rewrite HB, <- IH. destruct (set_maximum (v / 2) tail).
    + split; intros _; [eexists; reflexivity|]. destruct (Z.land v 1 =? 0); eexists; reflexivity.
    + split; intros [? ?]; discriminate.
Qed.
