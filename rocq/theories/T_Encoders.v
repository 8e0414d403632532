(** Property theorems C01-C14: the SAT encoders of util.py and cardinality.py. *)
From Coq Require Import ZArith List Bool Lia.
From Verif Require Import Spec_Cnf M_Util M_Card P_Cnf P_Util P_Util2 P_Util3 P_Card.
Import ListNotations.
Open Scope Z_scope.

(** Value of an optional carry literal. *)
Definition carry_value (a : assignment) (c : option lit) : Z :=
  match c with None => 0 | Some l => Z.b2z (evl a l) end.
Definition carry_ok (n : Z) (c : option lit) : Prop :=
  match c with None => True | Some l => lit_ok n l end.

(** * C01 *)
Theorem C01_literals_same a x y : x <> 0 -> y <> 0 ->
  (sat a (literals_same x y) = true <-> evl a x = evl a y).
Proof. intros. rewrite literals_same_sat by assumption. apply eqb_true_iff. Qed.

Theorem C01_literals_different a x y : x <> 0 -> y <> 0 ->
  (sat a (literals_different x y) = true <-> evl a x <> evl a y).
Proof.
  intros. rewrite literals_different_sat by assumption.
  rewrite negb_true_iff. apply eqb_false_iff.
Qed.

Theorem C01_implies a cond cs : Forall nonzero cond ->
  (sat a (implies cond cs) = true <->
   ((forall l, In l cond -> evl a l = true) -> sat a cs = true)).
Proof.
  intros H. rewrite sat_implies by assumption. rewrite orb_true_iff, negb_true_iff.
  rewrite <- forallb_forall. destruct (forallb (evl a) cond); split; intuition (try congruence; auto).
Qed.

Theorem C01_set_literal a l v : l <> 0 -> (evl a (set_literal l v) = true <-> evl a l = v).
Proof. intros. rewrite evl_set_literal by assumption. apply eqb_true_iff. Qed.

Theorem C01_set_all_false a ls : Forall nonzero ls ->
  (sat a (set_all_false ls) = true <-> forall l, In l ls -> evl a l = false).
Proof.
  intros H. rewrite set_all_false_sat, forallb_forall by assumption.
  split; intros HH l Hl; specialize (HH l Hl); [apply negb_true_iff|apply negb_true_iff]; assumption.
Qed.

Theorem C01_set_all_true a ls :
  sat a (set_all_true ls) = true <-> forall l, In l ls -> evl a l = true.
Proof. rewrite set_all_true_sat. apply forallb_forall. Qed.

Theorem C01_invert_components a c : Forall nonzero c ->
  (satc a (invert_components c) = true <-> ~ forall l, In l c -> evl a l = true).
Proof.
  intros H. unfold invert_components. rewrite satc_opp by assumption.
  rewrite <- forallb_forall, negb_true_iff. symmetry. apply not_true_iff_false.
Qed.

Example C01_example : sat (fun v => v =? 3) (implies [3; -4] (literals_different 3 5)) = true
  /\ sat (fun v => v =? 3) (implies [3; -4] (literals_same 3 5)) = false.
Proof. split; reflexivity. Qed.

(** * C02 *)
Theorem C02_set_number v ls : Forall nonzero ls ->
  (v < 2 ^ len ls -> exists cs, set_number v ls = Some cs /\
     forall a, sat a cs = true <-> value a ls = v mod 2 ^ len ls) /\
  (2 ^ len ls <= v -> set_number v ls = None).
Proof.
  intros H. split; intros Hv.
  - apply set_number_some in Hv. destruct Hv as [cs E]. exists cs. split; [exact E|].
    apply set_number_spec; assumption.
  - destruct (set_number v ls) as [cs|] eqn:E; [|reflexivity].
    assert (v < 2 ^ len ls) by (apply set_number_some; eauto). lia.
Qed.

Theorem C02_set_not_number v ls : Forall nonzero ls ->
  (v < 2 ^ len ls -> exists c, set_not_number v ls = Some c /\
     forall a, satc a c = true <-> value a ls <> v mod 2 ^ len ls) /\
  (2 ^ len ls <= v -> set_not_number v ls = None).
Proof.
  intros H. split; intros Hv.
  - apply set_not_number_some in Hv. destruct Hv as [cs E]. exists cs. split; [exact E|].
    apply set_not_number_spec; assumption.
  - destruct (set_not_number v ls) as [cs|] eqn:E; [|reflexivity].
    assert (v < 2 ^ len ls) by (apply set_not_number_some; eauto). lia.
Qed.

Example C02_example : set_number 5 [7; 8; -9] = Some [[7]; [-8]; [-9]]
  /\ value (fun v => v =? 7) [7; 8; -9] = 5 /\ set_number 8 [7; 8; -9] = None.
Proof. repeat split; reflexivity. Qed.

(** * C03 *)
Theorem C03_set_numbers va vb las lbs :
  length las = length lbs -> 0 <= va < 2 ^ len las -> 0 <= vb < 2 ^ len las ->
  Forall nonzero las -> Forall nonzero lbs ->
  exists cs, set_numbers va vb las lbs = Some cs /\
    forall a, sat a cs = true <->
      (value a las = va /\ value a lbs = vb) \/ (value a las = vb /\ value a lbs = va).
Proof.
  intros HL Ha Hb Na Nb.
  assert (HX : exists cs, set_numbers va vb las lbs = Some cs).
  { apply set_numbers_some. repeat split; tauto. }
  destruct HX as [cs E]. exists cs. split; [exact E|].
  apply set_numbers_spec; tauto.
Qed.

Example C03_example : exists cs, set_numbers 5 6 [1; 2; 3] [4; 5; 6] = Some cs /\
  sat (fun v => existsb (Z.eqb v) [2; 3; 4; 6]) cs = true /\
  sat (fun v => existsb (Z.eqb v) [1; 3; 4; 6]) cs = false.
Proof. eexists. repeat split; reflexivity. Qed.

(** * C04 *)
Theorem C04_set_numbers_equal xs ys adl : Forall nonzero xs -> Forall nonzero ys ->
  (adl = true \/ length xs = length ys ->
   exists cs, set_numbers_equal xs ys adl = Some cs /\
     forall a, sat a cs = true <-> value a xs = value a ys) /\
  (adl = false -> length xs <> length ys -> set_numbers_equal xs ys adl = None).
Proof.
  intros Hx Hy. split.
  - intros H. apply set_numbers_equal_some in H. destruct H as [cs E]. exists cs. split; [exact E|].
    apply (set_numbers_equal_spec xs ys adl); assumption.
  - intros -> H. destruct (set_numbers_equal xs ys false) as [cs|] eqn:E; [|reflexivity].
    assert (false = true \/ length xs = length ys) by (apply set_numbers_equal_some; eauto).
    destruct H0; [discriminate|contradiction].
Qed.

Example C04_example : set_numbers_equal [1; 2; 3] [4] true = Some [[-2]; [-3]; [-1; 4]; [1; -4]].
Proof. reflexivity. Qed.

(** * C05 *)
Theorem C05_set_maximum v ls : Forall nonzero ls ->
  (0 <= v < 2 ^ len ls -> exists cs, set_maximum v ls = Some cs /\
     forall a, sat a cs = true <-> value a ls <= v) /\
  (~ 0 <= v < 2 ^ len ls -> set_maximum v ls = None).
Proof.
  intros H. split; intros Hv.
  - apply set_maximum_some in Hv. destruct Hv as [cs E]. exists cs. split; [exact E|].
    apply (set_maximum_spec v ls cs H E).
  - destruct (set_maximum v ls) as [cs|] eqn:E; [|reflexivity].
    exfalso. apply Hv. apply set_maximum_some. eauto.
Qed.

Example C05_example : set_maximum 4 [1; 2; 3] = Some [[-2; -3]; [-1; -3]].
Proof. reflexivity. Qed.

(** * C06 *)
(** Output one bit wider than the inputs: the exact sum. *)
Theorem C06_add_numbers_wide xs ys os ci ovf top :
  length ys = length xs -> length os = S (length xs) -> xs <> [] -> 0 <= top ->
  Forall (lit_ok top) xs -> Forall (lit_ok top) ys -> Forall (lit_ok top) os -> carry_ok top ci ->
  exists cs, add_numbers_st xs ys os ci ovf top = Some (cs, top + len xs) /\
    encodes top cs (fun a => value a xs + value a ys + carry_value a ci = value a os).
Proof.
  intros L1 L2 Hne Ht Hx Hy Ho Hci.
  destruct (add_enc_ok xs ys os ci ovf top) as (cs & E & Hok); auto.
  exists cs. split; [exact E|]. destruct Hok as (cs' & t & E' & _ & _ & H3 & H4).
  rewrite E in E'. injection E' as <- <-.
  assert (EQ : forall a, add_sem xs ys os ci ovf a <-> value a xs + value a ys + carry_value a ci = value a os).
  { intros a. unfold add_sem. rewrite L2. assert (EN : Nat.eqb (S (length xs)) (length xs) = false) by (apply Nat.eqb_neq; lia).
    rewrite EN. destruct ovf; reflexivity. }
  split; intros a Ha; [apply EQ, H3, Ha|apply H4, EQ, Ha].
Qed.

(** Same width, overflow forbidden. *)
Theorem C06_add_numbers_no_overflow xs ys os ci top :
  length ys = length xs -> length os = length xs -> xs <> [] -> 0 <= top ->
  Forall (lit_ok top) xs -> Forall (lit_ok top) ys -> Forall (lit_ok top) os -> carry_ok top ci ->
  exists cs, add_numbers_st xs ys os ci false top = Some (cs, top + len xs) /\
    encodes top cs (fun a => value a xs + value a ys + carry_value a ci = value a os).
Proof.
  intros L1 L2 Hne Ht Hx Hy Ho Hci.
  destruct (add_enc_ok xs ys os ci false top) as (cs & E & Hok); auto.
  exists cs. split; [exact E|]. destruct Hok as (cs' & t & E' & _ & _ & H3 & H4).
  rewrite E in E'. injection E' as <- <-. split; [exact H3|exact H4].
Qed.

(** Same width, overflow allowed. *)
Theorem C06_add_numbers_overflow xs ys os ci top :
  length ys = length xs -> length os = length xs -> 0 <= top ->
  Forall (lit_ok top) xs -> Forall (lit_ok top) ys -> Forall (lit_ok top) os -> carry_ok top ci ->
  exists cs, add_numbers_st xs ys os ci true top = Some (cs, top + len xs) /\
    encodes top cs (fun a => (value a xs + value a ys + carry_value a ci) mod 2 ^ len os = value a os).
Proof.
  intros L1 L2 Ht Hx Hy Ho Hci.
  destruct (add_enc_ok xs ys os ci true top) as (cs & E & Hok); auto.
  { destruct xs; [|left; discriminate]. right. right. split; [reflexivity|]. destruct os; [reflexivity|discriminate]. }
  exists cs. split; [exact E|]. destruct Hok as (cs' & t & E' & _ & _ & H3 & H4).
  rewrite E in E'. injection E' as <- <-.
  unfold len. rewrite L2. unfold add_sem in *. rewrite L2, Nat.eqb_refl in *. split; [exact H3|exact H4].
Qed.

(** With a caller supplied list of carry literals (make_fixed_allocator) the
    clauses still force the sum. *)
Theorem C06_add_numbers_fixed_allocator xs ys os carries ci ovf cs :
  Forall nonzero xs -> Forall nonzero ys -> Forall nonzero os -> Forall nonzero carries ->
  match ci with None => True | Some l => l <> 0 end ->
  add_numbers xs ys os carries ci ovf = Some cs ->
  forall a, sat a cs = true ->
    if ovf && Nat.eqb (length os) (length xs)
    then (value a xs + value a ys + carry_value a ci) mod 2 ^ len os = value a os
    else value a xs + value a ys + carry_value a ci = value a os.
Proof.
  intros Hx Hy Ho Hc Hci E a HS.
  pose proof (add_numbers_sound xs ys os carries ci ovf cs Hx Hy Ho Hc Hci E a HS) as H.
  unfold add_sem in H. destruct ovf; cbn [andb]; [|exact H].
  destruct (Nat.eqb_spec (length os) (length xs)) as [L|L]; [|exact H].
  unfold len in *. rewrite L. exact H.
Qed.

Example C06_example :
  exists cs, add_numbers_st [1; 2] [3; 4] [5; 6; 7] None false 7 = Some (cs, 9) /\
  (* 3 + 2 = 5, carries 0 and 1 *)
  sat (fun v => existsb (Z.eqb v) [1; 2; 4; 5; 7; 9]) cs = true /\
  sat (fun v => existsb (Z.eqb v) [1; 2; 4; 5; 6; 9]) cs = false.
Proof. eexists. repeat split; reflexivity. Qed.

(** * C07 *)
Fixpoint total (l : list Z) : Z := match l with [] => 0 | x :: t => x + total t end.

Theorem C07_sum_numbers numbers output top :
  (2 <= length numbers)%nat -> output <> [] -> 0 <= top ->
  Forall (fun n => length n = length output) numbers ->
  Forall (Forall (lit_ok top)) numbers -> Forall (lit_ok top) output ->
  (exists cs top', sum_numbers numbers output false top = Some (cs, top') /\ top <= top' /\
     encodes top cs (fun a => total (map (value a) numbers) = value a output)) /\
  (exists cs top', sum_numbers numbers output true top = Some (cs, top') /\ top <= top' /\
     encodes top cs (fun a => total (map (value a) numbers) mod 2 ^ len output = value a output)).
Proof.
  intros HL Hne Ht Hl Hn Ho.
  split; apply enc_ok_encodes;
    [exact (sum_numbers_ok numbers output false top HL Ht (or_introl Hne) Hl Hn Ho)
    |exact (sum_numbers_ok numbers output true top HL Ht (or_introl Hne) Hl Hn Ho)].
Qed.

Example C07_example : exists cs, sum_numbers [[1; 2]; [3; 4]; [5; 6]] [7; 8] false 8 = Some (cs, 14) /\
  len cs = 44.
Proof. eexists. split; reflexivity. Qed.

(** * C08 *)
Theorem C08_increment_number input output : Forall nonzero input -> Forall nonzero output ->
  (length input = length output -> input <> [] ->
   exists cs, increment_number input output = Some cs /\
     forall a, sat a cs = true <-> value a output = (value a input + 1) mod 2 ^ len input) /\
  (length input <> length output \/ input = [] -> increment_number input output = None).
Proof.
  intros Hi Ho. split.
  - intros L N. assert (HX : exists cs, increment_number input output = Some cs)
      by (apply increment_number_some; auto).
    destruct HX as [cs E]. exists cs. split; [exact E|]. apply increment_number_spec; assumption.
  - intros H. destruct (increment_number input output) as [cs|] eqn:E; [|reflexivity].
    assert (HX : length input = length output /\ input <> []) by (apply increment_number_some; eauto).
    destruct H as [H|H]; destruct HX; contradiction.
Qed.

Example C08_example : exists cs, increment_number [1; 2] [3; 4] = Some cs /\
  sat (fun v => existsb (Z.eqb v) [1; 4]) cs = true /\ sat (fun v => existsb (Z.eqb v) [1; 2]) cs = true /\
  sat (fun v => existsb (Z.eqb v) [1; 3]) cs = false.
Proof. eexists. repeat split; reflexivity. Qed.

(** * C09 *)
Theorem C09_get_popcount bits output top :
  (2 <= length bits)%nat -> len output = Z.log2_up (len bits + 1) -> 0 <= top ->
  Forall (lit_ok top) bits -> Forall (lit_ok top) output ->
  exists cs top', get_popcount bits output top = Some (cs, top') /\ top <= top' /\
    encodes top cs (fun a => value a output = count_true (values a bits)).
Proof.
  intros. apply enc_ok_encodes. apply popcount_fuel_ok; auto.
Qed.

Example C09_example : exists cs, get_popcount [1; 2; 3; 4; 5] [6; 7; 8] 8 = Some (cs, 16) /\
  len cs = 48.
Proof. eexists. split; reflexivity. Qed.

(** * C10 *)
Theorem C10_invert_number xs ys top : xs <> [] -> length xs = length ys -> 0 <= top ->
  Forall (lit_ok top) xs -> Forall (lit_ok top) ys ->
  exists cs top', invert_number xs ys top = Some (cs, top') /\ top <= top' /\
    encodes top cs (fun a => (value a xs + value a ys) mod 2 ^ len xs = 0 /\
                             value a xs <> 2 ^ (len xs - 1)).
Proof. intros. apply enc_ok_encodes. apply invert_number_ok; auto. Qed.

Example C10_example : exists cs, invert_number [1; 2; 3] [4; 5; 6] 6 = Some (cs, 8) /\
  (* input 3, output 5; carries: 1+1 -> 1, 1+0+1 -> 1 *)
  sat (fun v => existsb (Z.eqb v) [1; 2; 4; 6; 7; 8]) cs = true.
Proof. eexists. split; reflexivity. Qed.

(** * C11 *)
Theorem C11_read_get_bits v n : read_number (get_bits v n) = v mod 2 ^ Z.of_nat n.
Proof. rewrite read_number_num. apply num_get_bits. Qed.

Theorem C11_get_bits_read bits : get_bits (read_number bits) (length bits) = bits.
Proof. rewrite read_number_num. apply get_bits_num. Qed.

Theorem C11_read_number_value bits : read_number bits = num bits.
Proof. apply read_number_num. Qed.

(** Signed reading is two's complement: the unique number in
    [-2^(n-1) .. 2^(n-1)-1] with these bits. *)
Theorem C11_read_signed bits : (2 <= length bits)%nat ->
  exists v, read_number_signed bits = Some v /\
    - 2 ^ (len bits - 1) <= v < 2 ^ (len bits - 1) /\ get_bits v (length bits) = bits.
Proof.
  intros HL. unfold read_number_signed. destruct (Nat.ltb_spec 1 (length bits)); [|lia].
  eexists. split; [reflexivity|]. rewrite read_number_num, shiftl1 by apply len_nonneg.
  assert (Hne : bits <> []) by (destruct bits; [cbn in HL; lia|discriminate]).
  pose proof (num_bound (removelast bits)) as B.
  assert (Lr : len (removelast bits) = len bits - 1).
  { rewrite (app_removelast_last false Hne) at 2. rewrite len_app. unfold len at 3. cbn. lia. }
  rewrite Lr in B.
  assert (P2 : 2 ^ len bits = 2 * 2 ^ (len bits - 1)).
  { rewrite <- Z.pow_succ_r by (unfold len; lia). f_equal. lia. }
  pose proof (num_last bits Hne) as NL. pose proof (num_bound bits) as NB.
  assert (GB : forall k, get_bits (num bits + k * 2 ^ len bits) (length bits) = bits).
  { intros k. apply num_inj; [apply get_bits_length|]. rewrite num_get_bits. unfold len in *.
    rewrite Z_mod_plus_full. apply Z.mod_small. exact NB. }
  destruct (last bits false); cbn [Z.b2z] in NL.
  - split; [lia|]. transitivity (get_bits (num bits + -1 * 2 ^ len bits) (length bits)); [f_equal; lia|apply GB].
  - split; [lia|]. transitivity (get_bits (num bits + 0 * 2 ^ len bits) (length bits)); [f_equal; lia|apply GB].
Qed.

Example C11_example : read_number_signed [true; false; true] = Some (-3) /\ get_bits (-3) 3 = [true; false; true].
Proof. split; reflexivity. Qed.

(** * C12 *)
Theorem C12_break_symmetry left right top : length left = length right -> 0 <= top ->
  Forall (lit_ok top) left -> Forall (lit_ok top) right ->
  exists cs top', break_symmetry left right top = Some (cs, top') /\ top <= top' /\
    encodes top cs (fun a => lex_le (values a left) (values a right) = true).
Proof. intros. apply enc_ok_encodes. apply break_symmetry_ok; auto. Qed.

Lemma lex_le_total xs : forall ys, length xs = length ys -> lex_le xs ys = true \/ lex_le ys xs = true.
Proof.
  induction xs as [|x xs IH]; intros [|y ys] H; cbn in H; try discriminate; [left; reflexivity|].
  destruct (IH ys ltac:(congruence)) as [E|E]; cbn; rewrite E; destruct x, y; cbn; auto.
Qed.

(** Of an assignment and any mirror image exchanging the two lists, at least
    one survives. *)
Theorem C12_one_of_each_pair left right top : length left = length right -> 0 <= top ->
  Forall (lit_ok top) left -> Forall (lit_ok top) right ->
  exists cs top', break_symmetry left right top = Some (cs, top') /\
    forall a m, values m left = values a right -> values m right = values a left ->
      (exists b, agree top a b /\ sat b cs = true) \/ (exists b, agree top m b /\ sat b cs = true).
Proof.
  intros HL Ht Hl Hr. destruct (C12_break_symmetry left right top) as (cs & top' & E & _ & H1 & H2); auto.
  exists cs, top'. split; [exact E|]. intros a m M1 M2.
  destruct (lex_le_total (values a left) (values a right)) as [Q|Q]; [rewrite !values_length; assumption| |].
  - left. apply H2. assumption.
  - right. apply H2. rewrite M1, M2. assumption.
Qed.

Example C12_example : exists cs, break_symmetry [1; 2] [3; 4] 4 = Some (cs, 6) /\
  sat (fun v => existsb (Z.eqb v) [2; 3; 5; 6]) cs = true /\
  sat (fun v => existsb (Z.eqb v) [1; 4; 6]) cs = false.
Proof. eexists. repeat split; reflexivity. Qed.

(** * C13 *)
Theorem C13_quadratic_amo a ls : Forall nonzero ls ->
  (sat a (quadratic_amo ls) = true <-> count_true (values a ls) <= 1).
Proof. apply quadratic_amo_sat. Qed.
Theorem C13_quadratic_one a ls : Forall nonzero ls ->
  (sat a (quadratic_one ls) = true <-> count_true (values a ls) = 1).
Proof. apply quadratic_one_sat. Qed.
Theorem C13_heule_amo ls cutoff top : (3 <= cutoff)%nat -> 0 <= top -> Forall (lit_ok top) ls ->
  exists cs top', heule_amo ls cutoff top = Some (cs, top') /\ top <= top' /\
    encodes top cs (fun a => count_true (values a ls) <= 1).
Proof. intros. apply enc_ok_encodes. apply heule_amo_ok; auto. Qed.
Theorem C13_heule_one ls cutoff top : (3 <= cutoff)%nat -> 0 <= top -> Forall (lit_ok top) ls ->
  exists cs top', heule_one ls cutoff top = Some (cs, top') /\ top <= top' /\
    encodes top cs (fun a => count_true (values a ls) = 1).
Proof. intros. apply enc_ok_encodes. apply heule_one_ok; auto. Qed.
Theorem C13_logarithmic_one ls top : ls <> [] -> 0 <= top -> Forall (lit_ok top) ls ->
  exists cs top', logarithmic_one ls top = Some (cs, top') /\ top <= top' /\
    encodes top cs (fun a => count_true (values a ls) = 1).
Proof. intros. apply enc_ok_encodes. apply logarithmic_one_ok; auto. Qed.

Example C13_example : exists cs, heule_amo [1; 2; 3; 4; 5] 3 5 = Some (cs, 7) /\ len cs = 9.
Proof. eexists. split; reflexivity. Qed.

(** * C14 *)
(** logarithmic_amo is not an at-most-one constraint: it encodes exactly-one,
    for every non-empty list of literals. *)
Theorem C14_logarithmic_amo_is_exactly_one ls top : ls <> [] -> 0 <= top -> Forall (lit_ok top) ls ->
  exists cs top', logarithmic_amo ls top = Some (cs, top') /\ top <= top' /\
    encodes top cs (fun a => count_true (values a ls) = 1).
Proof. intros. apply enc_ok_encodes. apply logarithmic_amo_ok; auto. Qed.

(** So the all-false assignment, which has at most one true literal, is lost
    for every non-empty list of variables. *)
Theorem C14_logarithmic_amo_refuted ls top : ls <> [] -> 0 <= top ->
  Forall (fun l => 0 < l <= top) ls ->
  exists cs top' a, logarithmic_amo ls top = Some (cs, top') /\
    count_true (values a ls) <= 1 /\ forall b, agree top a b -> sat b cs = false.
Proof.
  intros Hne Ht Hl.
  assert (Hl' : Forall (lit_ok top) ls).
  { eapply Forall_impl; [|exact Hl]. intros l Hb. unfold lit_ok. cbv beta in Hb. lia. }
  destruct (logarithmic_amo_ok ls top Hne Ht Hl') as (cs & top' & E & _ & _ & H3 & _).
  exists cs, top', (fun _ => false). split; [exact E|].
  assert (Z0 : forall b, agree top (fun _ => false) b -> count_true (values b ls) = 0).
  { intros b Hb. clear -Hl Hb. induction Hl as [|l ls H _ IH]; [reflexivity|].
    unfold values in *. cbn [map count_true]. rewrite IH.
    assert (El : evl b l = false).
    { unfold evl. destruct (Z.ltb_spec 0 l); [|lia]. symmetry. apply Hb. lia. }
    rewrite El. reflexivity. }
  split.
  - rewrite Z0; [lia|]. intros v Hv. reflexivity.
  - intros b Hb. apply not_true_iff_false. intros HS. apply H3 in HS. unfold count in HS.
    rewrite (Z0 b Hb) in HS. discriminate.
Qed.

Example C14_example : exists cs, logarithmic_amo [1; 2; 3] 3 = Some (cs, 5) /\ In [1; 2; 3] cs.
Proof. eexists. split; [reflexivity|]. left. reflexivity. Qed.

Print Assumptions C01_literals_same.
Print Assumptions C01_literals_different.
Print Assumptions C01_implies.
Print Assumptions C01_set_literal.
Print Assumptions C01_set_all_false.
Print Assumptions C01_set_all_true.
Print Assumptions C01_invert_components.
Print Assumptions C02_set_number.
Print Assumptions C02_set_not_number.
Print Assumptions C03_set_numbers.
Print Assumptions C04_set_numbers_equal.
Print Assumptions C05_set_maximum.
Print Assumptions C06_add_numbers_wide.
Print Assumptions C06_add_numbers_no_overflow.
Print Assumptions C06_add_numbers_overflow.
Print Assumptions C06_add_numbers_fixed_allocator.
Print Assumptions C07_sum_numbers.
Print Assumptions C08_increment_number.
Print Assumptions C09_get_popcount.
Print Assumptions C10_invert_number.
Print Assumptions C11_read_get_bits.
Print Assumptions C11_get_bits_read.
Print Assumptions C11_read_signed.
Print Assumptions C12_break_symmetry.
Print Assumptions C12_one_of_each_pair.
Print Assumptions C13_quadratic_amo.
Print Assumptions C13_quadratic_one.
Print Assumptions C13_heule_amo.
Print Assumptions C13_heule_one.
Print Assumptions C13_logarithmic_one.
Print Assumptions C14_logarithmic_amo_is_exactly_one.
Print Assumptions C14_logarithmic_amo_refuted.
