(** Proofs about the cost of colours (M_Colours): binary digits. *)
From Coq Require Import ZArith List Bool Lia.
From Verif Require Import Spec_Cnf M_Util P_Cnf P_Util P_Util3 M_Network Spec_Network Spec_Colours M_Colours.
Import ListNotations.
Open Scope Z_scope.

Definition ones (v : Z) (n : nat) : Z := count_true (get_bits v n).
Lemma ones_S v n : ones v (S n) = Z.b2z (Z.odd v) + ones (Z.shiftr v 1) n.
Proof. unfold ones. rewrite get_bits_cons. reflexivity. Qed.
Lemma ones_0 n : ones 0 n = 0.
Proof. induction n as [|n IH]; [reflexivity|]. rewrite ones_S. change (Z.shiftr 0 1) with 0. rewrite IH. reflexivity. Qed.
Lemma ones_nonneg v n : 0 <= ones v n. Proof. apply (count_true_bound (get_bits v n)). Qed.
Lemma ones_more n m v : 0 <= v < 2 ^ Z.of_nat n -> (n <= m)%nat -> ones v m = ones v n.
Proof.
  revert m v. induction n as [|n IH]; intros m v Hv Hm.
  - assert (v = 0) by (change (2 ^ Z.of_nat 0) with 1 in Hv; lia). subst v. rewrite !ones_0. reflexivity.
  - destruct m as [|m]; [lia|]. rewrite !ones_S. f_equal. apply IH; [|lia]. rewrite shiftr1.
    rewrite Nat2Z.inj_succ, Z.pow_succ_r in Hv by lia. split; [apply Z.div_pos; lia|apply Z.div_lt_upper_bound; lia].
Qed.
Lemma ones_pos n v : 0 < v < 2 ^ Z.of_nat n -> 0 < ones v n.
Proof.
  revert v. induction n as [|n IH]; intros v Hv; [change (2 ^ Z.of_nat 0) with 1 in Hv; lia|]. rewrite ones_S, odd_b2z, shiftr1. pose proof (ones_nonneg (v / 2) n).
  pose proof (Z.mod_pos_bound v 2 ltac:(lia)). destruct (Z.eq_dec (v mod 2) 0) as [E|]; [|lia].
  rewrite Nat2Z.inj_succ, Z.pow_succ_r in Hv by lia. pose proof (Z.div_mod v 2 ltac:(lia)).
  assert (0 < v / 2 < 2 ^ Z.of_nat n) by (split; [lia|apply Z.div_lt_upper_bound; lia]). specialize (IH _ H2). lia.
Qed.
Lemma pop_bits_ones n : forall p, Z.pos p < 2 ^ Z.of_nat n -> pop_bits p = ones (Z.pos p) n.
Proof.
  induction n as [|n IH]; intros p Hp; [change (2 ^ Z.of_nat 0) with 1 in Hp; lia|].
  rewrite Nat2Z.inj_succ, Z.pow_succ_r in Hp by lia. rewrite ones_S. destruct p as [q|q|]; cbn [pop_bits].
  - change (Z.shiftr (Z.pos q~1) 1) with (Z.pos q). rewrite <- IH by lia. reflexivity.
  - change (Z.shiftr (Z.pos q~0) 1) with (Z.pos q). rewrite <- IH by lia. reflexivity.
  - change (Z.shiftr 1 1) with 0. rewrite ones_0. reflexivity.
Qed.

Lemma get_bits_testbit n : forall v k, get_bits (Z.shiftr v (Z.of_nat k)) n = map (fun i => Z.testbit v (Z.of_nat i)) (seq k n).
Proof.
  induction n as [|n IH]; intros v k; [reflexivity|]. rewrite get_bits_cons. cbn [seq map]. f_equal.
  - rewrite <- Z.bit0_odd, Z.shiftr_spec by lia. f_equal.
  - rewrite Z.shiftr_shiftr by lia. replace (Z.of_nat k + 1) with (Z.of_nat (S k)) by lia. apply IH.
Qed.
Lemma ones_filter v n : ones v n = len (filter (fun i => Z.testbit v (Z.of_nat i)) (seq 0 n)).
Proof.
  unfold ones. rewrite <- (Z.shiftr_0_r v) at 1. change 0 with (Z.of_nat 0). rewrite get_bits_testbit.
  generalize (seq 0 n). intros l. induction l as [|i l IH]; [reflexivity|]. cbn [map count_true filter]. rewrite IH. destruct (Z.testbit v (Z.of_nat i)); [rewrite len_cons|]; cbn [Z.b2z]; lia.
Qed.
Lemma lxor_bound n x y : 0 <= x < 2 ^ n -> 0 <= y < 2 ^ n -> 0 <= n -> 0 <= Z.lxor x y < 2 ^ n.
Proof.
  intros Hx Hy Hn. assert (P : 0 <= Z.lxor x y) by (apply Z.lxor_nonneg; lia). split; [exact P|].
  destruct (Z.eq_dec (Z.lxor x y) 0) as [E|N]; [rewrite E; apply Z.pow_pos_nonneg; lia|].
  apply Z.log2_lt_pow2; [lia|]. pose proof (Z.log2_lxor x y ltac:(lia) ltac:(lia)) as L.
  assert (B : forall z, 0 <= z < 2 ^ n -> Z.log2 z < n \/ (z = 0)).
  { intros z Hz. destruct (Z.eq_dec z 0); [auto|]. left. apply Z.log2_lt_pow2; lia. }
  destruct (B x Hx) as [Bx|Bx], (B y Hy) as [By|By]; try subst x; try subst y; cbn [Z.log2] in L; try lia.
  - rewrite Z.lxor_0_r in *. pose proof (Z.log2_nonneg x). lia.
  - rewrite Z.lxor_0_l in *. pose proof (Z.log2_nonneg y). lia.
  - exfalso. apply N. reflexivity.
Qed.
Lemma log2_fits v : 0 <= v -> v < 2 ^ (Z.log2 v + 1).
Proof. intros H. destruct (Z.eq_dec v 0) as [->|N]; [reflexivity|]. apply Z.log2_spec. lia. Qed.

Lemma digits_ones n x y : 0 <= x < 2 ^ Z.of_nat n -> 0 <= y < 2 ^ Z.of_nat n -> digits_apart x y = ones (Z.lxor x y) n.
Proof.
  intros Hx Hy. unfold digits_apart. set (m := Z.to_nat (Z.log2 (Z.max x y) + 1)).
  assert (Hm : forall z, 0 <= z <= Z.max x y -> 0 <= z < 2 ^ Z.of_nat m).
  { intros z Hz. split; [lia|]. unfold m. rewrite Z2Nat.id by (pose proof (Z.log2_nonneg (Z.max x y)); lia). pose proof (log2_fits (Z.max x y) ltac:(lia)). lia. }
  transitivity (ones (Z.lxor x y) m).
  - rewrite ones_filter. f_equal. apply filter_ext. intros i. symmetry. apply Z.lxor_spec.
  - transitivity (ones (Z.lxor x y) (max n m)); [symmetry|]; apply ones_more; try lia.
    + apply lxor_bound; [apply Hm; lia|apply Hm; lia|lia].
    + apply lxor_bound; [exact Hx|exact Hy|lia].
Qed.
Lemma lxor_pos x y : 0 <= x -> 0 <= y -> x <> y -> 0 < Z.lxor x y.
Proof.
  intros Hx Hy N. assert (0 <= Z.lxor x y) by (apply Z.lxor_nonneg; lia). assert (Z.lxor x y <> 0) by (intros E; apply N; apply Z.lxor_eq; exact E). lia.
Qed.
Lemma fits x y : 0 <= x -> 0 <= y -> exists n, 0 <= x < 2 ^ Z.of_nat n /\ 0 <= y < 2 ^ Z.of_nat n.
Proof.
  intros Hx Hy. exists (Z.to_nat (Z.log2 (Z.max x y) + 1)). rewrite Z2Nat.id by (pose proof (Z.log2_nonneg (Z.max x y)); lia).
  pose proof (log2_fits (Z.max x y) ltac:(lia)). lia.
Qed.
Lemma pop_count_lxor x y : 0 <= x -> 0 <= y -> pop_count (Z.lxor x y) = if x =? y then None else Some (digits_apart x y).
Proof.
  intros Hx Hy. destruct (Z.eqb_spec x y) as [->|N]; [rewrite Z.lxor_nilpotent; reflexivity|].
  destruct (fits x y Hx Hy) as (n & Bx & By). rewrite (digits_ones n x y Bx By). pose proof (lxor_pos x y Hx Hy N) as P. pose proof (lxor_bound (Z.of_nat n) x y Bx By ltac:(lia)) as B.
  destruct (Z.lxor x y) as [|p|p]; try lia. cbn [pop_count]. f_equal. apply pop_bits_ones. lia.
Qed.
Lemma digits_pos x y : 0 <= x -> 0 <= y -> x <> y -> 0 < digits_apart x y.
Proof.
  intros Hx Hy N. destruct (fits x y Hx Hy) as (n & Bx & By). rewrite (digits_ones n x y Bx By). apply ones_pos.
  pose proof (lxor_pos x y Hx Hy N). pose proof (lxor_bound (Z.of_nat n) x y Bx By ltac:(lia)). lia.
Qed.
Lemma digits_self x : 0 <= x -> digits_apart x x = 0.
Proof. intros Hx. destruct (fits x x Hx Hx) as (n & B & _). rewrite (digits_ones n x x B B), Z.lxor_nilpotent. apply ones_0. Qed.
Lemma digits_bound n x y : 0 <= x < 2 ^ Z.of_nat n -> 0 <= y < 2 ^ Z.of_nat n -> digits_apart x y <= Z.of_nat n.
Proof. intros Bx By. rewrite (digits_ones n x y Bx By). unfold ones. pose proof (count_true_bound (get_bits (Z.lxor x y) n)) as H. unfold len in H. rewrite get_bits_length in H. lia. Qed.

(** The digits as lists of truth values. *)
Definition xor_bits (xs ys : list bool) : list bool := map (fun p => xorb (fst p) (snd p)) (combine xs ys).
Lemma xor_num xs : forall ys, length xs = length ys -> num (xor_bits xs ys) = Z.lxor (num xs) (num ys).
Proof.
  induction xs as [|x xs IH]; intros [|y ys] L; cbn in L; try discriminate; [reflexivity|].
  unfold xor_bits in *. cbn [combine map num fst snd]. rewrite IH by congruence.
  apply Z.bits_inj'. intros n Hn. rewrite Z.lxor_spec. destruct (Z.eq_dec n 0) as [->|Nn].
  - rewrite !Z.bit0_odd, !Z.odd_add, !Z.odd_mul. cbn [Z.odd andb]. rewrite !xorb_false_r. destruct x, y; reflexivity.
  - assert (T : forall b z, Z.testbit (Z.b2z b + 2 * z) n = Z.testbit z (n - 1)).
    { intros b z. rewrite Z.add_comm. replace n with (Z.succ (n - 1)) at 1 by lia. rewrite (Z.testbit_succ_r z b) by lia. reflexivity. }
    rewrite (T (xorb x y)), (T x), (T y), Z.lxor_spec. reflexivity.
Qed.
Lemma xor_digits xs ys : length xs = length ys -> count_true (xor_bits xs ys) = digits_apart (num xs) (num ys).
Proof.
  intros L. pose proof (num_bound xs) as Bx. pose proof (num_bound ys) as By. unfold len in *.
  rewrite (digits_ones (length xs) (num xs) (num ys)); [|exact Bx|rewrite L; exact By]. rewrite <- xor_num by exact L. unfold ones.
  replace (length xs) with (length (xor_bits xs ys)); [rewrite get_bits_num; reflexivity|]. unfold xor_bits. rewrite map_length, combine_length. lia.
Qed.
