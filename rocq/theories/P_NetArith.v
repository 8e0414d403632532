(** The numbers of the network-free balancer. *)
From Coq Require Import ZArith Znumtheory List Bool Lia.
From Verif Require Import M_Json M_Util M_Card M_Grid M_NetFree.
Import ListNotations.
Open Scope Z_scope.

Lemma bit_length_bound x : 0 <= x -> 0 <= bit_length x /\ x < 2 ^ bit_length x /\ forall j, 0 <= j -> x < 2 ^ j -> bit_length x <= j.
Proof.
  intros H. unfold bit_length. destruct (Z.eqb_spec x 0) as [->|N].
  - split; [lia|]. split; [reflexivity|]. intros. lia.
  - pose proof (Z.log2_nonneg x). pose proof (Z.log2_spec x ltac:(lia)) as [L U]. replace (Z.succ (Z.log2 x)) with (Z.log2 x + 1) in U by lia.
    split; [lia|]. split; [exact U|]. intros j Hj Hx. assert (Z.log2 x < j); [|lia]. apply (Z.pow_lt_mono_r_iff 2); lia.
Qed.
Lemma fits x : 0 <= x -> x < 2 ^ Z.of_nat (Z.to_nat (bit_length x)).
Proof. intros H. destruct (bit_length_bound x H) as (H1 & H2 & _). rewrite Z2Nat.id by lia. exact H2. Qed.
Lemma some_bits x : 0 < x -> (0 < Z.to_nat (bit_length x))%nat.
Proof. intros H. destruct (bit_length_bound x ltac:(lia)) as (H1 & H2 & _). destruct (Z.eq_dec (bit_length x) 0) as [E|N]; [rewrite E in H2; cbn in H2; lia|lia]. Qed.

Lemma next_power_of_two_least x :
  exists k, 0 <= k /\ next_power_of_two x = 2 ^ k /\ x <= 2 ^ k /\ forall j, 0 <= j -> x <= 2 ^ j -> 2 ^ k <= 2 ^ j.
Proof.
  unfold next_power_of_two. assert (H : 0 <= Z.max (x - 1) 0) by lia. destruct (bit_length_bound _ H) as (H1 & H2 & H3).
  exists (bit_length (Z.max (x - 1) 0)). split; [exact H1|]. split; [rewrite Z.shiftl_mul_pow2 by exact H1; lia|]. split; [lia|].
  intros j Hj Hx. apply Z.pow_le_mono_r; [lia|]. apply H3; [exact Hj|]. pose proof (Z.pow_pos_nonneg 2 j ltac:(lia) Hj). lia.
Qed.
Lemma next_power_of_two_pos x : 0 < next_power_of_two x.
Proof. destruct (next_power_of_two_least x) as (k & Hk & -> & _). apply Z.pow_pos_nonneg; lia. Qed.

Lemma lcm_two x y : 0 < x -> 0 < y ->
  0 < x * y / Z.gcd x y /\ (x | x * y / Z.gcd x y) /\ (y | x * y / Z.gcd x y) /\
  forall k, (x | k) -> (y | k) -> (x * y / Z.gcd x y | k).
Proof.
  intros Hx Hy. assert (E : x * y / Z.gcd x y = Z.lcm x y).
  { unfold Z.lcm. rewrite Z.abs_eq.
    - apply Z.divide_div_mul_exact; [|apply Z.gcd_divide_r]. pose proof (Z.gcd_nonneg x y). intros C. apply Z.gcd_eq_0_l in C. lia.
    - apply Z.mul_nonneg_nonneg; [lia|]. apply Z.div_pos; [lia|]. pose proof (Z.gcd_nonneg x y). assert (Z.gcd x y <> 0) by (intros C; apply Z.gcd_eq_0_l in C; lia). lia. }
  rewrite E. pose proof (Z.lcm_nonneg x y). assert (Z.lcm x y <> 0) by (intros C; apply Z.lcm_eq_0 in C; lia).
  split; [lia|]. split; [apply Z.divide_lcm_l|]. split; [apply Z.divide_lcm_r|]. intros k. apply Z.lcm_least.
Qed.
Lemma lcm_least args : args <> [] -> (forall x, In x args -> 0 < x) ->
  exists v, lcm args = Some v /\ 0 < v /\ (forall x, In x args -> (x | v)) /\ forall k, (forall x, In x args -> (x | k)) -> (v | k).
Proof.
  induction args as [|x args IH]; [congruence|]. intros _ H. destruct args as [|y args].
  - exists x. split; [reflexivity|]. split; [apply H; left; reflexivity|]. split.
    + intros z [<-|[]]. apply Z.divide_refl.
    + intros k Hk. apply Hk. left. reflexivity.
  - destruct IH as (v & E & Hv & D & Le); [discriminate|intros z Hz; apply H; right; exact Hz|].
    pose proof (H x (or_introl eq_refl)) as Hx. destruct (lcm_two x v Hx Hv) as (P & D1 & D2 & L2).
    exists (x * v / Z.gcd x v). split; [change (lcm (x :: y :: args)) with (obind (lcm (y :: args)) (fun r => Some (x * r / Z.gcd x r))); rewrite E; reflexivity|].
    split; [exact P|]. split.
    + intros z [<-|Hz]; [exact D1|]. eapply Z.divide_trans; [apply D; exact Hz|exact D2].
    + intros k Hk. apply L2; [apply Hk; left; reflexivity|]. apply Le. intros z Hz. apply Hk. right. exact Hz.
Qed.

Lemma denominator_exact size : 0 < size ->
  0 < denominator size /\ (denominator size) * Z.gcd (next_power_of_two size) size = next_power_of_two size /\
  0 < full_flow size /\ (size | full_flow size) /\ (next_power_of_two size | full_flow size) /\
  forall k, (size | k) -> (next_power_of_two size | k) -> (full_flow size | k).
Proof.
  intros H. pose proof (next_power_of_two_pos size) as P. set (p := next_power_of_two size) in *.
  assert (G : Z.gcd p size <> 0) by (intros C; apply Z.gcd_eq_0_l in C; lia). pose proof (Z.gcd_nonneg p size) as G0.
  assert (Ed : denominator size * Z.gcd p size = p).
  { unfold denominator. fold p. destruct (Z.gcd_divide_l p size) as [k Hk]. rewrite Hk at 1. rewrite Z.div_mul by exact G. symmetry. exact Hk. }
  assert (D0 : 0 < denominator size) by nia.
  assert (Ef : full_flow size = Z.lcm p size).
  { unfold full_flow, denominator. fold p. rewrite Z.lcm_comm. unfold Z.lcm. rewrite (Z.gcd_comm size p). symmetry. apply Z.abs_eq.
    apply Z.mul_nonneg_nonneg; [lia|]. fold p in Ed. apply Z.div_pos; lia. }
  split; [exact D0|]. split; [exact Ed|]. split; [unfold full_flow; nia|]. rewrite Ef.
  split; [apply Z.divide_lcm_r|]. split; [apply Z.divide_lcm_l|]. intros k H1 H2. apply Z.lcm_least; assumption.
Qed.

Section Numbers.
  Variables n m M : Z.
  Hypothesis Hn : 0 < n.
  Hypothesis Hm : 0 < m.
  Hypothesis HM : max_belt_flow n m = Some M.

  Lemma max_flow_divides : 0 < M /\ (n | M) /\ (m | M) /\ (2 | M) /\ (next_power_of_two (Z.min n m) | M).
  Proof.
    unfold max_belt_flow in HM. destruct (lcm_least [next_power_of_two (Z.min n m); 2; n; m]) as (v & E & P & D & _); [discriminate| |].
    { intros x [<-|[<-|[<-|[<-|[]]]]]; [apply next_power_of_two_pos|lia|exact Hn|exact Hm]. }
    rewrite E in HM. assert (v = M) by congruence. subst v. split; [exact P|]. repeat split; apply D; cbn; tauto.
  Qed.
  Lemma forward_numbers :
    forward_input n m M * n = M * Z.min n m /\ forward_output n m M * m = forward_input n m M /\
    0 <= forward_output n m M /\ 0 < forward_input n m M <= M /\ forward_output n m M <= M.
  Proof.
    destruct max_flow_divides as (P & [a Ha] & [b Hb] & _). unfold forward_output, forward_input.
    assert (0 < a) by nia. assert (0 < b) by nia. destruct (Z.min_spec n m) as [[L ->]|[L ->]].
    - rewrite (Z.div_mul M n) by lia. assert (E : M / m = b) by (rewrite Hb; apply Z.div_mul; lia). rewrite E. repeat split; try lia; nia.
    - replace (M * m) with (a * m * n) by (rewrite Ha; ring). rewrite (Z.div_mul (a * m) n) by lia. rewrite (Z.div_mul a m) by lia. repeat split; try lia; nia.
  Qed.
  Lemma backward_numbers :
    backward_input n m M * m = M * Z.min n m /\ backward_output n m M * n = backward_input n m M /\
    0 <= backward_output n m M /\ 0 < backward_input n m M <= M /\ backward_output n m M <= M.
  Proof.
    destruct max_flow_divides as (P & [a Ha] & [b Hb] & _). unfold backward_output, backward_input.
    assert (0 < a) by nia. assert (0 < b) by nia. destruct (Z.min_spec n m) as [[L ->]|[L ->]].
    - replace (M * n) with (b * n * m) by (rewrite Hb; ring). rewrite (Z.div_mul (b * n) m) by lia. rewrite (Z.div_mul b n) by lia. repeat split; try lia; nia.
    - rewrite (Z.div_mul M m) by lia. assert (E : M / n = a) by (rewrite Ha; apply Z.div_mul; lia). rewrite E. repeat split; try lia; nia.
  Qed.
End Numbers.
