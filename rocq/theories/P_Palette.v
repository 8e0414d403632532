(** Proofs about the palette. *)
From Coq Require Import ZArith QArith Qround Qabs List Bool Lqa Lia.
From Verif Require Import M_Json M_Palette.
Import ListNotations.
Open Scope Q_scope.

Definition same_paint (a b : paint) : Prop := let '(r, g, b1) := a in let '(r', g', b') := b in r == r' /\ g == g' /\ b1 == b'.

Lemma qmod_small a b : 0 < b -> 0 <= a -> a < b -> qmod a b == a.
Proof.
  intros Hb H0 H1. unfold qmod. assert (E : Qfloor (a / b) = 0%Z).
  { assert (L : (0 <= Qfloor (a / b))%Z). { change 0%Z with (Qfloor 0). apply Qfloor_resp_le. apply Qle_shift_div_l; [exact Hb|]. lra. }
    assert (U : (Qfloor (a / b) < 1)%Z). { rewrite Zlt_Qlt. apply Qle_lt_trans with (a / b); [apply Qfloor_le|]. apply Qlt_shift_div_r; [exact Hb|]. change (inject_Z 1) with 1. lra. }
    lia. }
  rewrite E. change (inject_Z 0) with 0. lra.
Qed.
Lemma qmod_next a b k : 0 < b -> inject_Z k * b <= a -> a < (inject_Z k + 1) * b -> qmod a b == a - inject_Z k * b.
Proof.
  intros Hb H0 H1. unfold qmod. assert (E : Qfloor (a / b) = k).
  { assert (L : (k <= Qfloor (a / b))%Z). { rewrite <- (Qfloor_Z k). apply Qfloor_resp_le. apply Qle_shift_div_l; [exact Hb|]. exact H0. }
    assert (U : (Qfloor (a / b) < k + 1)%Z). { rewrite Zlt_Qlt. apply Qle_lt_trans with (a / b); [apply Qfloor_le|]. apply Qlt_shift_div_r; [exact Hb|]. rewrite inject_Z_plus. exact H1. }
    lia. }
  rewrite E. lra.
Qed.
(** The wheel of hues: three linear functions on six parts. *)
Definition wheel (c h : Q) : paint :=
  if above h 5 then (c, 0, c * (6 - h))
  else if above h 4 then (c * (h - 4), 0, c)
  else if above h 3 then (0, c * (4 - h), c)
  else if above h 2 then (0, c, c * (h - 2))
  else if above h 1 then (c * (2 - h), c, 0)
  else (c, c * h, 0).
Lemma above_spec a b : above a b = true <-> b < a.
Proof. unfold above. rewrite negb_true_iff, <- not_true_iff_false, Qle_bool_iff. split; intros; lra. Qed.
Lemma above_not a b : above a b = false <-> a <= b.
Proof. unfold above. rewrite negb_false_iff, Qle_bool_iff. reflexivity. Qed.
Ltac sector := repeat match goal with |- context [above ?a ?b] => let E := fresh in destruct (above a b) eqn:E; [apply above_spec in E | apply above_not in E] end.
Lemma tri h : 0 <= h -> h < 6 ->
  let x := 1 - Qabs (qmod h 2 - 1) in
  (h <= 1 -> x == h) /\ (1 < h -> h <= 2 -> x == 2 - h) /\ (2 < h -> h <= 3 -> x == h - 2) /\ (3 < h -> h <= 4 -> x == 4 - h) /\ (4 < h -> h <= 5 -> x == h - 4) /\ (5 < h -> x == 6 - h).
Proof.
  intros H0 H6 x. subst x.
  assert (A : forall q, 0 <= q -> Qabs q == q) by (intros; apply Qabs_pos; assumption).
  assert (B : forall q, q <= 0 -> Qabs q == - q) by (intros; apply Qabs_neg; assumption).
  assert (Q0 : h < 2 -> qmod h 2 == h) by (intros; apply qmod_small; lra).
  assert (Q1 : 2 <= h -> h < 4 -> qmod h 2 == h - 2) by (intros; rewrite (qmod_next h 2 1); change (inject_Z 1) with 1; lra).
  assert (Q2 : 4 <= h -> qmod h 2 == h - 4) by (intros; rewrite (qmod_next h 2 2); change (inject_Z 2) with 2; lra).
  repeat split; intros.
  - rewrite Q0 by lra. rewrite B by lra. lra.
  - destruct (Qlt_le_dec h 2); [rewrite Q0 by lra; rewrite A by lra; lra|]. rewrite Q1 by lra. rewrite B by lra. lra.
  - rewrite Q1 by lra. rewrite B by lra. lra.
  - destruct (Qlt_le_dec h 4); [rewrite Q1 by lra; rewrite A by lra; lra|]. rewrite Q2 by lra. rewrite B by lra. lra.
  - rewrite Q2 by lra. rewrite B by lra. lra.
  - rewrite Q2 by lra. rewrite A by lra. lra.
Qed.
Lemma above_comp a b c : a == b -> above a c = above b c.
Proof. intros E. destruct (above b c) eqn:K; [apply above_spec in K; apply above_spec; lra|apply above_not in K; apply above_not; lra]. Qed.
Lemma qmod_comp a a' b : a == a' -> qmod a b == qmod a' b.
Proof. intros E. unfold qmod. rewrite (Qfloor_comp (a / b) (a' / b)) by (rewrite E; reflexivity). rewrite E. reflexivity. Qed.

(** What HSVtoRGB gives for a hue of the circle. *)
Lemma hsv_wheel hue s v : 0 <= hue -> hue < 1 ->
  let '(r, g, b) := wheel (v * s) (hue * 6) in same_paint (hsv_to_rgb hue s v) (r + (v - v * s), g + (v - v * s), b + (v - v * s)).
Proof.
  intros H0 H1. unfold hsv_to_rgb. set (h := qmod hue 1 * 6). assert (Eh : h == hue * 6) by (unfold h; rewrite (qmod_small hue 1) by lra; reflexivity).
  unfold wheel. rewrite !(above_comp _ _ _ Eh). clearbody h. destruct (tri (hue * 6)) as (T1 & T2 & T3 & T4 & T5 & T6); [lra|lra|].
  assert (Ex : 1 - Qabs (qmod h 2 - 1) == 1 - Qabs (qmod (hue * 6) 2 - 1)) by (rewrite (qmod_comp _ _ 2 Eh); reflexivity).
  sector; cbn; repeat split; try lra; rewrite Ex.
  - rewrite T6 by lra. reflexivity.
  - rewrite T5 by lra. reflexivity.
  - rewrite T4 by lra. reflexivity.
  - rewrite T3 by lra. reflexivity.
  - rewrite T2 by lra. reflexivity.
  - rewrite T1 by lra. reflexivity.
Qed.
Lemma mul_cancel c a b : 0 < c -> c * a == c * b -> a == b.
Proof. intros Hc H. apply (Qmult_inj_l a b c); [intros E; lra|exact H]. Qed.
Lemma wheel_inj c g h : 0 < c -> 0 <= g -> g < 6 -> 0 <= h -> h < 6 -> same_paint (wheel c g) (wheel c h) -> g == h.
Proof.
  intros Hc G0 G6 H0 H6. unfold wheel. sector; cbn; intros (E1 & E2 & E3);
  repeat match goal with
  | E : c * _ == c * _ |- _ => apply (mul_cancel c _ _ Hc) in E
  | E : c == c * ?a |- _ => assert (a == 1) by (apply (mul_cancel c _ _ Hc); rewrite <- E; lra); clear E
  | E : c * ?a == c |- _ => assert (a == 1) by (apply (mul_cancel c _ _ Hc); rewrite E; lra); clear E
  | E : 0 == c * ?a |- _ => assert (a == 0) by (apply (mul_cancel c _ _ Hc); rewrite <- E; lra); clear E
  | E : c * ?a == 0 |- _ => assert (a == 0) by (apply (mul_cancel c _ _ Hc); rewrite E; lra); clear E
  end; lra.
Qed.
Lemma hsv_inj g h s v : 0 < v * s -> 0 <= g -> g < 1 -> 0 <= h -> h < 1 -> same_paint (hsv_to_rgb g s v) (hsv_to_rgb h s v) -> g == h.
Proof.
  intros Hc G0 G1 H0 H1 E. pose proof (hsv_wheel g s v G0 G1) as A. pose proof (hsv_wheel h s v H0 H1) as B.
  assert (W : same_paint (wheel (v * s) (g * 6)) (wheel (v * s) (h * 6))).
  { destruct (wheel (v * s) (g * 6)) as [[r1 g1] b1], (wheel (v * s) (h * 6)) as [[r2 g2] b2]. destruct (hsv_to_rgb g s v) as [[r3 g3] b3], (hsv_to_rgb h s v) as [[r4 g4] b4]. cbn in *. repeat split; lra. }
  apply wheel_inj in W; lra.
Qed.
Lemma hsv_range h s v : 0 <= s -> 0 <= v -> 0 <= h -> h < 1 ->
  let '(r, g, b) := hsv_to_rgb h s v in (v - v * s <= r <= v) /\ (v - v * s <= g <= v) /\ (v - v * s <= b <= v) /\ (r == v \/ g == v \/ b == v).
Proof.
  intros Hs Hv H0 H1. pose proof (hsv_wheel h s v H0 H1) as A. assert (Hc : 0 <= v * s) by (apply Qmult_le_0_compat; assumption).
  destruct (hsv_to_rgb h s v) as [[r3 g3] b3]. revert A. unfold wheel.
  assert (M : forall a, 0 <= a -> a <= 1 -> 0 <= v * s * a <= v * s). { intros a A0 A1. split; [apply Qmult_le_0_compat; assumption|]. rewrite <- (Qmult_1_r (v * s)) at 2. rewrite !(Qmult_comm (v * s)). apply Qmult_le_compat_r; assumption. }
  set (c := v * s) in *.
  sector; cbn; intros (E1 & E2 & E3).
  - destruct (M (6 - h * 6)); [lra..|]. repeat split; try lra.
  - destruct (M (h * 6 - 4)); [lra..|]. repeat split; try lra.
  - destruct (M (4 - h * 6)); [lra..|]. repeat split; try lra.
  - destruct (M (h * 6 - 2)); [lra..|]. repeat split; try lra.
  - destruct (M (2 - h * 6)); [lra..|]. repeat split; try lra.
  - destruct (M (h * 6)); [lra..|]. repeat split; try lra.
Qed.
Lemma share_range i n : (i < n)%nat -> 0 <= inject_Z (Z.of_nat i) / inject_Z (Z.of_nat n) /\ inject_Z (Z.of_nat i) / inject_Z (Z.of_nat n) < 1.
Proof.
  intros H. assert (P : 0 < inject_Z (Z.of_nat n)) by (change 0 with (inject_Z 0); rewrite <- Zlt_Qlt; lia). split.
  - apply Qle_shift_div_l; [exact P|]. rewrite Qmult_0_l. change 0 with (inject_Z 0). rewrite <- Zle_Qle. lia.
  - apply Qlt_shift_div_r; [exact P|]. rewrite Qmult_1_l. rewrite <- Zlt_Qlt. lia.
Qed.
Lemma share_inj i j n : (0 < n)%nat -> inject_Z (Z.of_nat i) / inject_Z (Z.of_nat n) == inject_Z (Z.of_nat j) / inject_Z (Z.of_nat n) -> i = j.
Proof.
  intros H E. assert (P : 0 < inject_Z (Z.of_nat n)) by (change 0 with (inject_Z 0); rewrite <- Zlt_Qlt; lia).
  assert (K : inject_Z (Z.of_nat i) == inject_Z (Z.of_nat j)).
  { rewrite <- (Qmult_div_r (inject_Z (Z.of_nat i)) (inject_Z (Z.of_nat n))) by (intros X; lra). rewrite E. apply Qmult_div_r. intros X; lra. }
  rewrite inject_Z_injective in K. lia.
Qed.
Lemma palette_length n : length (create_palette n) = n.
Proof.
  unfold create_palette. destruct (Nat.eqb_spec n 1); [subst; reflexivity|]. destruct (Nat.leb_spec n 3); [|rewrite map_length, seq_length; reflexivity]. destruct n as [|[|[|[|n]]]]; try reflexivity; lia.
Qed.
Lemma palette_nth n i : (4 <= n)%nat -> (i < n)%nat -> nth_error (create_palette n) i = Some (hsv_to_rgb (inject_Z (Z.of_nat i) / inject_Z (Z.of_nat n)) (2 # 5) 1).
Proof.
  intros H Hi. unfold create_palette. destruct (Nat.eqb_spec n 1); [lia|]. destruct (Nat.leb_spec n 3); [lia|]. rewrite nth_error_map.
  rewrite (nth_error_nth' (seq 0 n) 0%nat) by (rewrite seq_length; exact Hi). rewrite seq_nth by exact Hi. reflexivity.
Qed.
Lemma palette_inj n i j p q : nth_error (create_palette n) i = Some p -> nth_error (create_palette n) j = Some q -> same_paint p q -> i = j.
Proof.
  intros Hi Hj E. assert (Li : (i < n)%nat) by (rewrite <- (palette_length n); apply nth_error_Some; congruence). assert (Lj : (j < n)%nat) by (rewrite <- (palette_length n); apply nth_error_Some; congruence).
  destruct (le_lt_dec 4 n) as [Hn|Hn].
  - rewrite (palette_nth n i Hn Li) in Hi. rewrite (palette_nth n j Hn Lj) in Hj. injection Hi as <-. injection Hj as <-. pose proof (share_range i n Li). pose proof (share_range j n Lj). apply hsv_inj in E; try tauto; [|reflexivity]. apply (share_inj i j n); [lia|exact E].
  - destruct n as [|[|[|[|n]]]]; try lia; destruct i as [|[|[|i]]]; try lia; destruct j as [|[|[|j]]]; try lia; cbn in Hi, Hj; injection Hi as <-; injection Hj as <-; cbn in E; exfalso; destruct E as (E1 & E2 & E3); lra.
Qed.
Definition bright (p : paint) : Prop := let '(r, g, b) := p in (1 # 2 <= r <= 1) /\ (1 # 2 <= g <= 1) /\ (1 # 2 <= b <= 1) /\ (r == 1 \/ g == 1 \/ b == 1).
Lemma palette_bright n i p : nth_error (create_palette n) i = Some p -> bright p.
Proof.
  intros Hi. assert (Li : (i < n)%nat) by (rewrite <- (palette_length n); apply nth_error_Some; congruence).
  destruct (le_lt_dec 4 n) as [Hn|Hn].
  - rewrite (palette_nth n i Hn Li) in Hi. injection Hi as <-. destruct (share_range i n Li) as [S0 S1]. pose proof (hsv_range _ (2 # 5) 1 ltac:(lra) ltac:(lra) S0 S1) as R. destruct (hsv_to_rgb _ _ _) as [[r g] b]. unfold bright. assert (X : 1 - 1 * (2 # 5) == 3 # 5) by reflexivity. destruct R as (R1 & R2 & R3 & R4). repeat split; try lra.
  - destruct n as [|[|[|[|n]]]]; try lia; destruct i as [|[|[|i]]]; try lia; cbn in Hi; injection Hi as <-; unfold bright; repeat split; try lra.
Qed.
Lemma bright_not_grey p : bright p -> ~ same_paint p grey.
Proof. destruct p as [[r g] b]. unfold bright, grey, same_paint. intros (H1 & H2 & H3 & H4) (E1 & E2 & E3). lra. Qed.
