(** What flows through a cut of a rectangle is what enters before it minus
    what leaves before it. *)
From Coq Require Import ZArith List Bool Lia.
From Verif Require Import Spec_Tile Spec_Layout M_Json M_Tile M_Util M_Template P_List P_Template P_NetFree.
Import ListNotations.
Open Scope Z_scope.

Definition zrange (f : Z -> Z) (n : Z) : Z := zsum (map f (range n)).
Lemma range_snoc n : 0 <= n -> range (n + 1) = (range n ++ [n])%list.
Proof.
  intros H. unfold range. replace (Z.to_nat (n + 1)) with (S (Z.to_nat n)) by lia. rewrite seq_S, map_app. cbn [map]. rewrite Nat.add_0_l, Z2Nat.id by lia. reflexivity.
Qed.
Lemma zrange_0 f n : n <= 0 -> zrange f n = 0.
Proof. intros H. unfold zrange, range. replace (Z.to_nat n) with 0%nat by lia. reflexivity. Qed.
Lemma zrange_succ f n : 0 <= n -> zrange f (n + 1) = zrange f n + f n.
Proof. intros H. unfold zrange. rewrite (range_snoc n H), map_app, zsum_app. cbn [map zsum fold_right]. lia. Qed.
Lemma zrange_ext f k n : (forall i, 0 <= i < n -> f i = k i) -> zrange f n = zrange k n.
Proof. intros H. unfold zrange. apply zsum_ext. intros x Hx. apply H, range_in, Hx. Qed.
Lemma zrange_add f k n : zrange (fun i => f i + k i) n = zrange f n + zrange k n.
Proof. unfold zrange. apply zsum_add. Qed.
Lemma zrange_sub f k n : zrange (fun i => f i - k i) n = zrange f n - zrange k n.
Proof.
  assert (H : zrange f n = zrange (fun i => f i - k i) n + zrange k n) by (rewrite <- zrange_add; apply zrange_ext; intros; lia). lia.
Qed.
Lemma zrange_const c n : 0 <= n -> zrange (fun _ => c) n = n * c.
Proof.
  intros H. pattern n. apply natlike_ind; [reflexivity| |exact H]. intros x Hx E. unfold Z.succ. rewrite zrange_succ by exact Hx. rewrite E. lia.
Qed.
(** Induction over the numbers below a bound. *)
Lemma below_ind (P : Z -> Prop) n : P 0 -> (forall k, 0 <= k < n -> P k -> P (k + 1)) -> forall k, 0 <= k <= n -> P k.
Proof.
  intros H0 HS k [Hk Hn]. revert Hn. pattern k. apply natlike_ind; [intros _; exact H0| |exact Hk].
  intros x Hx IH Hn. apply HS; [lia|apply IH; lia].
Qed.
(** What each cell passes on is what the next one gets. *)
Lemma telescope (o i : Z -> Z) n : 1 <= n -> (forall k, 0 <= k < n - 1 -> o k = i (k + 1)) -> zrange o n - zrange i n = o (n - 1) - i 0.
Proof.
  intros Hn H. assert (X : forall k, 0 <= k <= n - 1 -> zrange o k - zrange i (k + 1) = - i 0).
  { apply (below_ind (fun k => zrange o k - zrange i (k + 1) = - i 0) (n - 1)).
    - rewrite zrange_0 by lia. rewrite (zrange_succ i 0), zrange_0 by lia. lia.
    - intros k Hk IH. rewrite (zrange_succ i (k + 1)), (zrange_succ o k) by lia. rewrite (H k Hk). lia. }
  specialize (X (n - 1) ltac:(lia)). replace (n - 1 + 1) with n in X by lia. replace n with (n - 1 + 1) at 1 by lia. rewrite zrange_succ by lia. lia.
Qed.

Section Flux.
  Variables w h : Z.
  Hypothesis Hw : 1 <= w.
  Hypothesis Hh : 1 <= h.
  (** What leaves a cell in a direction, and what comes into it. *)
  Variables X Y : dir -> pos -> Z.
  Definition within (p : pos) : Prop := 0 <= fst p < w /\ 0 <= snd p < h.
  Hypothesis Cell : forall p, within p -> X RIGHT p + X UP p + X LEFT p + X DOWN p = Y RIGHT p + Y UP p + Y LEFT p + Y DOWN p.
  Hypothesis Link : forall d p, within p -> within (fst p + step_x d, snd p + step_y d) -> X d p = Y d (fst p + step_x d, snd p + step_y d).
  Hypothesis Top : forall x, 0 <= x < w -> X UP (x, 0) = 0 /\ Y DOWN (x, 0) = 0.
  Hypothesis Bottom : forall x, 0 <= x < w -> X DOWN (x, h - 1) = 0 /\ Y UP (x, h - 1) = 0.
  Hypothesis Left : forall y, 0 <= y < h -> X LEFT (0, y) = 0.
  Hypothesis Right : forall y, 0 <= y < h -> Y LEFT (w - 1, y) = 0.

  Lemma row_balance y : 0 <= y < h ->
    zrange (fun x => X DOWN (x, y) - Y UP (x, y)) w = zrange (fun x => Y DOWN (x, y) - X UP (x, y)) w + Y RIGHT (0, y) - X RIGHT (w - 1, y).
  Proof.
    intros Hy. rewrite !zrange_sub.
    assert (E1 : zrange (fun x => X RIGHT (x, y)) w - zrange (fun x => Y RIGHT (x, y)) w = X RIGHT (w - 1, y) - Y RIGHT (0, y)).
    { apply (telescope (fun x => X RIGHT (x, y)) (fun x => Y RIGHT (x, y)) w Hw). intros k Hk. pose proof (Link RIGHT (k, y)) as L. cbn [step_x step_y fst snd] in L. rewrite Z.add_0_r in L. apply L; split; cbn [fst snd]; lia. }
    assert (E2 : zrange (fun x => Y LEFT (x, y)) w - zrange (fun x => X LEFT (x, y)) w = Y LEFT (w - 1, y) - X LEFT (0, y)).
    { apply (telescope (fun x => Y LEFT (x, y)) (fun x => X LEFT (x, y)) w Hw). intros k Hk. pose proof (Link LEFT (k + 1, y)) as L. cbn [step_x step_y fst snd] in L. rewrite Z.add_0_r in L. replace (k + 1 + -1) with k in L by lia. symmetry. apply L; split; cbn [fst snd]; lia. }
    rewrite Left, Right in E2 by exact Hy.
    assert (E3 : zrange (fun x => X RIGHT (x, y) + X UP (x, y) + X LEFT (x, y) + X DOWN (x, y)) w = zrange (fun x => Y RIGHT (x, y) + Y UP (x, y) + Y LEFT (x, y) + Y DOWN (x, y)) w).
    { apply zrange_ext. intros i Hi. apply Cell. split; cbn [fst snd]; lia. }
    rewrite !zrange_add in E3. lia.
  Qed.
  (** Down through the line below row [y]. *)
  Theorem rows_flux y : 0 <= y < h - 1 ->
    zrange (fun x => X DOWN (x, y) - X UP (x, y + 1)) w = zrange (fun k => Y RIGHT (0, k) - X RIGHT (w - 1, k)) (y + 1).
  Proof.
    assert (St : forall k, 0 <= k < h - 1 -> zrange (fun x => X DOWN (x, k) - Y UP (x, k)) w = zrange (fun x => Y DOWN (x, k + 1) - X UP (x, k + 1)) w).
    { intros k Hk. apply zrange_ext. intros x Hx. pose proof (Link DOWN (x, k)) as L1. pose proof (Link UP (x, k + 1)) as L2. cbn [step_x step_y fst snd] in L1, L2.
      rewrite Z.add_0_r in L1, L2. replace (k + 1 + -1) with k in L2 by lia. rewrite L1, L2; (split; cbn [fst snd]; lia). }
    assert (M : forall k, 0 <= k <= h - 1 -> zrange (fun x => Y DOWN (x, k) - X UP (x, k)) w = zrange (fun j => Y RIGHT (0, j) - X RIGHT (w - 1, j)) k).
    { apply (below_ind (fun k => zrange (fun x => Y DOWN (x, k) - X UP (x, k)) w = zrange (fun j => Y RIGHT (0, j) - X RIGHT (w - 1, j)) k) (h - 1)).
      - transitivity (zrange (fun _ => 0) w); [|rewrite zrange_const, zrange_0 by lia; lia]. apply zrange_ext. intros x Hx. destruct (Top x Hx) as [-> ->]. reflexivity.
      - intros k Hk IH. rewrite <- St by exact Hk. rewrite row_balance by lia. rewrite IH, zrange_succ by lia. lia. }
    intros Hy. rewrite <- (M (y + 1)) by lia. apply zrange_ext. intros x Hx. pose proof (Link DOWN (x, y)) as L1. cbn [step_x step_y fst snd] in L1. rewrite Z.add_0_r in L1.
    rewrite L1; (split; cbn [fst snd]; lia).
  Qed.

  Lemma column_balance x : 0 <= x < w ->
    zrange (fun y => X RIGHT (x, y) - Y LEFT (x, y)) h = zrange (fun y => Y RIGHT (x, y) - X LEFT (x, y)) h.
  Proof.
    intros Hx. rewrite !zrange_sub.
    assert (E1 : zrange (fun y => X DOWN (x, y)) h - zrange (fun y => Y DOWN (x, y)) h = X DOWN (x, h - 1) - Y DOWN (x, 0)).
    { apply (telescope (fun y => X DOWN (x, y)) (fun y => Y DOWN (x, y)) h Hh). intros k Hk. pose proof (Link DOWN (x, k)) as L. cbn [step_x step_y fst snd] in L. rewrite Z.add_0_r in L. apply L; split; cbn [fst snd]; lia. }
    assert (E2 : zrange (fun y => Y UP (x, y)) h - zrange (fun y => X UP (x, y)) h = Y UP (x, h - 1) - X UP (x, 0)).
    { apply (telescope (fun y => Y UP (x, y)) (fun y => X UP (x, y)) h Hh). intros k Hk. pose proof (Link UP (x, k + 1)) as L. cbn [step_x step_y fst snd] in L. rewrite Z.add_0_r in L. replace (k + 1 + -1) with k in L by lia. symmetry. apply L; split; cbn [fst snd]; lia. }
    destruct (Top x Hx) as [T1 T2]. destruct (Bottom x Hx) as [B1 B2]. rewrite T2, B1 in E1. rewrite T1, B2 in E2.
    assert (E3 : zrange (fun y => X RIGHT (x, y) + X UP (x, y) + X LEFT (x, y) + X DOWN (x, y)) h = zrange (fun y => Y RIGHT (x, y) + Y UP (x, y) + Y LEFT (x, y) + Y DOWN (x, y)) h).
    { apply zrange_ext. intros i Hi. apply Cell. split; cbn [fst snd]; lia. }
    rewrite !zrange_add in E3. lia.
  Qed.
  (** To the right through the line after column [x]. *)
  Theorem columns_flux x : 0 <= x < w - 1 ->
    zrange (fun y => X RIGHT (x, y) - X LEFT (x + 1, y)) h = zrange (fun y => Y RIGHT (0, y)) h.
  Proof.
    assert (St : forall k, 0 <= k < w - 1 -> zrange (fun y => X RIGHT (k, y) - Y LEFT (k, y)) h = zrange (fun y => Y RIGHT (k + 1, y) - X LEFT (k + 1, y)) h).
    { intros k Hk. apply zrange_ext. intros y Hy. pose proof (Link RIGHT (k, y)) as L1. pose proof (Link LEFT (k + 1, y)) as L2. cbn [step_x step_y fst snd] in L1, L2.
      rewrite Z.add_0_r in L1, L2. replace (k + 1 + -1) with k in L2 by lia. rewrite L1, L2; (split; cbn [fst snd]; lia). }
    assert (M : forall k, 0 <= k <= w - 1 -> zrange (fun y => Y RIGHT (k, y) - X LEFT (k, y)) h = zrange (fun y => Y RIGHT (0, y)) h).
    { apply (below_ind (fun k => zrange (fun y => Y RIGHT (k, y) - X LEFT (k, y)) h = zrange (fun y => Y RIGHT (0, y)) h) (w - 1)).
      - apply zrange_ext. intros y Hy. rewrite Left by exact Hy. lia.
      - intros k Hk IH. rewrite <- St by exact Hk. rewrite column_balance by lia. exact IH. }
    intros Hx. rewrite <- (M (x + 1)) by lia. apply zrange_ext. intros y Hy. pose proof (Link RIGHT (x, y)) as L1. cbn [step_x step_y fst snd] in L1. rewrite Z.add_0_r in L1.
    rewrite L1; (split; cbn [fst snd]; lia).
  Qed.
End Flux.
