(** Walking on the (possibly wrapping) rectangle. *)
From Coq Require Import ZArith List Bool Lia.
From Verif Require Import Spec_Tile Spec_Layout P_Layout.
Open Scope Z_scope.

Definition wf_area (A : area) : Prop := 0 < aw A /\ 0 < ah A.

Lemma place_shift A p q u v : wf_area A -> place A p = Some q ->
  place A (fst q + u, snd q + v) = place A (fst p + u, snd p + v).
Proof.
  intros [Hw Hh]. unfold place. destruct (insideb A _) eqn:E; [|discriminate]. intros [= <-]. cbn [fst snd].
  assert (X : (if wrapx A then ((if wrapx A then fst p mod aw A else fst p) + u) mod aw A else (if wrapx A then fst p mod aw A else fst p) + u)
     = (if wrapx A then (fst p + u) mod aw A else fst p + u)).
  { destruct (wrapx A); [|reflexivity]. apply Z.add_mod_idemp_l. lia. }
  assert (Y : (if wrapy A then ((if wrapy A then snd p mod ah A else snd p) + v) mod ah A else (if wrapy A then snd p mod ah A else snd p) + v)
     = (if wrapy A then (snd p + v) mod ah A else snd p + v)).
  { destruct (wrapy A); [|reflexivity]. apply Z.add_mod_idemp_l. lia. }
  rewrite X, Y. reflexivity.
Qed.

Lemma place_self A p : inside A p -> place A p = Some p.
Proof.
  intros [Hx Hy]. unfold place. rewrite !Z.mod_small by lia.
  replace (if wrapx A then fst p else fst p) with (fst p) by (destruct (wrapx A); reflexivity).
  replace (if wrapy A then snd p else snd p) with (snd p) by (destruct (wrapy A); reflexivity).
  rewrite <- surjective_pairing. rewrite (proj2 (insideb_iff A p)); [reflexivity|split; assumption].
Qed.

Lemma ahead_0 A p d : inside A p -> ahead A p d 0 = Some p.
Proof. intros H. unfold ahead. rewrite !Z.mul_0_l, !Z.add_0_r, <- surjective_pairing. apply place_self. exact H. Qed.

Lemma ahead_add A p d j k q : wf_area A -> ahead A p d j = Some q -> ahead A q d k = ahead A p d (j + k).
Proof.
  intros HA H. unfold ahead in *. rewrite (place_shift A _ q _ _ HA H). cbn [fst snd]. f_equal. f_equal; ring.
Qed.

Lemma ahead_opposite A p d k : ahead A p (opposite d) k = ahead A p d (- k).
Proof. unfold ahead. f_equal. destruct d; cbn; f_equal; ring. Qed.

Lemma opposite_opposite d : opposite (opposite d) = d.
Proof. destruct d; reflexivity. Qed.

Lemma ahead_back A p d k q : wf_area A -> inside A p -> ahead A p d k = Some q -> ahead A q d (- k) = Some p.
Proof. intros HA Hp H. rewrite (ahead_add A p d k (- k) q HA H). rewrite Z.add_opp_diag_r. apply ahead_0. exact Hp. Qed.

Lemma neighbour_back A p d q : wf_area A -> inside A p -> neighbour A p d = Some q -> neighbour A q (opposite d) = Some p.
Proof. intros HA Hp H. unfold neighbour in *. rewrite ahead_opposite. apply ahead_back; assumption. Qed.

(** Size of the rectangle along a direction, and whether it wraps. *)
Definition extent (A : area) (d : dir) : Z := match d with RIGHT | LEFT => aw A | _ => ah A end.
Definition wraps (A : area) (d : dir) : bool := match d with RIGHT | LEFT => wrapx A | _ => wrapy A end.

Lemma ahead_extent A p d : wf_area A -> inside A p ->
  ahead A p d (extent A d) = if wraps A d then Some p else None.
Proof.
  intros [Hw Hh] [Hx Hy]. unfold ahead, place, insideb.
  destruct p as [x y]. cbn [fst snd] in *.
  destruct d; cbn [step_x step_y extent wraps]; cbn [fst snd];
    rewrite ?Z.mul_1_r, ?Z.mul_0_r, ?Z.add_0_r.
  1,3: replace (if wrapy A then y mod ah A else y) with y by (destruct (wrapy A); [symmetry; apply Z.mod_small; lia|reflexivity]).
  3,4: replace (if wrapx A then x mod aw A else x) with x by (destruct (wrapx A); [symmetry; apply Z.mod_small; lia|reflexivity]).
  - destruct (wrapx A).
    + replace ((x + aw A) mod aw A) with x by (rewrite <- (Z.mul_1_l (aw A)) at 1; rewrite Z.mod_add by lia; symmetry; apply Z.mod_small; lia).
      destruct (Z.leb_spec 0 x), (Z.ltb_spec x (aw A)), (Z.leb_spec 0 y), (Z.ltb_spec y (ah A)); cbn; try lia. reflexivity.
    + destruct (Z.ltb_spec (x + aw A) (aw A)); [lia|]. rewrite andb_false_r. reflexivity.
  - destruct (wrapx A).
    + replace ((x + aw A * -1) mod aw A) with x by (rewrite (Z.mul_comm (aw A)); rewrite Z.mod_add by lia; symmetry; apply Z.mod_small; lia).
      destruct (Z.leb_spec 0 x), (Z.ltb_spec x (aw A)), (Z.leb_spec 0 y), (Z.ltb_spec y (ah A)); cbn; try lia. reflexivity.
    + destruct (Z.leb_spec 0 (x + aw A * -1)); [lia|]. reflexivity.
  - destruct (wrapy A).
    + replace ((y + ah A * -1) mod ah A) with y by (rewrite (Z.mul_comm (ah A)); rewrite Z.mod_add by lia; symmetry; apply Z.mod_small; lia).
      destruct (Z.leb_spec 0 x), (Z.ltb_spec x (aw A)), (Z.leb_spec 0 y), (Z.ltb_spec y (ah A)); cbn; try lia. reflexivity.
    + destruct (Z.leb_spec 0 (y + ah A * -1)); [lia|]. rewrite andb_false_l, andb_false_r. reflexivity.
  - destruct (wrapy A).
    + replace ((y + ah A) mod ah A) with y by (rewrite <- (Z.mul_1_l (ah A)) at 1; rewrite Z.mod_add by lia; symmetry; apply Z.mod_small; lia).
      destruct (Z.leb_spec 0 x), (Z.ltb_spec x (aw A)), (Z.leb_spec 0 y), (Z.ltb_spec y (ah A)); cbn; try lia. reflexivity.
    + destruct (Z.ltb_spec (y + ah A) (ah A)); [lia|]. rewrite !andb_false_r. reflexivity.
Qed.

(** Leaving the rectangle: only across a closed edge. *)
Lemma neighbour_none A p d : wf_area A -> inside A p -> neighbour A p d = None ->
  wraps A d = false /\
  match d with RIGHT => fst p = aw A - 1 | LEFT => fst p = 0 | UP => snd p = 0 | DOWN => snd p = ah A - 1 end.
Proof.
  intros [Hw Hh] [Hx Hy]. unfold neighbour, ahead, place, insideb. destruct p as [x y]. cbn [fst snd] in *.
  destruct d; cbn [step_x step_y wraps]; cbn [fst snd]; rewrite ?Z.mul_1_l, ?Z.add_0_r.
  1,3: replace (if wrapy A then y mod ah A else y) with y by (destruct (wrapy A); [symmetry; apply Z.mod_small; lia|reflexivity]).
  3,4: replace (if wrapx A then x mod aw A else x) with x by (destruct (wrapx A); [symmetry; apply Z.mod_small; lia|reflexivity]).
  1,2: destruct (wrapx A).
  5,6: destruct (wrapy A).
  1: pose proof (Z.mod_pos_bound (x + 1) (aw A) Hw).
  3: pose proof (Z.mod_pos_bound (x + -1) (aw A) Hw).
  5: pose proof (Z.mod_pos_bound (y + -1) (ah A) Hh).
  7: pose proof (Z.mod_pos_bound (y + 1) (ah A) Hh).
  all: repeat match goal with |- context [Z.leb ?u ?v] => destruct (Z.leb_spec u v) | |- context [Z.ltb ?u ?v] => destruct (Z.ltb_spec u v) end;
    cbn; intros E; try discriminate; split; try reflexivity; lia.
Qed.

(** Finite search. *)
Lemma first_failure (P : Z -> bool) n : 0 <= n -> ~ (forall k, 1 <= k <= n -> P k = true) ->
  exists k, 1 <= k <= n /\ P k = false /\ forall j, 1 <= j < k -> P j = true.
Proof.
  intros Hn. pattern n. apply natlike_ind; [| |exact Hn]; clear n Hn.
  - intros H. exfalso. apply H. intros k Hk. lia.
  - intros n Hn IH H.
    destruct (P (Z.succ n)) eqn:E.
    + destruct IH as (k & Hk & Ek & Hj).
      { intros C. apply H. intros k Hk. destruct (Z.eq_dec k (Z.succ n)) as [->|]; [exact E|apply C; lia]. }
      exists k. split; [lia|auto].
    + destruct (forallb P (List.map Z.of_nat (List.seq 1 (Z.to_nat n)))) eqn:F.
      * exists (Z.succ n). split; [lia|]. split; [exact E|]. intros j Hj.
        rewrite forallb_forall in F. apply F. apply List.in_map_iff. exists (Z.to_nat j). split; [lia|]. apply List.in_seq. lia.
      * destruct IH as (k & Hk & Ek & Hj).
        { intros C. enough (forallb P (List.map Z.of_nat (List.seq 1 (Z.to_nat n))) = true) by congruence.
          apply forallb_forall. intros z Hz. apply List.in_map_iff in Hz. destruct Hz as (i & <- & Hi). apply List.in_seq in Hi. apply C. lia. }
        exists k. split; [lia|auto].
Qed.
