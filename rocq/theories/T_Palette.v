(** Property theorems C104: the colours of a rendered layout. *)
From Coq Require Import String ZArith QArith List Bool Lia Sorted.
From Verif Require Import M_Json M_Palette P_Palette Spec_Palette P_Palette2.
Import ListNotations.
Open Scope Z_scope.

(** A palette has as many colours as asked for, all different, and none is dark or
    the grey of cells without colour. *)
Theorem C104_palette n : length (create_palette n) = n /\
  (forall i j p q, nth_error (create_palette n) i = Some p -> nth_error (create_palette n) j = Some q -> alike p q -> i = j) /\
  (forall r g b, In (r, g, b) (create_palette n) -> ((1 # 2) <= r <= 1 /\ (1 # 2) <= g <= 1 /\ (1 # 2) <= b <= 1)%Q /\ ~ alike (r, g, b) grey).
Proof.
  split; [apply palette_length|]. split.
  - intros i j p q Hi Hj E. apply (palette_inj n i j p q Hi Hj). apply alike_same. exact E.
  - intros r g b I. apply In_nth_error in I. destruct I as (i & I). pose proof (palette_bright n i _ I) as B. split; [destruct B as (B1 & B2 & B3 & _); auto|]. intros E. apply alike_same in E. exact (bright_not_grey _ B E).
Qed.

(** Every cell can be painted, and two are painted alike exactly when their
    colours are equal. *)
Theorem C104_paints cells : (forall c, In c cells -> coloured c) ->
  forall key cell, In cell cells -> In key keys -> exists c p, colour_under key cell c /\ paint_of None cells key cell = Some p /\
  forall key' cell' c' p', In cell' cells -> In key' keys -> colour_under key' cell' c' -> paint_of None cells key' cell' = Some p' ->
    (alike p p' <-> c = c').
Proof.
  intros C. destruct (all_spec cells C) as (all & E & Inc & H).
  assert (N : NoDup all) by (apply increasing_nodup; exact Inc).
  assert (Z : forall key cell n, In cell cells -> In key keys -> colour_under key cell (Some n) -> exists i p, nth_error all i = Some n /\ nth_error (create_palette (length all)) i = Some p /\ zip_lookup n all (create_palette (length all)) = Some p).
  { intros key cell n Ic Ik U. apply zip_lookup_spec; [exact N|rewrite palette_length; lia|]. apply H. exists cell. split; [exact Ic|]. exact (under_occurs key cell n (C _ Ic) Ik U). }
  assert (R : forall key cell c, In cell cells -> In key keys -> colour_under key cell c -> paint_of None cells key cell = paint_from all None c).
  { intros key cell c Ic Ik U. apply paint_reduce; auto. intros k; discriminate. }
  intros key cell Ic Ik. destruct (get_colour_cases key cell (C cell Ic) Ik) as (c & U & _).
  assert (P : exists p, paint_from all None c = Some p). { destruct c as [n|]; [|exists grey; reflexivity]. destruct (Z key cell n Ic Ik U) as (i & p & _ & _ & X). exists p. exact X. }
  destruct P as (p & P). exists c, p. split; [exact U|]. split; [rewrite (R key cell c Ic Ik U); exact P|].
  intros key' cell' c' p' Ic' Ik' U' P'. rewrite (R key' cell' c' Ic' Ik' U') in P'. split; [|intros <-; rewrite P in P'; injection P' as <-; apply alike_refl].
  intros A. apply alike_same in A. destruct c as [n|], c' as [n'|]; cbn in P, P'; try reflexivity.
  - destruct (Z key cell n Ic Ik U) as (i & q & Ai & Bi & X). destruct (Z key' cell' n' Ic' Ik' U') as (j & q' & Aj & Bj & X'). rewrite X in P. rewrite X' in P'. injection P as <-. injection P' as <-. pose proof (palette_inj _ i j _ _ Bi Bj A) as ->. congruence.
  - destruct (Z key cell n Ic Ik U) as (i & q & Ai & Bi & X). rewrite X in P. injection P as <-. injection P' as <-. destruct (bright_not_grey _ (palette_bright _ _ _ Bi) A).
  - destruct (Z key' cell' n' Ic' Ik' U') as (j & q' & Aj & Bj & X'). rewrite X' in P'. injection P' as <-. injection P as <-. exfalso. apply (bright_not_grey _ (palette_bright _ _ _ Bj)). destruct q' as [[r g] b]. cbn in A |- *. destruct A as (A1 & A2 & A3). repeat split; symmetry; assumption.
Qed.

(** With --colour-count k this holds when the colours are the numbers below k; and
    then the paint of a colour is the same in every layout. *)
Theorem C104_counted k cells cells' : (forall c, In c cells -> coloured c /\ forall n, occurs n c -> 0 <= n < Z.of_nat k) -> (forall c, In c cells' -> coloured c /\ forall n, occurs n c -> 0 <= n < Z.of_nat k) ->
  forall key cell, In cell cells -> In key keys -> exists c p, colour_under key cell c /\ paint_of (Some k) cells key cell = Some p /\
  forall key' cell' c' p', In cell' cells' -> In key' keys -> colour_under key' cell' c' -> paint_of (Some k) cells' key' cell' = Some p' ->
    (alike p p' <-> c = c').
Proof.
  assert (G : forall cells, (forall c, In c cells -> coloured c /\ forall n, occurs n c -> 0 <= n < Z.of_nat k) -> forall key cell c, In cell cells -> In key keys -> colour_under key cell c ->
    paint_of (Some k) cells key cell = paint_from [] (Some k) c /\ match c with Some n => exists p, 0 <= n /\ nth_error (create_palette k) (Z.to_nat n) = Some p /\ paint_from [] (Some k) c = Some p | None => True end).
  { clear cells cells'. intros cells H key cell c Ic Ik U. assert (C : forall c, In c cells -> coloured c) by (intros d Id; apply H; exact Id). destruct (all_spec cells C) as (all & E & Inc & Hall).
    assert (L : (length all <= k)%nat).
    { rewrite <- (seq_length k 0), <- (map_length Z.of_nat). apply NoDup_incl_length; [apply increasing_nodup; exact Inc|]. intros n I. apply Hall in I. destruct I as (d & Id & O). apply in_map_iff. pose proof (proj2 (H d Id) n O). exists (Z.to_nat n). split; [lia|]. apply in_seq. lia. }
    split.
    - rewrite (paint_reduce cells C (Some k) all key cell c E) by (auto; intros j [= <-]; exact L). destruct c; reflexivity.
    - destruct c as [n|]; [|exact I]. pose proof (proj2 (H cell Ic) n (under_occurs key cell n (C _ Ic) Ik U)) as B. cbn. unfold array_lookup. rewrite palette_length. rewrite (proj2 (Z.leb_le _ _)), (proj2 (Z.ltb_lt _ _)) by lia. cbn [andb].
      destruct (nth_error (create_palette k) (Z.to_nat n)) as [p|] eqn:X; [exists p; repeat split; lia|]. apply nth_error_None in X. rewrite palette_length in X. lia. }
  intros H H' key cell Ic Ik. destruct (get_colour_cases key cell (proj1 (H cell Ic)) Ik) as (c & U & _). destruct (G cells H key cell c Ic Ik U) as [P X].
  assert (Y : exists p, paint_from [] (Some k) c = Some p) by (destruct c as [n|]; [destruct X as (p & _ & _ & X); exists p; exact X|exists grey; reflexivity]). destruct Y as (p & Y). exists c, p. split; [exact U|]. split; [rewrite P; exact Y|].
  intros key' cell' c' p' Ic' Ik' U' P'. destruct (G cells' H' key' cell' c' Ic' Ik' U') as [Q X']. rewrite Q in P'. split; [|intros <-; rewrite Y in P'; injection P' as <-; apply alike_refl].
  intros A. apply alike_same in A. destruct c as [n|], c' as [n'|]; try reflexivity.
  - destruct X as (q & B & Bi & X), X' as (q' & B' & Bj & X'). rewrite X in Y. rewrite X' in P'. injection Y as <-. injection P' as <-. pose proof (palette_inj _ _ _ _ _ Bi Bj A). f_equal. lia.
  - destruct X as (q & B & Bi & X). rewrite X in Y. injection Y as <-. injection P' as <-. destruct (bright_not_grey _ (palette_bright _ _ _ Bi) A).
  - destruct X' as (q' & B' & Bj & X'). rewrite X' in P'. injection P' as <-. injection Y as <-. exfalso. apply (bright_not_grey _ (palette_bright _ _ _ Bj)). destruct q' as [[r g] b]. cbn in A |- *. destruct A as (A1 & A2 & A3). repeat split; symmetry; assumption.
Qed.

(** But the count is compared with the number of colours, not with the colours:
    a layout of two colours is refused for every count, with its check passed. *)
Theorem C104_counted_refuted k : (2 <= k)%nat ->
  let cell := JObj [("colour"%string, JNum (Z.of_nat k))] in
  coloured cell /\ (forall n, occurs n cell -> n = 0 \/ n = Z.of_nat k) /\ paint_of (Some k) [cell] "colour" cell = None.
Proof.
  intros Hk cell. assert (C : coloured cell).
  { intros key [<-|[<-|[<-|[]]]]; [right; left; eexists; split; [reflexivity|right; eexists; reflexivity]|left; reflexivity|left; reflexivity]. }
  assert (O : forall n, occurs n cell -> n = 0 \/ n = Z.of_nat k).
  { intros n (key & [<-|[<-|[<-|[]]]] & [[E ->]|[E|(l & E & I)]]); cbn in E; try discriminate; auto. injection E as <-. auto. }
  split; [exact C|]. split; [exact O|]. destruct (all_spec [cell]) as (all & E & Inc & H); [intros c [<-|[]]; exact C|].
  rewrite (paint_reduce [cell] ltac:(intros c [<-|[]]; exact C) (Some k) all "colour"%string cell (Some (Z.of_nat k)) E).
  - cbn. unfold array_lookup. rewrite palette_length. destruct (Z.ltb_spec (Z.of_nat k) (Z.of_nat k)); [lia|]. rewrite andb_false_r. destruct (Z.ltb_spec (Z.of_nat k) 0); [lia|]. rewrite andb_false_r. reflexivity.
  - intros j [= <-]. apply Nat.le_trans with 2%nat; [|exact Hk]. change 2%nat with (length [0; Z.of_nat k]). apply NoDup_incl_length; [apply increasing_nodup; exact Inc|]. intros n I. apply H in I. destruct I as (c & [<-|[]] & I). destruct (O n I) as [-> | ->]; cbn; auto.
  - left. reflexivity.
  - left. reflexivity.
  - apply number. reflexivity.
Qed.

Example C104_some_cells : forall c, In c [JObj [("colour", JNum 3)]; JObj [("colour", JArr [JNum 1; JNull]); ("colour_ux", JNull)]; JObj []]%string -> coloured c /\ forall n, occurs n c -> 0 <= n < Z.of_nat 4.
Proof.
  intros c [<-|[<-|[<-|[]]]]; (split; [intros key [<-|[<-|[<-|[]]]]|intros n (key & [<-|[<-|[<-|[]]]] & [[E ->]|[E|(l & E & I)]]); cbn in E; try discriminate; try lia]).
  all: try (left; reflexivity).
  all: try (right; left; eexists; split; [reflexivity|]; first [left; reflexivity|right; eexists; reflexivity]).
  all: try (injection E as <-; lia).
  - right. right. eexists _, _. split; [reflexivity|]. constructor; [right; eexists; reflexivity|]. constructor; [left; reflexivity|]. constructor.
  - injection E as <-. destruct I as [[= <-]|[I|[]]]; [lia|discriminate].
Qed.

Print Assumptions C104_palette.
Print Assumptions C104_paints.
Print Assumptions C104_counted.
Print Assumptions C104_counted_refuted.
