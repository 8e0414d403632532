(** Layouts between two columns of splitters. *)
From Coq Require Import ZArith QArith List Bool Lia Lqa Permutation.
From Verif Require Import Spec_Tile Spec_Layout M_Network Spec_Network Spec_Balancer Spec_Flow Spec_Pow2 P_Layout.
Import ListNotations.
Open Scope Z_scope.

Section Frame.
  Variables (w h : Z) (T : layout) (L : Z).
  Hypothesis Hw : 0 < w.
  Hypothesis Hh : 0 < h.
  Hypothesis He : h mod 2 = 0.
  Notation A := {| aw := w; ah := h; wrapx := false; wrapy := false |}.
  Notation B := {| aw := w + 4; ah := h; wrapx := false; wrapy := false |}.
  Notation F := (framed w T).
  Definition sh (p : pos) : pos := (fst p + 2, snd p).
  Hypothesis TL : forall y, 0 <= y < h -> T (0, y) = Belt RIGHT RIGHT.
  Hypothesis TR : forall y, 0 <= y < h -> T (w - 1, y) = Belt RIGHT RIGHT.
  Hypothesis VL : valid_layout A T L.

  Lemma inside_in p : inside A p <-> 0 <= fst p < w /\ 0 <= snd p < h.
  Proof. reflexivity. Qed.
  Lemma framed_sh p : inside A p -> F (sh p) = T p.
  Proof.
    intros [Hx Hy]. cbn [aw ah] in *. unfold framed, sh. cbn [fst snd].
    destruct (Z.eqb_spec (fst p + 2) 0), (Z.eqb_spec (fst p + 2) (w + 3)), (Z.eqb_spec (fst p + 2) 1), (Z.eqb_spec (fst p + 2) (w + 2)); try lia. cbn [orb].
    f_equal. destruct p; cbn [fst snd]. f_equal. lia.
  Qed.
  Lemma inside_sh p : inside A p -> inside B (sh p).
  Proof. intros [Hx Hy]. cbn [aw ah] in *. split; cbn [sh fst snd aw ah]; lia. Qed.
  Lemma place_A (p : pos) : place A p = if insideb A p then Some p else None.
  Proof. unfold place. cbn [wrapx wrapy]. destruct p; reflexivity. Qed.
  Lemma place_B (p : pos) : place B p = if insideb B p then Some p else None.
  Proof. unfold place. cbn [wrapx wrapy]. destruct p; reflexivity. Qed.
  Lemma ahead_sh p d k q : ahead A p d k = Some q -> ahead B (sh p) d k = Some (sh q).
  Proof.
    unfold ahead. rewrite place_A, place_B. destruct (insideb A _) eqn:E; [|discriminate]. intros Eq. apply insideb_iff in E. destruct E as [E1 E2]. cbn [aw ah fst snd] in E1, E2.
    assert (Q : q = (fst p + k * step_x d, snd p + k * step_y d)) by congruence. subst q. unfold sh. cbn [fst snd].
    replace (insideb B (fst p + 2 + k * step_x d, snd p + k * step_y d)) with true.
    - f_equal. f_equal. lia.
    - symmetry. apply insideb_iff. split; cbn [aw ah fst snd]; lia.
  Qed.
  (** Cells of the larger rectangle. *)
  Lemma cells_of p : inside B p -> fst p = 0 /\ F p = Belt RIGHT RIGHT \/ fst p = w + 3 /\ F p = Belt RIGHT RIGHT \/
    fst p = 1 /\ F p = Splitter RIGHT (Z.odd (snd p)) \/ fst p = w + 2 /\ F p = Splitter RIGHT (Z.odd (snd p)) \/
    exists q, inside A q /\ p = sh q /\ F p = T q.
  Proof.
    intros [Hx Hy]. cbn [aw ah] in *. unfold framed.
    destruct (Z.eqb_spec (fst p) 0); [auto|]. destruct (Z.eqb_spec (fst p) (w + 3)); [auto|]. destruct (Z.eqb_spec (fst p) 1); [cbn [orb]; tauto|]. destruct (Z.eqb_spec (fst p) (w + 2)); [cbn [orb]; tauto|].
    cbn [orb]. do 4 right. exists (fst p - 2, snd p). split; [split; cbn [aw ah fst snd]; lia|]. split; [|reflexivity]. unfold sh. cbn [fst snd]. destruct p; cbn [fst snd]. f_equal. lia.
  Qed.
  Lemma step_B x y d : 0 <= x < w + 4 -> 0 <= y < h -> neighbour B (x, y) d =
    match d with RIGHT => if x =? w + 3 then None else Some (x + 1, y) | LEFT => if x =? 0 then None else Some (x - 1, y)
               | UP => if y =? 0 then None else Some (x, y - 1) | DOWN => if y =? h - 1 then None else Some (x, y + 1) end.
  Proof.
    intros Hx Hy. unfold neighbour, ahead. rewrite place_B. cbn [fst snd].
    assert (X : forall u v : Z, insideb B (u, v) = ((0 <=? u) && (u <? w + 4)) && ((0 <=? v) && (v <? h))) by reflexivity. rewrite X. clear X.
    destruct d; cbn [step_x step_y]; rewrite ?Z.mul_0_r, ?Z.add_0_r, ?Z.mul_1_r.
    1: destruct (Z.eqb_spec x (w + 3)), (Z.leb_spec 0 (x + 1)), (Z.ltb_spec (x + 1) (w + 4)), (Z.leb_spec 0 y), (Z.ltb_spec y h); try lia; cbn [andb]; reflexivity || (f_equal; f_equal; lia).
    1: change (1 * -1) with (-1); destruct (Z.eqb_spec y 0), (Z.leb_spec 0 x), (Z.ltb_spec x (w + 4)), (Z.leb_spec 0 (y + -1)), (Z.ltb_spec (y + -1) h); try lia; cbn [andb]; reflexivity || (f_equal; f_equal; lia).
    1: change (1 * -1) with (-1); destruct (Z.eqb_spec x 0), (Z.leb_spec 0 (x + -1)), (Z.ltb_spec (x + -1) (w + 4)), (Z.leb_spec 0 y), (Z.ltb_spec y h); try lia; cbn [andb]; reflexivity || (f_equal; f_equal; lia).
    destruct (Z.eqb_spec y (h - 1)), (Z.leb_spec 0 x), (Z.ltb_spec x (w + 4)), (Z.leb_spec 0 (y + 1)), (Z.ltb_spec (y + 1) h); try lia; cbn [andb]; reflexivity || (f_equal; f_equal; lia).
  Qed.
  Lemma step_A x y d : 0 <= x < w -> 0 <= y < h -> neighbour A (x, y) d =
    match d with RIGHT => if x =? w - 1 then None else Some (x + 1, y) | LEFT => if x =? 0 then None else Some (x - 1, y)
               | UP => if y =? 0 then None else Some (x, y - 1) | DOWN => if y =? h - 1 then None else Some (x, y + 1) end.
  Proof.
    intros Hx Hy. unfold neighbour, ahead. rewrite place_A. cbn [fst snd].
    assert (X : forall u v : Z, insideb A (u, v) = ((0 <=? u) && (u <? w)) && ((0 <=? v) && (v <? h))) by reflexivity. rewrite X. clear X.
    destruct d; cbn [step_x step_y]; rewrite ?Z.mul_0_r, ?Z.add_0_r, ?Z.mul_1_r.
    1: destruct (Z.eqb_spec x (w - 1)), (Z.leb_spec 0 (x + 1)), (Z.ltb_spec (x + 1) w), (Z.leb_spec 0 y), (Z.ltb_spec y h); try lia; cbn [andb]; reflexivity || (f_equal; f_equal; lia).
    1: change (1 * -1) with (-1); destruct (Z.eqb_spec y 0), (Z.leb_spec 0 x), (Z.ltb_spec x w), (Z.leb_spec 0 (y + -1)), (Z.ltb_spec (y + -1) h); try lia; cbn [andb]; reflexivity || (f_equal; f_equal; lia).
    1: change (1 * -1) with (-1); destruct (Z.eqb_spec x 0), (Z.leb_spec 0 (x + -1)), (Z.ltb_spec (x + -1) w), (Z.leb_spec 0 y), (Z.ltb_spec y h); try lia; cbn [andb]; reflexivity || (f_equal; f_equal; lia).
    destruct (Z.eqb_spec y (h - 1)), (Z.leb_spec 0 x), (Z.ltb_spec x w), (Z.leb_spec 0 (y + 1)), (Z.ltb_spec (y + 1) h); try lia; cbn [andb]; reflexivity || (f_equal; f_equal; lia).
  Qed.
  (** A neighbour of an inner cell is an inner cell, or lies in a column of
      splitters beside a straight belt. *)
  Lemma step_inner p d r : inside A p -> neighbour B (sh p) d = Some r ->
    (exists q, neighbour A p d = Some q /\ r = sh q) \/
    T p = Belt RIGHT RIGHT /\ exists b, F r = Splitter RIGHT b.
  Proof.
    destruct p as [x y]. intros [Hx Hy]. cbn [aw ah fst snd] in Hx, Hy. unfold sh at 1. cbn [fst snd]. rewrite step_B by lia. rewrite step_A by lia.
    assert (X : forall u v : Z, sh (u, v) = (u + 2, v)) by reflexivity.
    destruct d.
    - destruct (Z.eqb_spec (x + 2) (w + 3)); [lia|]. intros E. destruct (Z.eqb_spec x (w - 1)) as [->|N].
      + right. split; [apply TR; lia|]. assert (r = (w - 1 + 2 + 1, y)) by congruence. subst r. exists (Z.odd y). unfold framed. cbn [fst snd].
        destruct (Z.eqb_spec (w - 1 + 2 + 1) 0), (Z.eqb_spec (w - 1 + 2 + 1) (w + 3)), (Z.eqb_spec (w - 1 + 2 + 1) 1), (Z.eqb_spec (w - 1 + 2 + 1) (w + 2)); try lia; reflexivity.
      + left. eexists. split; [reflexivity|]. rewrite X. assert (r = (x + 2 + 1, y)) by congruence. subst r. f_equal. lia.
    - destruct (Z.eqb_spec y 0); [discriminate|]. intros E. left. eexists. split; [reflexivity|]. rewrite X. congruence.
    - destruct (Z.eqb_spec (x + 2) 0); [lia|]. intros E. destruct (Z.eqb_spec x 0) as [->|N].
      + right. split; [apply TL; lia|]. assert (r = (0 + 2 - 1, y)) by congruence. subst r. exists (Z.odd y). unfold framed. cbn [fst snd].
        destruct (Z.eqb_spec (0 + 2 - 1) 0), (Z.eqb_spec (0 + 2 - 1) (w + 3)), (Z.eqb_spec (0 + 2 - 1) 1); try lia; reflexivity.
      + left. eexists. split; [reflexivity|]. rewrite X. assert (r = (x + 2 - 1, y)) by congruence. subst r. f_equal. lia.
    - destruct (Z.eqb_spec y (h - 1)); [discriminate|]. intros E. left. eexists. split; [reflexivity|]. rewrite X. congruence.
  Qed.
  Lemma neighbour_inside p d q : neighbour A p d = Some q -> inside A q.
  Proof. apply ahead_inside. Qed.
  Lemma column x y : x = 1 \/ x = w + 2 -> F (x, y) = Splitter RIGHT (Z.odd y).
  Proof.
    intros H. unfold framed. cbn [fst snd]. destruct (Z.eqb_spec x 0), (Z.eqb_spec x (w + 3)), (Z.eqb_spec x 1), (Z.eqb_spec x (w + 2)); try lia; reflexivity.
  Qed.
  Lemma outer x y : x = 0 \/ x = w + 3 -> F (x, y) = Belt RIGHT RIGHT.
  Proof. intros H. unfold framed. cbn [fst snd]. destruct (Z.eqb_spec x 0), (Z.eqb_spec x (w + 3)); try lia; reflexivity. Qed.
  Lemma inner_first y : 0 <= y < h -> F (2, y) = Belt RIGHT RIGHT.
  Proof. intros Hy. rewrite <- (TL y Hy). apply (framed_sh (0, y)). split; cbn; lia. Qed.
  Lemma inner_last y : 0 <= y < h -> F (w + 1, y) = Belt RIGHT RIGHT.
  Proof. intros Hy. rewrite <- (TR y Hy). replace (w + 1, y) with (sh (w - 1, y)) by (unfold sh; cbn [fst snd]; f_equal; lia). apply framed_sh. split; cbn; lia. Qed.
  Lemma odd_spec y : Z.odd y = true -> y mod 2 = 1.
  Proof. intros H. rewrite Zmod_odd, H. reflexivity. Qed.
  Lemma even_spec y : Z.odd y = false -> y mod 2 = 0.
  Proof. intros H. rewrite Zmod_odd, H. reflexivity. Qed.
  Lemma mate_row y b : 0 <= y < h -> Z.odd y = b -> 0 <= (if b then y - 1 else y + 1) < h /\ Z.odd (if b then y - 1 else y + 1) = negb b.
  Proof.
    intros Hy E. pose proof (Z.div_mod h 2 ltac:(lia)). pose proof (Z.div_mod y 2 ltac:(lia)). destruct b.
    - pose proof (odd_spec y E). split; [lia|]. rewrite Z.odd_sub, E. reflexivity.
    - pose proof (even_spec y E). split; [lia|]. rewrite Z.odd_add, E. reflexivity.
  Qed.

  Lemma tunnel_sh p d q : inside A p -> tunnel A T L p d q -> tunnel B F L (sh p) d (sh q).
  Proof.
    intros Hp (k & Hk & Ek & Hj). exists k. split; [exact Hk|]. split; [apply ahead_sh; exact Ek|]. intros j Hjk. destruct (Hj j Hjk) as (r & Er & Nb).
    exists (sh r). split; [apply ahead_sh; exact Er|]. rewrite framed_sh by (eapply ahead_inside; exact Er). exact Nb.
  Qed.
  Theorem framed_valid : valid_layout B F L.
  Proof.
    destruct VL as (V1 & V2 & V3 & V4 & V5 & V6 & V7 & V8). split; [|split; [|split; [|split; [|split; [|split; [|split]]]]]].
    - intros p Hp. destruct (cells_of p Hp) as [[_ ->]|[[_ ->]|[[_ ->]|[[_ ->]|(q & Hq & _ & ->)]]]]; cbn; try discriminate; try exact Logic.I. apply V1. exact Hq.
    - intros p d b Hp E. assert (Col : fst p = 1 \/ fst p = w + 2 -> exists q, neighbour B p (mate_side d b) = Some q /\ F q = Splitter d (negb b)).
      { destruct p as [x y]. cbn [fst]. intros Hx. destruct Hp as [Px Py]. cbn [aw ah fst snd] in Px, Py. rewrite (column x y Hx) in E. injection E as <- Eb. destruct (mate_row y b Py Eb) as [M1 M2].
        rewrite step_B by assumption. destruct b; cbn [mate_side anticlockwise clockwise]; [exists (x, y - 1)|exists (x, y + 1)]; (split; [|rewrite (column x _ Hx), M2; reflexivity]).
        - destruct (Z.eqb_spec y 0); [lia|reflexivity].
        - destruct (Z.eqb_spec y (h - 1)); [lia|reflexivity]. }
      destruct (cells_of p Hp) as [[_ C]|[[_ C]|[[C _]|[[C _]|(q & Hq & -> & C)]]]]; auto; rewrite C in E; try discriminate.
      destruct (V2 q d b Hq E) as (r & Er & Tr). exists (sh r). split; [apply ahead_sh; exact Er|]. rewrite framed_sh by (eapply ahead_inside; exact Er). exact Tr.
    - intros p d q Hp Pd Ns En. destruct (cells_of p Hp) as [[C1 C]|[[C1 C]|[[C1 C]|[[C1 C]|(r & Hr & -> & C)]]]]; rewrite C in Pd, Ns; try (exfalso; apply Ns; exact Logic.I).
      + cbn in Pd. subst d. destruct p as [x y]. cbn [fst] in C1. subst x. destruct Hp as [Px Py]. cbn [aw ah fst snd] in Px, Py. rewrite step_B in En by assumption.
        destruct (Z.eqb_spec 0 (w + 3)); [lia|]. assert (q = (0 + 1, y)) by congruence. subst q. change (0 + 1) with 1. rewrite (column 1 y) by auto. reflexivity.
      + cbn in Pd. subst d. destruct p as [x y]. cbn [fst] in C1. subst x. destruct Hp as [Px Py]. cbn [aw ah fst snd] in Px, Py. rewrite step_B in En by assumption.
        rewrite Z.eqb_refl in En. discriminate.
      + destruct (step_inner r d q Hr En) as [(q' & Eq & ->)|(Tb & b & Fb)].
        * rewrite framed_sh by (eapply neighbour_inside; exact Eq). eapply V3; eauto.
        * rewrite Tb in Pd. cbn in Pd. subst d. rewrite Fb. reflexivity.
    - intros p d q Hp Pd Ns En. destruct (cells_of p Hp) as [[C1 C]|[[C1 C]|[[C1 C]|[[C1 C]|(r & Hr & -> & C)]]]]; rewrite C in Pd, Ns; try (exfalso; apply Ns; exact Logic.I).
      + cbn in Pd. subst d. destruct p as [x y]. cbn [fst] in C1. subst x. destruct Hp as [Px Py]. cbn [aw ah fst snd] in Px, Py. rewrite step_B in En by assumption. cbn [opposite] in En.
        rewrite Z.eqb_refl in En. discriminate.
      + cbn in Pd. subst d. destruct p as [x y]. cbn [fst] in C1. subst x. destruct Hp as [Px Py]. cbn [aw ah fst snd] in Px, Py. rewrite step_B in En by assumption. cbn [opposite] in En.
        destruct (Z.eqb_spec (w + 3) 0); [lia|]. assert (q = (w + 3 - 1, y)) by congruence. subst q. rewrite (column (w + 3 - 1) y) by (right; lia). reflexivity.
      + destruct (step_inner r (opposite d) q Hr En) as [(q' & Eq & ->)|(Tb & b & Fb)].
        * rewrite framed_sh by (eapply neighbour_inside; exact Eq). eapply V4; eauto.
        * rewrite Tb in Pd. cbn in Pd. subst d. rewrite Fb. reflexivity.
    - intros p d b q i o Hp E En Eq. destruct (cells_of p Hp) as [[C1 C]|[[C1 C]|[[C1 C]|[[C1 C]|(r & Hr & -> & C)]]]]; rewrite C in E; try discriminate.
      + injection E as <- Eb. destruct p as [x y]. cbn [fst] in C1. subst x. destruct Hp as [Px Py]. cbn [aw ah fst snd] in Px, Py. rewrite step_B in En by assumption.
        destruct (Z.eqb_spec 1 (w + 3)); [lia|]. assert (q = (1 + 1, y)) by congruence. subst q. change (1 + 1) with 2 in Eq. rewrite inner_first in Eq by exact Py. congruence.
      + injection E as <- Eb. destruct p as [x y]. cbn [fst] in C1. subst x. destruct Hp as [Px Py]. cbn [aw ah fst snd] in Px, Py. rewrite step_B in En by assumption.
        destruct (Z.eqb_spec (w + 2) (w + 3)); [lia|]. assert (q = (w + 2 + 1, y)) by congruence. subst q. rewrite outer in Eq by lia. congruence.
      + destruct (step_inner r d q Hr En) as [(q' & Eq' & ->)|(Tb & _)]; [|rewrite Tb in E; discriminate].
        rewrite framed_sh in Eq by (eapply neighbour_inside; exact Eq'). eapply V5; eauto.
    - intros p d b Hp E. destruct (cells_of p Hp) as [[C1 C]|[[C1 C]|[[C1 C]|[[C1 C]|(r & Hr & -> & C)]]]]; rewrite C in E; try discriminate.
      + injection E as <- Eb. left. intros q En. destruct p as [x y]. cbn [fst] in C1. subst x. destruct Hp as [Px Py]. cbn [aw ah fst snd] in Px, Py. rewrite step_B in En by assumption. cbn [opposite] in En.
        destruct (Z.eqb_spec 1 0); [lia|]. assert (q = (1 - 1, y)) by congruence. subst q. rewrite outer by lia. reflexivity.
      + injection E as <- Eb. right. intros q En. destruct p as [x y]. cbn [fst] in C1. subst x. destruct Hp as [Px Py]. cbn [aw ah fst snd] in Px, Py. rewrite step_B in En by assumption.
        destruct (Z.eqb_spec (w + 2) (w + 3)); [lia|]. assert (q = (w + 2 + 1, y)) by congruence. subst q. rewrite outer by lia. reflexivity.
      + destruct (V6 r d b Hr E) as [H|H]; [left|right]; intros q En;
          (destruct (step_inner r _ q Hr En) as [(q' & Eq & ->)|(Tb & _)]; [|rewrite Tb in E; discriminate]); rewrite framed_sh by (eapply neighbour_inside; exact Eq); auto.
    - intros p d Hp E. destruct (cells_of p Hp) as [[C1 C]|[[C1 C]|[[C1 C]|[[C1 C]|(r & Hr & -> & C)]]]]; rewrite C in E; try discriminate.
      destruct (V7 r d Hr E) as (q & Tq & Tn). exists (sh q). split; [|apply tunnel_sh; assumption]. rewrite framed_sh; [exact Tq|]. destruct Tn as (k & _ & Ek & _). eapply ahead_inside; exact Ek.
    - intros p d Hp E. destruct (cells_of p Hp) as [[C1 C]|[[C1 C]|[[C1 C]|[[C1 C]|(r & Hr & -> & C)]]]]; rewrite C in E; try discriminate.
      destruct (V8 r d Hr E) as (q & Hq & Tq & Tn). exists (sh q). split; [apply inside_sh; exact Hq|]. split; [rewrite framed_sh; assumption|]. apply tunnel_sh; assumption.
  Qed.

  (** Lines of the layout are lines of the larger one. *)
  Lemma carried_sh p q : inside A p -> carried A T L p q -> carried B F L (sh p) (sh q) /\ inside A q.
  Proof.
    intros Hp C. induction C as [p|p q r H C IH|p q r H C IH].
    - split; [constructor|exact Hp].
    - destruct H as (_ & Ns & d & Pd & En). pose proof (neighbour_inside _ _ _ En) as Hq. destruct (IH Hq) as [C' Hr]. split; [|exact Hr].
      eapply carried_belt; [|exact C']. split; [apply inside_sh; exact Hp|]. rewrite framed_sh by exact Hp. split; [exact Ns|]. exists d. split; [exact Pd|]. apply ahead_sh. exact En.
    - destruct H as (_ & d & Tp & Tq & Tn). assert (Hq : inside A q) by (destruct Tn as (k & _ & Ek & _); eapply ahead_inside; exact Ek). destruct (IH Hq) as [C' Hr]. split; [|exact Hr].
      eapply carried_under; [|exact C']. split; [apply inside_sh; exact Hp|]. exists d. rewrite !framed_sh by assumption. split; [exact Tp|]. split; [exact Tq|]. apply tunnel_sh; assumption.
  Qed.
  Lemma column_inside x y : 0 <= x < w + 4 -> 0 <= y < h -> inside B (x, y).
  Proof. intros. split; cbn [aw ah fst snd]; lia. Qed.
  Lemma next_right x y : 0 <= x < w + 3 -> 0 <= y < h -> neighbour B (x, y) RIGHT = Some (x + 1, y).
  Proof. intros Hx Hy. rewrite step_B by lia. destruct (Z.eqb_spec x (w + 3)); [lia|reflexivity]. Qed.

  Hypothesis IN : forall p, begins A T (Enter p) p -> fst p = 0.
  Hypothesis OUT : forall p, reaches A T (Leave p) p -> fst p = w - 1.
  Definition sh_start (s : start) : start := match s with Enter p => Exit (1, snd p) | Exit p => Exit (sh p) end.
  Definition sh_finish (f : finish) : finish := match f with Leave p => Entrance (w + 2, snd p) | Entrance p => Entrance (sh p) end.
  Lemma joined_sh s f : joined A T L s f -> joined B F L (sh_start s) (sh_finish f).
  Proof.
    intros (q & r & Bs & C & Rf).
    assert (X : begins B F (sh_start s) (sh q) /\ inside A q).
    { destruct s as [p|p]; cbn [sh_start].
      - pose proof Bs as (-> & Hp & _). assert (Z0 : fst p = 0) by (apply IN; destruct Bs as (_ & B1 & B2); split; [reflexivity|auto]). split; [|exact Hp].
        destruct p as [x y]. cbn [fst] in Z0. subst x. destruct Hp as [_ Py]. cbn [ah snd] in Py. cbn [snd sh fst]. split; [apply column_inside; lia|]. exists RIGHT, (Z.odd y).
        split; [apply column; auto|]. split; [apply (next_right 1); lia|]. change (takes (F (2, y)) RIGHT). rewrite inner_first by exact Py. reflexivity.
      - destruct Bs as (Hp & d & b & Tp & En & Tk). pose proof (neighbour_inside _ _ _ En) as Hq. split; [|exact Hq]. split; [apply inside_sh; exact Hp|]. exists d, b.
        rewrite !framed_sh by assumption. split; [exact Tp|]. split; [apply ahead_sh; exact En|exact Tk]. }
    destruct X as [Bs' Hq]. destruct (carried_sh q r Hq C) as [C' Hr]. destruct f as [p|p]; cbn [sh_finish].
    - pose proof Rf as (-> & _). assert (Z0 : fst p = w - 1) by (apply OUT; destruct Rf as (_ & R1); split; [reflexivity|exact R1]).
      destruct p as [x y]. cbn [fst] in Z0. subst x. destruct Hr as [_ Py]. cbn [ah snd] in Py. exists (sh q), (w + 2, y). split; [exact Bs'|]. split.
      + assert (St : carried B F L (sh (w - 1, y)) (w + 2, y)).
        { eapply carried_belt; [|constructor]. unfold sh. cbn [fst snd]. replace (w - 1 + 2) with (w + 1) by lia. split; [apply column_inside; lia|]. rewrite inner_last by exact Py.
          split; [intros []|]. exists RIGHT. split; [reflexivity|]. rewrite next_right by lia. apply f_equal, pair_equal_spec; split; lia. }
        clear -C' St. induction C' as [u|u v x H C1 IH|u v x H C1 IH]; [exact St|eapply carried_belt; eauto|eapply carried_under; eauto].
      + cbn [snd]. split; [reflexivity|]. split; [apply column_inside; lia|]. rewrite column by auto. exact Logic.I.
    - destruct Rf as (-> & Hp & Sp). exists (sh q), (sh p). split; [exact Bs'|]. split; [exact C'|]. split; [reflexivity|]. split; [apply inside_sh; exact Hp|]. rewrite framed_sh by exact Hp. exact Sp.
  Qed.
  Lemma splitter_sh s : is_splitter_at A T s -> is_splitter_at B F (sh (fst s), sh (snd s)).
  Proof.
    intros (P1 & P2 & d & T1 & T2 & En). split; [apply inside_sh; exact P1|]. split; [apply inside_sh; exact P2|]. exists d. cbn [fst snd]. rewrite !framed_sh by assumption.
    split; [exact T1|]. split; [exact T2|]. apply ahead_sh. exact En.
  Qed.
  (** The columns of splitters. *)
  Lemma column_splitter x y : x = 1 \/ x = w + 2 -> 0 <= y < h / 2 -> is_splitter_at B F ((x, 2 * y + 1), (x, 2 * y)).
  Proof.
    intros Hx Hy. pose proof (Z.div_mod h 2 ltac:(lia)). split; [apply column_inside; lia|]. split; [apply column_inside; lia|]. exists RIGHT. cbn [fst snd]. rewrite !column by exact Hx.
    split; [rewrite Z.odd_add, Z.odd_mul; reflexivity|]. split; [rewrite Z.odd_mul; reflexivity|]. cbn [anticlockwise]. rewrite step_B by lia.
    destruct (Z.eqb_spec (2 * y + 1) 0); [lia|]. apply f_equal, pair_equal_spec; split; lia.
  Qed.
  Lemma enter_column y : 0 <= y < h -> joined B F L (Enter (0, y)) (Entrance (1, y)).
  Proof.
    intros Hy. exists (0, y), (1, y). split; [|split].
    - split; [reflexivity|]. split; [apply column_inside; lia|]. exists RIGHT. rewrite outer by auto. split; [reflexivity|]. cbn [opposite]. rewrite step_B by lia. reflexivity.
    - eapply carried_belt; [|constructor]. split; [apply column_inside; lia|]. rewrite outer by auto. split; [intros []|]. exists RIGHT. split; [reflexivity|]. apply next_right; lia.
    - split; [reflexivity|]. split; [apply column_inside; lia|]. rewrite column by auto. exact Logic.I.
  Qed.
  Lemma leave_column y : 0 <= y < h -> joined B F L (Exit (w + 2, y)) (Leave (w + 3, y)).
  Proof.
    intros Hy. exists (w + 3, y), (w + 3, y). split; [|split; [constructor|]].
    - split; [apply column_inside; lia|]. exists RIGHT, (Z.odd y). split; [apply column; auto|]. split; [rewrite next_right by lia; apply f_equal, pair_equal_spec; split; lia|]. rewrite outer by auto. reflexivity.
    - split; [reflexivity|]. split; [apply column_inside; lia|]. rewrite outer by auto. split; [intros []|]. exists RIGHT. split; [reflexivity|]. rewrite step_B by lia. rewrite Z.eqb_refl. reflexivity.
  Qed.
  Lemma framed_inlet p : begins B F (Enter p) p <-> fst p = 0 /\ 0 <= snd p < h.
  Proof.
    split.
    - intros (_ & Hp & d & Tk & En). split; [|apply Hp]. destruct (cells_of p Hp) as [[C1 C]|[[C1 C]|[[C1 C]|[[C1 C]|(r & Hr & -> & C)]]]]; [exact C1| | | |].
      1-3: exfalso; rewrite C in Tk; cbn in Tk; subst d; destruct p as [x y]; cbn [fst] in C1; subst x; destruct Hp as [Px Py]; cbn [aw ah fst snd] in Px, Py; rewrite step_B in En by assumption; cbn [opposite] in En.
      + destruct (Z.eqb_spec (w + 3) 0); [lia|discriminate].
      + destruct (Z.eqb_spec 1 0); [lia|discriminate].
      + destruct (Z.eqb_spec (w + 2) 0); [lia|discriminate].
      + exfalso. rewrite C in Tk. destruct (neighbour A r (opposite d)) as [q|] eqn:Ea; [unfold neighbour in En, Ea; rewrite (ahead_sh _ _ _ _ Ea) in En; discriminate|].
        assert (Z0 : fst r = 0) by (apply IN; split; [reflexivity|]; split; [exact Hr|]; exists d; auto). destruct r as [x y]. cbn [fst] in Z0. subst x. destruct Hr as [_ Py]. cbn [ah snd] in Py.
        rewrite (TL y Py) in Tk. cbn in Tk. subst d. unfold sh in En. cbn [fst snd opposite] in En. rewrite step_B in En by lia. discriminate.
    - destruct p as [x y]. cbn [fst snd]. intros [-> Hy]. destruct (enter_column y Hy) as (q & r & Bq & _). destruct Bq as (-> & B1). split; [reflexivity|exact B1].
  Qed.
  Lemma framed_outlet p : reaches B F (Leave p) p <-> fst p = w + 3 /\ 0 <= snd p < h.
  Proof.
    split.
    - intros (_ & Hp & Ns & d & Pd & En). split; [|apply Hp]. destruct (cells_of p Hp) as [[C1 C]|[[C1 C]|[[C1 C]|[[C1 C]|(r & Hr & -> & C)]]]]; [|exact C1| | |].
      + exfalso; rewrite C in Pd; cbn in Pd; subst d; destruct p as [x y]; cbn [fst] in C1; subst x; destruct Hp as [Px Py]; cbn [aw ah fst snd] in Px, Py. rewrite next_right in En by lia. discriminate.
      + rewrite C in Ns. exfalso. apply Ns. exact Logic.I.
      + rewrite C in Ns. exfalso. apply Ns. exact Logic.I.
      + exfalso. rewrite C in Pd, Ns. destruct (neighbour A r d) as [q|] eqn:Ea; [unfold neighbour in En, Ea; rewrite (ahead_sh _ _ _ _ Ea) in En; discriminate|].
        assert (Z0 : fst r = w - 1) by (apply OUT; split; [reflexivity|]; split; [exact Hr|]; split; [exact Ns|]; exists d; auto). destruct r as [x y]. cbn [fst] in Z0. subst x. destruct Hr as [_ Py]. cbn [ah snd] in Py.
        rewrite (TR y Py) in Pd. cbn in Pd. subst d. unfold sh in En. cbn [fst snd] in En. rewrite next_right in En by lia. discriminate.
    - destruct p as [x y]. cbn [fst snd]. intros [-> Hy]. destruct (leave_column y Hy) as (q & r & _ & _ & Rf). pose proof Rf as (-> & R1). split; [reflexivity|exact R1].
  Qed.
End Frame.
