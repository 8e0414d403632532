(** Proofs about the export of all layouts. *)
From Coq Require Import ZArith List Bool Lia.
From Verif Require Import M_Viewer P_Viewer.
Import ListNotations.
Open Scope Z_scope.

Section Export.
  Variable layout : Type.
  Variable length_of : layout -> Z.
  Hypothesis pos : forall l, 0 < length_of l.
  Variable all : list layout.
  Notation state := (state layout).
  Notation round := (round layout length_of true).
  Notation run := (run layout length_of true).
  Notation inv := (inv layout length_of all).
  Notation pictures := (pictures layout length_of).

  Definition saved (log : list (output layout)) : list (Z * list (layout * Z)) :=
    flat_map (fun o => match o with Saved _ k ps => [(k, ps)] | _ => [] end) log.
  Fixpoint numbered (i : Z) (ls : list layout) : list (Z * list (layout * Z)) :=
    match ls with [] => [] | l :: r => (i, pictures l) :: numbered (i + 1) r end.
  Lemma numbered_app i a b : numbered i (a ++ b) = (numbered i a ++ numbered (i + Z.of_nat (length a)) b)%list.
  Proof. revert i. induction a as [|l a IH]; intros i; cbn; [f_equal; lia|]. rewrite IH. do 3 f_equal. lia. Qed.
  Lemma saved_app a b : saved (a ++ b) = (saved a ++ saved b)%list. Proof. apply flat_map_app. Qed.

  Definition quiet (es : list event) : Prop := ~ In Quit es.
  Lemma quiet_handle es s : quiet es -> handle_all layout true es s = Some s.
  Proof. induction es as [|e es IH]; intros Q; [reflexivity|]. cbn. destruct e; try (apply IH; intros X; apply Q; right; exact X). destruct Q. left. reflexivity. Qed.

  (** Before the i-th layout is drawn, and after k rounds of drawing it. *)
  Definition mid (i : nat) (t0 k : Z) (s : state) : Prop :=
    inv s /\ running _ s = true /\ index _ s = Z.of_nat i /\ t _ s = t0 + k /\ saved (log _ s) = numbered 0 (firstn i all) /\
    forall l j, nth_error all i = Some l -> 0 <= j < k -> buffer layout (((t0 + j) / 2) mod length_of l) (framebuffers _ s) <> None.
  Definition done (i : nat) (s : state) : Prop :=
    saved (log _ s) = numbered 0 (firstn (S i) all) /\
    if (S i <? length all)%nat then exists t0, mid (S i) t0 0 s else running _ s = false.

  Lemma covered n t0 i : 0 < n -> 0 <= i < n -> exists j, 0 <= j < 2 * n - 1 /\ ((t0 + j) / 2) mod n = i.
  Proof.
    intros Hn Hi. exists (2 * ((i - t0 / 2) mod n)). pose proof (Z.mod_pos_bound (i - t0 / 2) n Hn). split; [lia|].
    rewrite (Z.mul_comm 2), Z.div_add by discriminate. rewrite Zplus_mod_idemp_r. replace (t0 / 2 + (i - t0 / 2)) with i by lia. apply Z.mod_small. exact Hi.
  Qed.
  Lemma drawn_fields l s : log _ (drawn layout length_of l s) = (log _ s ++ [Shown _ (l, (t _ s / 2) mod length_of l)])%list /\
    running _ (drawn layout length_of l s) = running _ s /\ index _ (drawn layout length_of l s) = index _ s /\ t _ (drawn layout length_of l s) = t _ s.
  Proof. unfold drawn. cbn zeta. destruct (buffer layout ((t _ s / 2) mod length_of l) (framebuffers _ s)); repeat split. Qed.
  Lemma step i t0 k s l es : nth_error all i = Some l -> mid i t0 k s -> 0 <= k < 2 * length_of l -> quiet es ->
    exists s', round es s = Some s' /\ (done i s' \/ k + 1 < 2 * length_of l /\ mid i t0 (k + 1) s').
  Proof.
    intros L (I & R & Ix & T & Sa & B) K Q. assert (E : current _ s = Some l).
    { destruct (current_some _ _ _ _ I) as (l' & E & N). rewrite Ix, Nat2Z.id in N. congruence. }
    rewrite (round_spec layout length_of pos true all es s s l (quiet_handle es s Q) I E). eexists. split; [reflexivity|].
    destruct (drawn_inv layout length_of pos all l s I E) as (Id & Ed & Bd & Mono).
    destruct (drawn_fields l s) as (Ds & Dr & Di & Dt). rewrite R in Dr. rewrite Ix in Di. rewrite T in Dt.
    apply (f_equal saved) in Ds. rewrite saved_app, Sa in Ds. change (saved [Shown layout (l, (t layout s / 2) mod length_of l)]) with (@nil (Z * list (layout * Z))) in Ds. rewrite app_nil_r in Ds.
    assert (Db : forall j, 0 <= j < k + 1 -> buffer layout (((t0 + j) / 2) mod length_of l) (framebuffers _ (drawn layout length_of l s)) <> None).
    { intros j Hj. destruct (Z.eq_dec j k) as [->|N]; [rewrite <- T, Bd; discriminate|]. apply Mono. apply B; [exact L|lia]. }
    set (d := drawn layout length_of l s) in *. clearbody d. unfold saving. rewrite orb_true_r.
    destruct (buffers layout (range (length_of l)) (framebuffers _ d)) as [ps|] eqn:Bs.
    - left. cbn zeta. assert (Ps : ps = pictures l). { apply (buffers_spec layout l (framebuffers _ d)); [|exact Bs]. intros a p X. destruct Id as (_ & _ & _ & F & _). destruct (F a p X) as (l' & E' & -> & _). congruence. }
      assert (Le : (i < length all)%nat) by (apply nth_error_Some; congruence).
      assert (Ss : (numbered 0 (firstn i all) ++ [(Z.of_nat i, pictures l)])%list = numbered 0 (firstn (S i) all)).
      { assert (F : firstn (S i) all = (firstn i all ++ [l])%list). { clear - L. revert i L. induction all as [|x r IH]; intros [|i] L; try discriminate; cbn in *; [congruence|]. rewrite (IH i L). reflexivity. }
        rewrite F, numbered_app. cbn. rewrite firstn_length. do 3 f_equal. lia. }
      pose proof (saving_inv layout length_of true all l d Id Ed) as Sv. unfold saving in Sv. rewrite orb_true_r, Bs in Sv. cbn zeta in Sv. 
      set (w := write layout (Saved layout (index layout d) ps) (set_waiting layout false d)) in *.
      assert (Iw : inv w).
      { destruct (current_some layout length_of all d Id) as (l' & E' & N). rewrite Ed in E'. injection E' as <-. destruct Id as (I1 & A1 & C1 & F1 & G1). unfold w, P_Viewer.inv, coherent. cbn. repeat split; auto; try lia. apply good_app; [exact G1|]. cbn. split; [lia|]. exists l. split; [exact N|exact Ps]. }
      pose proof (increment_next layout length_of all w Iw) as Nx. replace (index layout w) with (Z.of_nat i) in Nx by (symmetry; exact Di).
      pose proof (increment_inv layout length_of all 1 w Iw) as Iv.
      assert (Lg : saved (log _ (increment_solution layout 1 w)) = numbered 0 (firstn (S i) all)).
      { assert (X : log _ (increment_solution layout 1 w) = log _ w) by (unfold increment_solution; destruct (read_lines _ _ _ _ _) as [[? ?] ?]; reflexivity). rewrite X. unfold w. cbn. rewrite saved_app, Ds. cbn. rewrite Di, Ps. exact Ss. }
      assert (Rn : running _ (increment_solution layout 1 w) = true) by (unfold increment_solution; destruct (read_lines _ _ _ _ _) as [[? ?] ?]; exact Dr).
      assert (Fb : framebuffers _ (increment_solution layout 1 w) = []) by (unfold increment_solution; destruct (read_lines _ _ _ _ _) as [[? ?] ?]; reflexivity).
      set (v := increment_solution layout 1 w) in *. clearbody v. unfold done. destruct (Nat.ltb_spec (S i) (length all)) as [Lt|Ge].
      + destruct (Z.ltb_spec (Z.of_nat i + 1) (Z.of_nat (length all))); [|lia]. rewrite Nx in *. destruct (Z.eqb_spec (Z.of_nat i + 1) 0); [lia|]. cbn. split; [exact Lg|]. exists (t _ v + 1). repeat split; cbn; try assumption; try lia; try apply Iv.
      + destruct (Z.ltb_spec (Z.of_nat i + 1) (Z.of_nat (length all))); [lia|]. rewrite Nx. cbn. split; [exact Lg|reflexivity].
    - right. assert (K1 : k + 1 < 2 * length_of l).
      { destruct (Z_lt_le_dec (k + 1) (2 * length_of l)) as [X|X]; [exact X|]. exfalso. destruct (buffers_all layout (framebuffers _ d) (range (length_of l))) as (ps & Y); [|congruence]. intros a Ia. apply range_in in Ia. destruct (covered (length_of l) t0 a (pos l) Ia) as (j & Hj & <-). apply Db. lia. }
      split; [exact K1|]. split; [exact Id|]. cbn. split; [exact Dr|]. split; [exact Di|]. split; [lia|]. split; [exact Ds|]. intros l' j L' Hj. rewrite L in L'. injection L' as <-. apply Db. exact Hj.
  Qed.
  Lemma finish_one i t0 l : nth_error all i = Some l -> forall m k s h, mid i t0 k s -> 0 <= k < 2 * length_of l -> (Z.to_nat (2 * length_of l - k) <= m)%nat ->
    Forall quiet h -> (m <= length h)%nat -> exists h2 s', run h s = run h2 s' /\ done i s' /\ (length h <= length h2 + m)%nat /\ Forall quiet h2.
  Proof.
    intros L. induction m as [|m IH]; intros k s h M K Le Q Lh; [lia|]. destruct h as [|es h]; cbn in Lh; [lia|]. inversion Q as [|? ? Qe Qh]; subst.
    destruct (step i t0 k s l es L M K Qe) as (s' & E & [D|(K1 & M1)]).
    - exists h, s'. cbn. destruct M as (_ & R & _). rewrite R, E. split; [reflexivity|]. split; [exact D|]. split; [lia|exact Qh].
    - destruct (IH (k + 1) s' h M1 ltac:(lia) ltac:(lia) Qh ltac:(lia)) as (h2 & s2 & E2 & D2 & L2 & Q2). exists h2, s2. cbn. destruct M as (_ & R & _). rewrite R, E. split; [exact E2|]. split; [exact D2|]. split; [cbn; lia|exact Q2].
  Qed.
  Definition total (ls : list layout) : nat := fold_right (fun l n => (Z.to_nat (2 * length_of l) + n)%nat) 0%nat ls.
  Lemma skipn_nth {A} (l : list A) i x : nth_error l i = Some x -> skipn i l = x :: skipn (S i) l.
  Proof. revert i. induction l as [|y l IH]; intros [|i] H; try discriminate; cbn in *; [congruence|]. apply IH. exact H. Qed.
  Lemma finish m : forall i t0 s h, (length all - i <= m)%nat -> (i < length all)%nat -> mid i t0 0 s -> Forall quiet h -> (total (skipn i all) <= length h)%nat ->
    exists s', run h s = Some s' /\ running _ s' = false /\ saved (log _ s') = numbered 0 all.
  Proof.
    induction m as [|m IH]; intros i t0 s h Lm Li M Q Lh; [lia|]. destruct (nth_error all i) as [l|] eqn:L; [|apply nth_error_None in L; lia].
    rewrite (skipn_nth _ _ _ L) in Lh. cbn [total fold_right] in Lh. fold (total (skipn (S i) all)) in Lh. pose proof (pos l).
    destruct (finish_one i t0 l L (Z.to_nat (2 * length_of l)) 0 s h M ltac:(lia) ltac:(lia) Q ltac:(lia)) as (h2 & s2 & E & [Sv D] & L2 & Q2). rewrite E.
    destruct (Nat.ltb_spec (S i) (length all)) as [Lt|Ge].
    - destruct D as (t1 & M1). apply (IH (S i) t1 s2 h2); auto; try lia.
    - exists s2. split; [destruct h2; cbn; [|rewrite D]; reflexivity|]. split; [exact D|]. rewrite Sv. rewrite firstn_all2 by lia. reflexivity.
  Qed.
End Export.
