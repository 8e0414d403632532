(** Proofs about simplify: pairs of splitters. *)
From Verif Require Import P_Dict P_Benes P_Network P_Network2.
From Coq Require Import ZArith QArith List Bool Lia Permutation Lqa.
From Verif Require Import M_Json M_Dict M_Network M_Simplify Spec_Simplify P_Simplify P_Simplify2 P_Simplify3.
Import ListNotations.
Local Open Scope Z_scope.

Section Pairs.
  Variable order : list Z -> list Z.
  Hypothesis Hord : forall l, Permutation (order l) l.
  Lemma to_side_belts x y : Permutation (belts (to_side order [x; y])) [x; y].
  Proof.
    unfold to_side. pose proof (Hord [x; y]) as P. pose proof (Permutation_length P) as L. cbn in L. destruct (length_two _ L) as (p & q & E). rewrite E in *. exact P.
  Qed.
  Variables (allow : bool) (net : network) (a b : splitter).
  Hypothesis Sg : asingle (anet net).
  Hypothesis Ia : In a net.
  Hypothesis Ib : In b net.
  Hypothesis Dab : a <> b.
  Let R := remove_first b (remove_first a net).
  Lemma in_rest : In b (remove_first a net).
  Proof. apply remove_first_in; [exact Ia|exact Ib|congruence]. Qed.
  Lemma net_perm : Permutation net (a :: b :: R).
  Proof. rewrite (remove_first_perm a net Ia) at 1. apply perm_skip. apply remove_first_perm. exact in_rest. Qed.
  Lemma new_perm m : Permutation (replace_first b m (remove_first a net)) (m :: R).
  Proof. apply replace_first_perm. exact in_rest. Qed.
  Lemma belts_nodup nd : In nd net -> NoDup (belts (fst nd)) /\ NoDup (belts (snd nd)).
  Proof. intros I. apply single_anet in Sg. destruct Sg as [X Y]. split; [exact (nodup_flat ins net nd X I)|exact (nodup_flat outs net nd Y I)]. Qed.

  Lemma pair_merge : (forall c, In c (outs a) <-> In c (ins b)) -> step (anet net) (anet (replace_first b (fst a, snd b) (remove_first a net))).
  Proof.
    intros E. destruct (belts_nodup a Ia) as [_ N1]. destruct (belts_nodup b Ib) as [N2 _].
    assert (P : Permutation (outs a) (ins b)) by (apply NoDup_Permutation; assumption).
    pose proof (equiv_perm _ _ (anet_perm _ _ net_perm)) as E1. pose proof (equiv_perm _ _ (anet_perm _ _ (new_perm (fst a, snd b)))) as E2.
    pose proof (equiv_single _ _ E1 Sg) as S'.
    apply (step_equiv _ _ _ _ E1 E2). exists (fun c => c). split; [apply merge_weak; assumption|apply merge_strong; assumption].
  Qed.
  Lemma in_R s : In s net -> s <> a -> s <> b -> In s R.
  Proof. intros I D1 D2. apply (Permutation_in _ net_perm) in I. destruct I as [I|[I|I]]; [congruence|congruence|exact I]. Qed.

  Lemma nodup_pair x1 x2 y1 y2 (sel : splitter -> list Z) : NoDup (flat_map sel net) -> sel a = [x1; x2] -> sel b = [y1; y2] -> NoDup [x1; x2; y1; y2].
  Proof.
    intros N Ea Eb. pose proof (Permutation_NoDup (Permutation_flat_map sel net_perm) N) as N'. cbn in N'. rewrite Ea, Eb in N'. cbn in N'. change (NoDup ([x1; x2; y1; y2] ++ flat_map sel R)) in N'. apply nodup_parts in N'. apply N'.
  Qed.

  Lemma pair_join x1 x2 y1 y2 oa ob : ins a = [x1; x2] -> ins b = [y1; y2] -> outs a = [oa] -> outs b = [ob] ->
    negb (mem (-1) (map (source_of net) [x1; x2])) = true -> set_eqb (map (source_of net) [x1; x2]) (map (source_of net) [y1; y2]) = true ->
    step (anet net) (anet (erase [y1; y2] (replace_first b (to_side order [x1; x2], (Some oa, Some ob)) (remove_first a net)))).
  Proof.
    intros Ea Eb Oa Ob H1 H2. pose proof Sg as Sg'. apply single_anet in Sg'. destruct Sg' as [Sg1 Sg2]. pose proof (nodup_pair _ _ _ _ ins Sg1 Ea Eb) as D.
    destruct (common_ends snd net x1 x2 y1 y2 D H1 H2) as (s & t & u1 & u2 & Is & It & Pu & Ps & Pt). fold (outs s) in Ps. fold (outs t) in Pt.
    pose proof (Permutation_length Ps) as Ls. pose proof (Permutation_length Pt) as Lt.
    assert (L1 : length (outs a) = 1%nat) by (rewrite Oa; reflexivity). assert (L2 : length (outs b) = 1%nat) by (rewrite Ob; reflexivity). cbn in Ls, Lt.
    assert (Dst : s <> t).
    { intros <-. assert (X : In x2 [x1; u1]) by (apply (Permutation_in _ Ps); apply (Permutation_in _ (Permutation_sym Pt)); left; reflexivity). assert (Y : In u1 [y1; y2]) by (apply (Permutation_in _ Pu); left; reflexivity). assert (A1 : ~ In x1 [x2; y1; y2] /\ ~ In x2 [y1; y2]) by (inversion D as [|? ? ? A1']; inversion A1'; subst; auto). cbn in *. intuition congruence. }
    assert (Rs : In s R) by (apply in_R; [exact Is|intros ->; lia|intros ->; lia]). assert (Rt : In t R) by (apply in_R; [exact It|intros ->; lia|intros ->; lia]).
    destruct (pick_two R s t Rs Rt Dst) as (rest & PR).
    set (M := ([x1; x2], [oa]) :: ([u1; u2], [ob]) :: (ins s, [x1; u1]) :: (ins t, [x2; u2]) :: anet rest).
    assert (E1 : equiv (anet net) M).
    { apply (equiv_list _ _ (anet (a :: b :: s :: t :: rest))); [apply anet_perm; rewrite net_perm, PR; apply Permutation_refl|]. unfold M. cbn [anet map]. constructor; [unfold anode; rewrite Ea, Oa; apply like_refl|]. constructor; [unfold anode; rewrite Eb, Ob; split; [apply Permutation_sym; exact Pu|apply Permutation_refl]|]. constructor; [split; [apply Permutation_refl|exact Ps]|]. constructor; [split; [apply Permutation_refl|exact Pt]|]. apply likes_refl. }
    pose proof (equiv_single _ _ E1 Sg) as S'. unfold M in S'. pose proof (join_distinct _ _ _ _ _ _ _ _ _ S') as (G1 & G2 & G3 & G4 & G5 & G6 & G7 & G8 & G9 & X & _). unfold xs in *.
    assert (Yu : forall c, In c [y1; y2] <-> In c [u1; u2]) by (intros c; split; apply Permutation_in; [apply Permutation_sym; exact Pu|exact Pu]).
    assert (Yx : forall c, In c [y1; y2] -> In c [x1; x2; u1; u2]) by (intros c Hc; apply Yu in Hc; right; right; exact Hc).
    apply (step_equiv _ _ M (([x1; x2], [oa; ob]) :: (ins s, [x1]) :: (ins t, [x2]) :: anet rest)); [exact E1| |].
    - rewrite erase_anet. pose proof (eraseN_perm [y1; y2] _ _ (anet_perm _ _ (new_perm (to_side order [x1; x2], (Some oa, Some ob))))) as P1.
      pose proof (anet_perm _ _ PR) as P2. refine (equiv_list _ _ _ (Permutation_trans P1 _) _). { cbn [anet map]. apply perm_skip. apply eraseN_perm. exact P2. }
      cbn [anet map]. constructor; [|constructor; [|constructor]].
      + split; cbn [eraseN anode fst snd].
        * unfold ins. cbn [fst]. rewrite filter_keep; [apply to_side_belts|]. intros c Hc. apply (Permutation_in _ (to_side_belts x1 x2)) in Hc. intros K. apply Yu in K. cbn in Hc, K. intuition congruence.
        * unfold outs. cbn [snd belts]. rewrite filter_keep; [apply Permutation_refl|]. intros c Hc K. apply Yx in K. destruct Hc as [<-|[<-|[]]]; contradiction.
      + split; cbn [eraseN anode fst snd].
        * rewrite filter_keep; [apply Permutation_refl|]. intros c Hc K. apply Yx in K. destruct (X c K) as (K' & _). contradiction.
        * rewrite (filter_perm _ _ _ Ps). change [x1; u1] with ([x1] ++ [u1])%list. rewrite filter_app, (filter_drop [y1; y2] u1) by (apply Yu; left; reflexivity). cbn [filter]. rewrite app_nil_r. fold (filter (fun c => negb (existsb (Z.eqb c) [y1; y2])) [x1]).
          change (if negb (existsb (Z.eqb x1) [y1; y2]) then [x1] else []) with (filter (fun c => negb (existsb (Z.eqb c) [y1; y2])) [x1]).
          rewrite filter_keep; [apply Permutation_refl|]. intros c [<-|[]] K. apply Yu in K. cbn in K. intuition congruence.
      + split; cbn [eraseN anode fst snd].
        * rewrite filter_keep; [apply Permutation_refl|]. intros c Hc K. apply Yx in K. destruct (X c K) as (_ & K' & _). contradiction.
        * rewrite (filter_perm _ _ _ Pt). change [x2; u2] with ([x2] ++ [u2])%list. rewrite filter_app, (filter_drop [y1; y2] u2) by (apply Yu; right; left; reflexivity). cbn [filter]. rewrite app_nil_r.
          change (if negb (existsb (Z.eqb x2) [y1; y2]) then [x2] else []) with (filter (fun c => negb (existsb (Z.eqb c) [y1; y2])) [x2]).
          rewrite filter_keep; [apply Permutation_refl|]. intros c [<-|[]] K. apply Yu in K. cbn in K. intuition congruence.
      + assert (Z : forall n, In n (anet rest) -> eraseN [y1; y2] n = n).
        { intros n In_. unfold eraseN. rewrite !filter_keep; [destruct n; reflexivity| |]; intros c Hc K; apply Yx in K; destruct (X c K) as (_ & _ & K1 & K2); [apply K2|apply K1]; apply in_flat_map; exists n; auto. }
        fold (anet rest). clear - Z. induction (anet rest) as [|n N IH]; constructor; [rewrite Z by (left; reflexivity); apply like_refl|apply IH; intros; apply Z; right; assumption].
    - exists (fun c => c). split; [apply join_weak; exact S'|apply join_strong; exact S'].
  Qed.

  Lemma pair_split x1 x2 y1 y2 ia ib : outs a = [x1; x2] -> outs b = [y1; y2] -> ins a = [ia] -> ins b = [ib] ->
    negb (mem (-1) (map (drain_of net) [x1; x2])) = true -> set_eqb (map (drain_of net) [x1; x2]) (map (drain_of net) [y1; y2]) = true ->
    step (anet net) (anet (erase [y1; y2] (replace_first b ((Some ia, Some ib), to_side order [x1; x2]) (remove_first a net)))).
  Proof.
    intros Ea Eb Oa Ob H1 H2. pose proof Sg as Sg'. apply single_anet in Sg'. destruct Sg' as [Sg1 Sg2]. pose proof (nodup_pair _ _ _ _ outs Sg2 Ea Eb) as D.
    destruct (common_ends fst net x1 x2 y1 y2 D H1 H2) as (s & t & u1 & u2 & Is & It & Pu & Ps & Pt). fold (ins s) in Ps. fold (ins t) in Pt.
    pose proof (Permutation_length Ps) as Ls. pose proof (Permutation_length Pt) as Lt.
    assert (L1 : length (ins a) = 1%nat) by (rewrite Oa; reflexivity). assert (L2 : length (ins b) = 1%nat) by (rewrite Ob; reflexivity). cbn in Ls, Lt.
    assert (Dst : s <> t).
    { intros <-. assert (X : In x2 [x1; u1]) by (apply (Permutation_in _ Ps); apply (Permutation_in _ (Permutation_sym Pt)); left; reflexivity). assert (Y : In u1 [y1; y2]) by (apply (Permutation_in _ Pu); left; reflexivity). assert (A1 : ~ In x1 [x2; y1; y2] /\ ~ In x2 [y1; y2]) by (inversion D as [|? ? ? A1']; inversion A1'; subst; auto). cbn in *. intuition congruence. }
    assert (Rs : In s R) by (apply in_R; [exact Is|intros ->; lia|intros ->; lia]). assert (Rt : In t R) by (apply in_R; [exact It|intros ->; lia|intros ->; lia]).
    destruct (pick_two R s t Rs Rt Dst) as (rest & PR).
    set (M := ([ia], [x1; x2]) :: ([ib], [u1; u2]) :: ([x1; u1], outs s) :: ([x2; u2], outs t) :: anet rest).
    assert (E1 : equiv (anet net) M).
    { apply (equiv_list _ _ (anet (a :: b :: s :: t :: rest))); [apply anet_perm; rewrite net_perm, PR; apply Permutation_refl|]. unfold M. cbn [anet map]. constructor; [unfold anode; rewrite Ea, Oa; apply like_refl|]. constructor; [unfold anode; rewrite Eb, Ob; split; [apply Permutation_refl|apply Permutation_sym; exact Pu]|]. constructor; [split; [exact Ps|apply Permutation_refl]|]. constructor; [split; [exact Pt|apply Permutation_refl]|]. apply likes_refl. }
    pose proof (equiv_single _ _ E1 Sg) as S'. unfold M in S'. pose proof (split_distinct _ _ _ _ _ _ _ _ _ S') as (G1 & G2 & G3 & G4 & G5 & G6 & G7 & G8 & G9 & X & _). unfold zs in *.
    assert (Yu : forall c, In c [y1; y2] <-> In c [u1; u2]) by (intros c; split; apply Permutation_in; [apply Permutation_sym; exact Pu|exact Pu]).
    assert (Yx : forall c, In c [y1; y2] -> In c [x1; x2; u1; u2]) by (intros c Hc; apply Yu in Hc; right; right; exact Hc).
    apply (step_equiv _ _ M (([ia; ib], [x1; x2]) :: ([x1], outs s) :: ([x2], outs t) :: anet rest)); [exact E1| |].
    - rewrite erase_anet. pose proof (eraseN_perm [y1; y2] _ _ (anet_perm _ _ (new_perm ((Some ia, Some ib), to_side order [x1; x2])))) as P1.
      pose proof (anet_perm _ _ PR) as P2. refine (equiv_list _ _ _ (Permutation_trans P1 _) _). { cbn [anet map]. apply perm_skip. apply eraseN_perm. exact P2. }
      cbn [anet map]. constructor; [|constructor; [|constructor]].
      + split; cbn [eraseN anode fst snd].
        * unfold ins. cbn [fst belts]. rewrite filter_keep; [apply Permutation_refl|]. intros c Hc K. apply Yx in K. destruct Hc as [<-|[<-|[]]]; contradiction.
        * unfold outs. cbn [snd]. rewrite filter_keep; [apply to_side_belts|]. intros c Hc. apply (Permutation_in _ (to_side_belts x1 x2)) in Hc. intros K. apply Yu in K. cbn in Hc, K. intuition congruence.
      + split; cbn [eraseN anode fst snd].
        * rewrite (filter_perm _ _ _ Ps). change [x1; u1] with ([x1] ++ [u1])%list. rewrite filter_app, (filter_drop [y1; y2] u1) by (apply Yu; left; reflexivity). cbn [filter]. rewrite app_nil_r.
          change (if negb (existsb (Z.eqb x1) [y1; y2]) then [x1] else []) with (filter (fun c => negb (existsb (Z.eqb c) [y1; y2])) [x1]).
          rewrite filter_keep; [apply Permutation_refl|]. intros c [<-|[]] K. apply Yu in K. cbn in K. intuition congruence.
        * rewrite filter_keep; [apply Permutation_refl|]. intros c Hc K. apply Yx in K. destruct (X c K) as (K' & _). contradiction.
      + split; cbn [eraseN anode fst snd].
        * rewrite (filter_perm _ _ _ Pt). change [x2; u2] with ([x2] ++ [u2])%list. rewrite filter_app, (filter_drop [y1; y2] u2) by (apply Yu; right; left; reflexivity). cbn [filter]. rewrite app_nil_r.
          change (if negb (existsb (Z.eqb x2) [y1; y2]) then [x2] else []) with (filter (fun c => negb (existsb (Z.eqb c) [y1; y2])) [x2]).
          rewrite filter_keep; [apply Permutation_refl|]. intros c [<-|[]] K. apply Yu in K. cbn in K. intuition congruence.
        * rewrite filter_keep; [apply Permutation_refl|]. intros c Hc K. apply Yx in K. destruct (X c K) as (_ & K' & _). contradiction.
      + assert (Z : forall n, In n (anet rest) -> eraseN [y1; y2] n = n).
        { intros n In_. unfold eraseN. rewrite !filter_keep; [destruct n; reflexivity| |]; intros c Hc K; apply Yx in K; destruct (X c K) as (_ & _ & K1 & K2); [apply K2|apply K1]; apply in_flat_map; exists n; auto. }
        fold (anet rest). clear - Z. induction (anet rest) as [|n N IH]; constructor; [rewrite Z by (left; reflexivity); apply like_refl|apply IH; intros; apply Z; right; assumption].
    - exists (fun c => c). split; [apply split_weak; exact S'|apply split_strong; exact S'].
  Qed.

  Lemma pair_is_step net' : try_pair order allow net a b = Becomes net' -> step (anet net) (anet net').
  Proof.
    unfold try_pair. destruct (splitter_eqb_spec a b) as [E|_]; [contradiction|]. destruct (belts_nodup a Ia) as [Na Ma]. destruct (belts_nodup b Ib) as [Nb Mb].
    rewrite !side_set_belts by assumption. fold (ins a) (outs a) (ins b) (outs b).
    destruct (set_eqb (outs a) (ins b)) eqn:E1.
    - destruct (_ || _); [discriminate|]. intros H. injection H as <-. apply pair_merge. apply set_eqb_spec. exact E1.
    - destruct (allow && _ && _) eqn:E2.
      + intros H. injection H as <-. rewrite !andb_true_iff, !Nat.eqb_eq in E2. destruct E2 as [[_ [[[L1 L2] L3] L4]] [H1 H2]].
        destruct (length_one _ L1) as (oa & Oa), (length_one _ L2) as (ob & Ob), (length_two _ L3) as (x1 & x2 & Xa), (length_two _ L4) as (y1 & y2 & Xb).
        rewrite Xa, Xb, ?Oa, ?Ob in *. cbn [only]. apply pair_join; assumption.
      + clear E2. destruct (allow && _ && _) eqn:E3; [|discriminate].
        intros H. injection H as <-. rewrite !andb_true_iff, !Nat.eqb_eq in E3. destruct E3 as [[_ [[[L1 L2] L3] L4]] [H1 H2]].
        destruct (length_one _ L1) as (oa & Oa), (length_one _ L2) as (ob & Ob), (length_two _ L3) as (x1 & x2 & Xa), (length_two _ L4) as (y1 & y2 & Xb).
        rewrite Xa, Xb, ?Oa, ?Ob in *. cbn [only]. apply pair_split; assumption.
  Qed.
End Pairs.
