(** Facts about dictionaries and sorting. *)
From Coq Require Import ZArith List Bool Lia Permutation Sorted.
From Verif Require Import M_Dict.
Import ListNotations.

Section Dict.
  Context {K V : Type} (eqb : K -> K -> bool).
  Hypothesis eqb_spec : forall x y, reflect (x = y) (eqb x y).
  Implicit Types (d : list (K * V)).

  Lemma dget_in k v d : dget eqb k d = Some v -> In (k, v) d.
  Proof using eqb_spec.
    induction d as [|[k' v'] d IH]; cbn; [discriminate|]. destruct (eqb_spec k k') as [->|N].
    - intros [= ->]. left. reflexivity.
    - intros H. right. auto.
  Qed.
  Lemma dget_none k d : dget eqb k d = None <-> ~ In k (map fst d).
  Proof using eqb_spec.
    induction d as [|[k' v'] d IH]; cbn; [tauto|]. destruct (eqb_spec k k') as [->|N].
    - split; [discriminate|]. intros H. exfalso. apply H. left. reflexivity.
    - rewrite IH. split; [intros H [C|C]; [congruence|contradiction]|intros H C; apply H; right; exact C].
  Qed.
  Lemma dget_nodup k v d : NoDup (map fst d) -> In (k, v) d -> dget eqb k d = Some v.
  Proof using eqb_spec.
    induction d as [|[k' v'] d IH]; cbn; [tauto|]. intros N [E|E]; inversion N; subst.
    - injection E as -> ->. destruct (eqb_spec k k); congruence.
    - destruct (eqb_spec k k') as [->|]; [|auto]. exfalso. apply H1. apply (in_map fst) in E. exact E.
  Qed.
  Lemma dget_dset k v d k' : dget eqb k' (dset eqb k v d) = if eqb k' k then Some v else dget eqb k' d.
  Proof using eqb_spec.
    induction d as [|[k2 v2] d IH]; cbn; [destruct (eqb k' k); reflexivity|].
    destruct (eqb_spec k k2) as [->|N]; cbn.
    - destruct (eqb k' k2); reflexivity.
    - rewrite IH. destruct (eqb_spec k' k2) as [E1|], (eqb_spec k' k) as [E2|]; try reflexivity. congruence.
  Qed.
  Lemma dset_keys k v d x : In x (map fst (dset eqb k v d)) <-> x = k \/ In x (map fst d).
  Proof using eqb_spec.
    induction d as [|[k2 v2] d IH]; cbn; [intuition congruence|].
    destruct (eqb_spec k k2) as [->|N]; cbn; [|rewrite IH]; intuition congruence.
  Qed.
  Lemma dset_nodup k v d : NoDup (map fst d) -> NoDup (map fst (dset eqb k v d)).
  Proof using eqb_spec.
    induction d as [|[k2 v2] d IH]; cbn; intros N; [constructor; [intros []|constructor]|].
    inversion N; subst. destruct (eqb_spec k k2) as [->|]; cbn; [exact N|]. constructor; [|auto].
    rewrite dset_keys. intros [->|C]; congruence.
  Qed.
  Lemma dset_fresh k v d : ~ In k (map fst d) -> dset eqb k v d = d ++ [(k, v)].
  Proof using eqb_spec.
    induction d as [|[k2 v2] d IH]; cbn; intros N; [reflexivity|].
    destruct (eqb_spec k k2) as [->|]; [exfalso; apply N; left; reflexivity|]. rewrite IH; [reflexivity|]. tauto.
  Qed.
  Lemma dset_in k v d x y : NoDup (map fst d) ->
    In (x, y) (dset eqb k v d) <-> (x = k /\ y = v) \/ (x <> k /\ In (x, y) d).
  Proof using eqb_spec.
    intros N. split.
    - intros H. pose proof (dget_nodup x y _ (dset_nodup k v d N) H) as G. rewrite dget_dset in G.
      destruct (eqb_spec x k) as [->|]; [left; split; congruence|right; split; [assumption|apply dget_in; exact G]].
    - intros H. apply dget_in. rewrite dget_dset. destruct H as [[-> ->]|[H1 H2]].
      + destruct (eqb_spec k k); congruence.
      + destruct (eqb_spec x k); [contradiction|]. apply dget_nodup; assumption.
  Qed.
  Lemma ddel_in k d x y : NoDup (map fst d) -> In (x, y) (ddel eqb k d) <-> x <> k /\ In (x, y) d.
  Proof using eqb_spec.
    induction d as [|[k2 v2] d IH]; cbn; intros N; [tauto|]. inversion N; subst.
    destruct (eqb_spec k k2) as [->|NE]; cbn.
    - split.
      + intros H. split; [|right; exact H]. intros ->. apply H1. apply (in_map fst) in H. exact H.
      + intros [H [E|E]]; [congruence|exact E].
    - rewrite (IH H2). split; [intros [E|[E1 E2]]|intros [E1 [E|E]]]; try tauto.
      + split; [congruence|left; exact E].
  Qed.
  Lemma ddel_keys k d x : NoDup (map fst d) -> In x (map fst (ddel eqb k d)) <-> x <> k /\ In x (map fst d).
  Proof using eqb_spec.
    intros N. rewrite !in_map_iff. split.
    - intros ([a b] & <- & H). apply (ddel_in k d a b N) in H. cbn. split; [tauto|]. exists (a, b). cbn. tauto.
    - intros [NE ([a b] & <- & H)]. exists (a, b). split; [reflexivity|]. apply (ddel_in k d a b N). tauto.
  Qed.
  Lemma ddel_nodup k d : NoDup (map fst d) -> NoDup (map fst (ddel eqb k d)).
  Proof using eqb_spec.
    induction d as [|[k2 v2] d IH]; cbn; intros N; [constructor|]. inversion N; subst.
    destruct (eqb k k2); cbn; [assumption|]. constructor; [|auto]. rewrite ddel_keys; [tauto|assumption].
  Qed.
End Dict.

Section Sort.
  Context {A : Type} (le : A -> A -> bool).
  Lemma insert_perm x l : Permutation (insert le x l) (x :: l).
  Proof. induction l as [|y l IH]; cbn; [reflexivity|]. destruct (le x y); [reflexivity|]. rewrite IH. apply perm_swap. Qed.
  Lemma sort_perm l : Permutation (sort le l) l.
  Proof. induction l as [|x l IH]; cbn; [reflexivity|]. rewrite insert_perm. constructor. exact IH. Qed.
  Hypothesis le_total : forall x y, le x y = true \/ le y x = true.
  Hypothesis le_trans : forall x y z, le x y = true -> le y z = true -> le x z = true.
  Let R x y := le x y = true.
  Lemma insert_sorted x l : StronglySorted R l -> StronglySorted R (insert le x l).
  Proof using le_total le_trans.
    induction 1 as [|y l S IH F]; cbn; [repeat constructor|]. destruct (le x y) eqn:E.
    - constructor; [constructor; assumption|]. constructor; [exact E|]. eapply Forall_impl; [|exact F].
      intros z Hz. exact (le_trans _ _ _ E Hz).
    - constructor; [exact IH|]. apply Forall_forall. intros z Hz. apply (Permutation_in _ (insert_perm x l)) in Hz.
      destruct Hz as [<-|Hz]; [destruct (le_total x y) as [C|C]; [congruence|exact C]|].
      rewrite Forall_forall in F. exact (F z Hz).
  Qed.
  Lemma sort_sorted l : StronglySorted R (sort le l).
  Proof using le_total le_trans. induction l as [|x l IH]; cbn; [constructor|]. apply insert_sorted. exact IH. Qed.
End Sort.
Lemma sort_by_perm {A} (key : A -> Z) l : Permutation (sort_by key l) l.
Proof. apply sort_perm. Qed.
Lemma sort_by_sorted {A} (key : A -> Z) l : StronglySorted (fun x y => (key x <= key y)%Z) (sort_by key l).
Proof.
  pose proof (sort_sorted (fun x y => (key x <=? key y)%Z)) as H.
  specialize (H ltac:(intros; rewrite !Z.leb_le; lia) ltac:(intros *; rewrite !Z.leb_le; lia) l).
  unfold sort_by. induction H as [|x m S IH F]; constructor; [exact IH|].
  eapply Forall_impl; [|exact F]. intros y Hy. apply Z.leb_le. exact Hy.
Qed.
