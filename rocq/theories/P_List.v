(** Generic facts about lists. *)
From Coq Require Import ZArith List Bool Lia FinFun.
Import ListNotations.

Lemma NoDup_map_inj {A B} (f : A -> B) l : (forall x y, f x = f y -> x = y) -> NoDup l -> NoDup (map f l).
Proof. intros H N. apply FinFun.Injective_map_NoDup; [exact H|exact N]. Qed.

Lemma NoDup_flat_map {A B} (f : A -> list B) l : NoDup l -> (forall x, In x l -> NoDup (f x)) ->
  (forall x y b, In x l -> In y l -> In b (f x) -> In b (f y) -> x = y) -> NoDup (flat_map f l).
Proof.
  induction 1 as [|x l Hx N IH]; intros H1 H2; cbn; [constructor|].
  assert (N1 : NoDup (f x)) by (apply H1; left; reflexivity).
  assert (N2 : NoDup (flat_map f l)).
  { apply IH; [intros; apply H1; right; assumption|]. intros a b c Ha Hb. apply H2; right; assumption. }
  assert (D : forall b, In b (f x) -> ~ In b (flat_map f l)).
  { intros b Hb C. apply in_flat_map in C. destruct C as (y & Hy & Hby).
    assert (x = y) by (apply (H2 x y b); [left; reflexivity|right; assumption|assumption|assumption]). subst. contradiction. }
  revert N1 D. generalize (f x). intros fx. induction fx as [|b fx IHf]; intros N1 D; [exact N2|].
  inversion N1; subst. cbn. constructor.
  - rewrite in_app_iff. intros [C|C]; [contradiction|]. eapply D; [left; reflexivity|exact C].
  - apply IHf; [assumption|]. intros c Hc. apply D. right. exact Hc.
Qed.


Lemma skipn_add {A} (m n : nat) (l : list A) : skipn (m + n) l = skipn n (skipn m l).
Proof. revert l. induction m as [|m IH]; intros l; [reflexivity|]. destruct l; cbn; [destruct n; reflexivity|apply IH]. Qed.
