(** Composition of clause generators that allocate variables; the contract of
    the cardinality encoder can be met. *)
From Coq Require Import ZArith List Bool Lia.
From Verif Require Import Spec_Cnf M_Json M_Util M_Card M_Oracle M_Balancer P_Cnf P_Util P_Card P_Grid P_GridOk.
Import ListNotations.
Open Scope Z_scope.

(** [f] started at any top at least [n] expresses [P], a condition on the
    variables up to [n]. *)
Definition local (n : Z) (P : assignment -> Prop) : Prop := forall a b, agree n a b -> P a -> P b.
Definition gen_ok (n : Z) (f : gen) (P : assignment -> Prop) : Prop :=
  local n P /\
  forall top cs top', n <= top -> f top = Some (cs, top') ->
    top <= top' /\ cnf_ok top' cs /\ encodes top cs P.

Lemma local_and n P Q : local n P -> local n Q -> local n (fun a => P a /\ Q a).
Proof. intros H1 H2 a b E [X Y]. split; [eapply H1|eapply H2]; eauto. Qed.
Lemma local_sat n cs : cnf_ok n cs -> local n (fun a => sat a cs = true).
Proof. intros H a b E. rewrite (sat_agree n a b cs E H). auto. Qed.

Lemma gen_ok_pure n o : (forall cs, o = Some cs -> cnf_ok n cs) ->
  gen_ok n (pure o) (fun a => match o with Some cs => sat a cs = true | None => True end).
Proof.
  intros H. split.
  - destruct o as [cs|]; [apply local_sat; auto|intros a b _ _; exact I].
  - intros top cs top' Ht E. unfold pure in E. destruct o as [c|]; [|discriminate]. cbn [obind] in E. injection E as -> ->.
    split; [lia|]. split; [eapply cnf_ok_mono; [exact Ht|apply H; reflexivity]|]. split; [auto|].
    intros a S. exists a. split; [apply agree_refl|exact S].
Qed.

Lemma gen_ok_ext n f P Q : (forall a, P a <-> Q a) -> gen_ok n f P -> gen_ok n f Q.
Proof.
  intros E [L H]. split.
  - intros a b Hab HQ. apply E. eapply L; [exact Hab|]. apply E. exact HQ.
  - intros top cs top' Ht Ef. destruct (H top cs top' Ht Ef) as (H1 & H2 & H3 & H4). split; [exact H1|]. split; [exact H2|]. split.
    + intros a S. apply E. auto.
    + intros a S. apply H4. apply E. exact S.
Qed.

Lemma seq_gen_cons f r top : seq_gen (f :: r) top =
  match f top with
  | Some (cs, top1) => match seq_gen r top1 with Some (cs', top2) => Some ((cs ++ cs')%list, top2) | None => None end
  | None => None
  end.
Proof. cbn [seq_gen]. unfold obind. destruct (f top) as [[cs t1]|]; [|reflexivity]. destruct (seq_gen r t1) as [[cs' t2]|]; reflexivity. Qed.

Lemma gen_ok_nil n : gen_ok n (seq_gen []) (fun _ => True).
Proof.
  split; [intros a b _ _; exact I|]. intros top cs top' Ht E. cbn [seq_gen] in E. injection E as <- <-.
  split; [lia|]. split; [constructor|]. split; [auto|]. intros a _. exists a. split; [apply agree_refl|reflexivity].
Qed.

Lemma encodes_app top top1 cs1 cs2 P Q n : n <= top -> top <= top1 -> local n Q -> cnf_ok top1 cs1 ->
  encodes top cs1 P -> encodes top1 cs2 Q -> encodes top (cs1 ++ cs2) (fun a => P a /\ Q a).
Proof.
  intros Hn Ht L Ok [S1 C1] [S2 C2]. split.
  - intros a. rewrite sat_app_iff. intros [H1 H2]. auto.
  - intros a [HP HQ]. destruct (C1 a HP) as (b & Ab & Sb).
    assert (HQ' : Q b) by (eapply L; [|exact HQ]; eapply agree_mono; [exact Hn|exact Ab]).
    destruct (C2 b HQ') as (c & Ac & Sc). exists c. split.
    + eapply agree_trans; [exact Ab|]. eapply agree_mono; [exact Ht|exact Ac].
    + rewrite sat_app_iff. split; [|exact Sc]. rewrite <- (sat_agree top1 b c cs1 Ac Ok). exact Sb.
Qed.

Lemma gen_ok_cons n f r P Q : gen_ok n f P -> gen_ok n (seq_gen r) Q -> gen_ok n (seq_gen (f :: r)) (fun a => P a /\ Q a).
Proof.
  intros [L1 H1] [L2 H2]. split; [apply local_and; assumption|]. intros top cs top' Ht E. rewrite seq_gen_cons in E.
  destruct (f top) as [[c1 t1]|] eqn:E1; [|discriminate]. destruct (seq_gen r t1) as [[c2 t2]|] eqn:E2; [|discriminate].
  injection E as <- <-. destruct (H1 _ _ _ Ht E1) as (M1 & O1 & C1). destruct (H2 t1 c2 t2 ltac:(lia) E2) as (M2 & O2 & C2).
  split; [lia|]. split; [apply cnf_ok_app; [eapply cnf_ok_mono; [exact M2|exact O1]|exact O2]|].
  eapply encodes_app; eauto.
Qed.

Lemma gen_ok_app n l1 l2 P Q : gen_ok n (seq_gen l1) P -> gen_ok n (seq_gen l2) Q -> gen_ok n (seq_gen (l1 ++ l2)) (fun a => P a /\ Q a).
Proof.
  intros [L1 H1] [L2 H2]. split; [apply local_and; assumption|].
  assert (X : forall l1 top, seq_gen (l1 ++ l2) top =
    match seq_gen l1 top with
    | Some (cs, top1) => match seq_gen l2 top1 with Some (cs', top2) => Some ((cs ++ cs')%list, top2) | None => None end
    | None => None end).
  { clear. induction l1 as [|f r IH]; intros top.
    - cbn [app]. change (seq_gen [] top) with (Some (@nil (list Z), top)). cbn iota. destruct (seq_gen l2 top) as [[cs t]|]; reflexivity.
    - cbn [app]. rewrite !seq_gen_cons. destruct (f top) as [[c t]|]; [|reflexivity]. rewrite IH.
      destruct (seq_gen r t) as [[c1 t1]|]; [|reflexivity]. destruct (seq_gen l2 t1) as [[c2 t2]|]; [|reflexivity]. rewrite app_assoc. reflexivity. }
  intros top cs top' Ht E. rewrite X in E.
  destruct (seq_gen l1 top) as [[c1 t1]|] eqn:E1; [|discriminate]. destruct (seq_gen l2 t1) as [[c2 t2]|] eqn:E2; [|discriminate].
  injection E as <- <-. destruct (H1 _ _ _ Ht E1) as (M1 & O1 & C1). destruct (H2 t1 c2 t2 ltac:(lia) E2) as (M2 & O2 & C2).
  split; [lia|]. split; [apply cnf_ok_app; [eapply cnf_ok_mono; [exact M2|exact O1]|exact O2]|].
  eapply encodes_app; eauto.
Qed.

Lemma gen_ok_map {A} n (F : A -> gen) (P : A -> assignment -> Prop) l :
  (forall x, In x l -> gen_ok n (F x) (P x)) -> gen_ok n (seq_gen (map F l)) (fun a => forall x, In x l -> P x a).
Proof.
  induction l as [|x l IH]; intros H.
  - eapply gen_ok_ext; [|apply gen_ok_nil]. intros a. split; [intros _ x []|intros _; exact I].
  - cbn [map]. eapply gen_ok_ext; [|apply gen_ok_cons; [apply H; left; reflexivity|apply IH; intros y Hy; apply H; right; exact Hy]].
    intros a. cbv beta. split; [intros [H1 H2] y [<-|Hy]; auto|]. intros Hall. split; [apply Hall; left; reflexivity|intros y Hy; apply Hall; right; exact Hy].
Qed.

(** ** The cardinality encoder *)
Lemma gen_ok_nonempty n ls k f rel : 0 <= n -> Forall (lit_ok n) ls -> honest_for f rel ->
  gen_ok n (fun top => nonempty (f ls k top)) (fun a => rel (count a ls) k).
Proof.
  intros Hn Hl H. split.
  - intros a b E. unfold count. rewrite (values_agree n a b ls E Hl). auto.
  - intros top cs top' Ht E. unfold nonempty in E. destruct (f ls k top) as [[c t]|] eqn:Ef; [|discriminate].
    assert (E' : (c, t) = (cs, top')) by (destruct c; [discriminate|congruence]). injection E' as -> ->.
    apply (H ls k top cs top'); [lia|eapply Forall_ok_mono; [exact Ht|exact Hl]|exact Ef].
Qed.
Lemma gen_ok_equals E n ls k : honest E -> 0 <= n -> Forall (lit_ok n) ls ->
  gen_ok n (library_equals E ls k) (fun a => count a ls = k).
Proof. intros (H & _) Hn Hl. apply (gen_ok_nonempty n ls k _ _ Hn Hl H). Qed.
Lemma gen_ok_atleast E n ls k : honest E -> 0 <= n -> Forall (lit_ok n) ls ->
  gen_ok n (library_atleast E ls k) (fun a => k <= count a ls).
Proof. intros (_ & _ & H) Hn Hl. apply (gen_ok_nonempty n ls k _ _ Hn Hl H). Qed.

Lemma tree_sat ok ls : Forall nonzero ls -> forall k a, sat a (tree ok ls k) = ok (k + count a ls).
Proof.
  induction 1 as [|l ls Hl _ IH]; intros k a; cbn [tree].
  - unfold count. cbn. rewrite Z.add_0_r. destruct (ok k); reflexivity.
  - rewrite sat_app, !sat_implies by (constructor; [unfold nonzero in *; lia|constructor]). cbn [forallb].
    rewrite !IH, count_cons, evl_neg by exact Hl.
    destruct (evl a l); cbn [negb andb orb Z.b2z]; rewrite ?Bool.andb_true_r, ?Bool.orb_false_r; cbn [andb negb orb]; f_equal; lia.
Qed.
Lemma tree_ok n ok ls : Forall (lit_ok n) ls -> forall k, cnf_ok n (tree ok ls k).
Proof.
  induction 1 as [|l ls Hl _ IH]; intros k; cbn [tree].
  - destruct (ok k); [constructor|]. apply cnf_ok_cons; constructor.
  - apply cnf_ok_app; apply implies_ok; auto; apply Forall_cons; try apply Forall_nil; try exact Hl; apply lit_ok_opp; exact Hl.
Qed.
Lemma naive_honest : honest naive_encoder.
Proof.
  assert (X : forall (ok : Z -> Z -> bool) rel, (forall k n, ok n k = true <-> rel k n) ->
    honest_for (fun ls n top => Some (tree (ok n) ls 0, top)) rel).
  { intros ok rel H ls n top cs top' Ht Hl E. apply Some_inj in E. injection E as <- <-. split; [lia|].
    split; [apply tree_ok; exact Hl|]. assert (K : forall a, sat a (tree (ok n) ls 0) = true <-> rel (count_true (values a ls)) n).
    { intros a. rewrite tree_sat by (eapply Forall_ok_nonzero; exact Hl). rewrite H. reflexivity. }
    split; [intros a; apply K|]. intros a Ha. exists a. split; [apply agree_refl|apply K; exact Ha]. }
  split; [|split]; cbn [naive_encoder enc_equals enc_atmost enc_atleast].
  - apply (X (fun n k => k =? n)). intros k n. apply Z.eqb_eq.
  - apply (X (fun n k => k <=? n)). intros k n. apply Z.leb_le.
  - apply (X (fun n k => n <=? k)). intros k n. apply Z.leb_le.
Qed.
