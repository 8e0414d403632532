(** Following the lines of a valid layout. *)
From Coq Require Import ZArith List Bool Lia Relations.
From Verif Require Import Spec_Tile Spec_Layout Spec_Balancer P_Layout P_Walk M_Template P_Template P_List.
Import ListNotations.
Open Scope Z_scope.

Lemma pos_dec (p q : pos) : {p = q} + {p <> q}.
Proof. decide equality; apply Z.eq_dec. Qed.

(** A chain of an injective relation that starts at a point without
    predecessor visits no point twice, so it stops. *)
Lemma chase (l : list pos) (R : pos -> pos -> Prop) (P stop : pos -> Prop) x0 :
  (forall y, ~ R y x0) -> (forall x x' y, R x y -> R x' y -> x = x') ->
  (forall x, P x -> In x l) -> (forall x, P x -> stop x \/ exists y, R x y /\ P y) ->
  P x0 -> exists y, clos_refl_trans_n1 pos R x0 y /\ P y /\ stop y.
Proof.
  intros H0 Inj Fin Go Px0.
  assert (G : forall k x rest, (length l <= k + length (x :: rest))%nat -> NoDup (x :: rest) -> incl (x :: rest) l -> P x ->
    clos_refl_trans_n1 pos R x0 x -> (forall z, In z (x :: rest) -> z = x0 \/ exists z', In z' rest /\ R z' z) ->
    exists y, clos_refl_trans_n1 pos R x0 y /\ P y /\ stop y).
  { induction k as [|k IH]; intros x rest Hk Nd Inc Px Cx Inv; destruct (Go x Px) as [Sx|(y & Rxy & Py)]; try (exists x; auto; fail).
    - exfalso. assert (Ny : ~ In y (x :: rest)).
      { intros Hy. destruct (Inv y Hy) as [->|(z' & Hz & Rz)]; [eapply H0; exact Rxy|]. pose proof (Inj _ _ _ Rz Rxy). subst z'. inversion Nd; contradiction. }
      assert (N2 : NoDup (y :: x :: rest)) by (constructor; assumption).
      assert (I2 : incl (y :: x :: rest) l) by (intros z [<-|Hz]; [apply Fin; exact Py|apply Inc; exact Hz]).
      pose proof (NoDup_incl_length N2 I2). cbn [length] in *. lia.
    - assert (Ny : ~ In y (x :: rest)).
      { intros Hy. destruct (Inv y Hy) as [->|(z' & Hz & Rz)]; [eapply H0; exact Rxy|]. pose proof (Inj _ _ _ Rz Rxy). subst z'. inversion Nd; contradiction. }
      apply (IH y (x :: rest)).
      + cbn [length] in *. lia.
      + constructor; assumption.
      + intros z [<-|Hz]; [apply Fin; exact Py|apply Inc; exact Hz].
      + exact Py.
      + eapply Relation_Operators.rtn1_trans; [exact Rxy|exact Cx].
      + intros z [<-|Hz].
        * right. exists x. split; [left; reflexivity|exact Rxy].
        * destruct (Inv z Hz) as [->|(z' & Hz' & Rz)]; [left; reflexivity|right; exists z'; split; [right; exact Hz'|exact Rz]]. }
  apply (G (length l) x0 []); auto.
  - lia.
  - constructor; [intros []|constructor].
  - intros z [<-|[]]. apply Fin. exact Px0.
  - apply rtn1_refl.
  - intros z [<-|[]]. left. reflexivity.
Qed.

Section Trace.
  Variable A : area.
  Variable T : layout.
  Variable L : Z.
  Hypothesis WA : wf_area A.
  Hypothesis VL : valid_layout A T L.

  Definition step (p q : pos) : Prop := hands_on A T p q \/ sends_under A T L p q.

  Lemma takes_fun t d e : takes t d -> takes t e -> d = e.
  Proof. destruct t as [| |i o|f []|f h|f k|x y]; cbn; intros; try contradiction; congruence. Qed.
  Lemma pushes_fun t d e : pushes t d -> pushes t e -> d = e.
  Proof. destruct t as [| |i o|f []|f h|f k|x y]; cbn; intros; try contradiction; congruence. Qed.

  Lemma received p d q : inside A p -> pushes (T p) d -> ~ is_splitter_tile (T p) -> neighbour A p d = Some q -> takes (T q) d.
  Proof. intros. destruct VL as (_ & _ & H' & _). eapply H'; eauto. Qed.
  Lemma supplied p d q : inside A p -> takes (T p) d -> ~ is_splitter_tile (T p) -> neighbour A p (opposite d) = Some q -> pushes (T q) d.
  Proof. intros. destruct VL as (_ & _ & _ & H' & _). eapply H'; eauto. Qed.
  Lemma enters p d : inside A p -> T p = Underground d true -> exists q, T q = Underground d false /\ tunnel A T L p d q.
  Proof. intros. destruct VL as (_ & _ & _ & _ & _ & _ & H' & _). eauto. Qed.
  Lemma leaves p d : inside A p -> T p = Underground d false -> exists q, inside A q /\ T q = Underground d true /\ tunnel A T L q d p.
  Proof. intros. destruct VL as (_ & _ & _ & _ & _ & _ & _ & H'). eauto. Qed.

  Lemma step_inside p q : step p q -> inside A p /\ inside A q.
  Proof.
    intros [(Hp & _ & d & _ & E)|(Hp & d & _ & _ & k & _ & E & _)]; (split; [exact Hp|]).
    - eapply ahead_inside; exact E.
    - eapply ahead_inside; exact E.
  Qed.

  Lemma blocks_self d e : blocks_tunnel (Underground d e) d.
  Proof. destruct d; reflexivity. Qed.

  Lemma step_fun p q q' : step p q -> step p q' -> q = q'.
  Proof.
    intros [(Hp & N & d & Pd & E)|(Hp & d & Tp & Tq & k & Hk & E & B)] [(_ & N' & d' & Pd' & E')|(_ & d' & Tp' & Tq' & k' & Hk' & E' & B')].
    - rewrite (pushes_fun _ _ _ Pd Pd') in E. congruence.
    - rewrite Tp' in Pd. contradiction.
    - rewrite Tp in Pd'. contradiction.
    - rewrite Tp in Tp'. injection Tp' as <-. destruct (Z.lt_trichotomy k k') as [C|[->|C]]; [exfalso| congruence |exfalso].
      + destruct (B' k ltac:(lia)) as (r & Er & Nr). rewrite E in Er. injection Er as <-. apply Nr. rewrite Tq. apply blocks_self.
      + destruct (B k' ltac:(lia)) as (r & Er & Nr). rewrite E' in Er. injection Er as <-. apply Nr. rewrite Tq'. apply blocks_self.
  Qed.

  Lemma back p d q : inside A p -> neighbour A p d = Some q -> neighbour A q (opposite d) = Some p.
  Proof. apply neighbour_back. exact WA. Qed.

  Lemma step_inj p p' q : step p q -> step p' q -> p = p'.
  Proof.
    intros [(Hp & N & d & Pd & E)|(Hp & d & Tp & Tq & k & Hk & E & B)] [(Hp' & N' & d' & Pd' & E')|(Hp' & d' & Tp' & Tq' & k' & Hk' & E' & B')].
    - pose proof (received _ _ _ Hp Pd N E) as T1. pose proof (received _ _ _ Hp' Pd' N' E') as T2. pose proof (takes_fun _ _ _ T1 T2). subst d'.
      apply back in E; [|exact Hp]. apply back in E'; [|exact Hp']. congruence.
    - pose proof (received _ _ _ Hp Pd N E) as T1. rewrite Tq' in T1. contradiction.
    - pose proof (received _ _ _ Hp' Pd' N' E') as T1. rewrite Tq in T1. contradiction.
    - rewrite Tq in Tq'. injection Tq' as <-.
      pose proof (ahead_back A p d k q WA Hp E) as F. pose proof (ahead_back A p' d k' q WA Hp' E') as F'.
      destruct (Z.lt_trichotomy k k') as [C|[->|C]]; [exfalso| congruence |exfalso].
      + pose proof (ahead_add A p' d k' (- k) q WA E') as X. rewrite F in X. destruct (B' (k' + - k) ltac:(lia)) as (r & Er & Nr).
        rewrite <- X in Er. injection Er as <-. apply Nr. rewrite Tp. apply blocks_self.
      + pose proof (ahead_add A p d k (- k') q WA E) as X. rewrite F' in X. destruct (B (k + - k') ltac:(lia)) as (r & Er & Nr).
        rewrite <- X in Er. injection Er as <-. apply Nr. rewrite Tp'. apply blocks_self.
  Qed.

  Lemma carried_step p q r : carried A T L p q -> step q r -> carried A T L p r.
  Proof.
    induction 1 as [p|p q s H _ IH|p q s H _ IH]; intros Hs.
    - destruct Hs as [Hs|Hs]; [eapply carried_belt|eapply carried_under]; try exact Hs; constructor.
    - eapply carried_belt; [exact H|auto].
    - eapply carried_under; [exact H|auto].
  Qed.
  Lemma carried_forward p q : clos_refl_trans_n1 pos step p q -> carried A T L p q.
  Proof. induction 1 as [|y z H _ IH]; [constructor|]. eapply carried_step; eauto. Qed.
  Lemma carried_backward p q : clos_refl_trans_n1 pos (fun x y => step y x) p q -> carried A T L q p.
  Proof.
    induction 1 as [|y z H _ IH]; [constructor|]. destruct H as [H|H]; [eapply carried_belt|eapply carried_under]; eauto.
  Qed.
  Lemma carried_inside p q : inside A p -> carried A T L p q -> inside A q.
  Proof.
    intros Hp H. induction H as [p|p q r H _ IH|p q r H _ IH]; auto; apply IH.
    - apply (step_inside p q). left. exact H.
    - apply (step_inside p q). right. exact H.
  Qed.

  (** The ends of a line have no step before or after them. *)
  Lemma begins_inside s q : begins A T s q -> inside A q.
  Proof. destruct s as [p|p]; [intros (-> & H & _); exact H|]. intros (_ & d & h & _ & E & _). eapply ahead_inside; exact E. Qed.
  Lemma begins_takes s q : begins A T s q -> exists d, takes (T q) d.
  Proof. destruct s as [p|p]; [intros (-> & _ & d & H & _); eauto|]. intros (_ & d & h & _ & _ & H). eauto. Qed.
  Lemma begins_first s q : begins A T s q -> forall y, ~ step y q.
  Proof.
    intros Hb y [(Hy & N & d & Pd & E)|(Hy & d & Ty & Tq & _)].
    - pose proof (received _ _ _ Hy Pd N E) as Tk. apply back in E; [|exact Hy]. destruct s as [p|p].
      + destruct Hb as (-> & _ & d' & Tk' & E'). rewrite (takes_fun _ _ _ Tk Tk') in E. congruence.
      + destruct Hb as (Hp & d' & h & Tp & E' & Tk'). rewrite (takes_fun _ _ _ Tk Tk') in E. apply back in E'; [|exact Hp].
        assert (y = p) by congruence. subst y. apply N. rewrite Tp. exact Logic.I.
    - destruct (begins_takes _ _ Hb) as [e He]. rewrite Tq in He. contradiction.
  Qed.
  Lemma reaches_inside f r : reaches A T f r -> inside A r.
  Proof. destruct f as [p|p]; intros (-> & H & _); exact H. Qed.
  Lemma reaches_last f r : reaches A T f r -> forall y, ~ step r y.
  Proof.
    intros Hr y Hs. destruct f as [p|p].
    - destruct Hr as (-> & _ & N & d & Pd & En). destruct Hs as [(_ & _ & d' & Pd' & E)|(_ & d' & Tp & _)].
      + rewrite (pushes_fun _ _ _ Pd Pd') in En. congruence.
      + rewrite Tp in Pd. contradiction.
    - destruct Hr as (-> & _ & Hsp). destruct Hs as [(_ & N & _)|(_ & d & Tp & _)]; [contradiction|]. rewrite Tp in Hsp. contradiction.
  Qed.

  Lemma begins_fun s q q' : begins A T s q -> begins A T s q' -> q = q'.
  Proof.
    destruct s as [p|p].
    - intros (-> & _) (-> & _). reflexivity.
    - intros (_ & d & h & Tp & E & _) (_ & d' & h' & Tp' & E' & _). rewrite Tp in Tp'. injection Tp' as <- <-. congruence.
  Qed.
  Lemma begins_inj s s' q : begins A T s q -> begins A T s' q -> s = s'.
  Proof.
    destruct s as [p|p], s' as [p'|p'].
    - intros (-> & _) (-> & _). reflexivity.
    - intros (-> & _ & d & Tk & En) (Hp' & d' & h & Tp & E & Tk'). apply back in E; [|exact Hp']. rewrite (takes_fun _ _ _ Tk Tk') in En. congruence.
    - intros (Hp & d' & h & Tp & E & Tk') (-> & _ & d & Tk & En). apply back in E; [|exact Hp]. rewrite (takes_fun _ _ _ Tk Tk') in En. congruence.
    - intros (Hp & d & h & Tp & E & Tk) (Hp' & d' & h' & Tp' & E' & Tk'). pose proof (takes_fun _ _ _ Tk Tk'). subst d'.
      apply back in E; [|exact Hp]. apply back in E'; [|exact Hp']. f_equal. congruence.
  Qed.
  Lemma reaches_fun f r r' : reaches A T f r -> reaches A T f r' -> r = r'.
  Proof. destruct f; intros (-> & _) (-> & _); reflexivity. Qed.
  Lemma reaches_inj f f' r : reaches A T f r -> reaches A T f' r -> f = f'.
  Proof.
    destruct f as [p|p], f' as [p'|p']; intros (-> & H); [intros (-> & _); reflexivity| | |intros (-> & _); reflexivity].
    - intros (-> & _ & Hs). destruct H as (_ & N & _). contradiction.
    - intros (-> & _ & N & _). destruct H as (_ & Hs). contradiction.
  Qed.

  Lemma carried_end p q r : carried A T L p q -> carried A T L p r -> (forall y, ~ step q y) -> (forall y, ~ step r y) -> q = r.
  Proof.
    intros H. revert r. induction H as [p|p q s Hs _ IH|p q s Hs _ IH]; intros r Hr N1 N2.
    - inversion Hr; subst; auto; exfalso; eapply N1; [left|right]; eassumption.
    - inversion Hr as [x Ex|x y z Hx Hy|x y z Hx Hy]; subst.
      + exfalso. eapply N2. left. exact Hs.
      + assert (q = y) by (apply (step_fun p); left; assumption). subst y. auto.
      + assert (q = y) by (apply (step_fun p); [left|right]; assumption). subst y. auto.
    - inversion Hr as [x Ex|x y z Hx Hy|x y z Hx Hy]; subst.
      + exfalso. eapply N2. right. exact Hs.
      + assert (q = y) by (apply (step_fun p); [right|left]; assumption). subst y. auto.
      + assert (q = y) by (apply (step_fun p); right; assumption). subst y. auto.
  Qed.
  Lemma joined_fun s f f' : joined A T L s f -> joined A T L s f' -> f = f'.
  Proof.
    intros (q & r & B & C & R) (q' & r' & B' & C' & R'). pose proof (begins_fun _ _ _ B B'). subst q'.
    assert (r = r') by (eapply carried_end; eauto using reaches_last). subst r'. eapply reaches_inj; eauto.
  Qed.

  Lemma carried_inv p q : carried A T L p q -> p = q \/ exists y, step y q /\ carried A T L p y.
  Proof.
    induction 1 as [p|p q s Hs _ IH|p q s Hs Hc IH]; [left; reflexivity| |].
    - right. destruct IH as [->|(y & Hy & Cy)]; [exists p; split; [left; exact Hs|constructor]|]. exists y. split; [exact Hy|]. eapply carried_belt; eauto.
    - right. destruct IH as [->|(y & Hy & Cy)]; [exists p; split; [right; exact Hs|constructor]|]. exists y. split; [exact Hy|]. eapply carried_under; eauto.
  Qed.
  Lemma carried_clos p q : carried A T L p q -> clos_refl_trans_n1 pos step p q.
  Proof.
    intros H. assert (G : forall x, clos_refl_trans_n1 pos step x p -> clos_refl_trans_n1 pos step x q).
    { induction H as [p|p q s Hs _ IH|p q s Hs _ IH]; intros x Hx; auto; apply IH; (eapply Relation_Operators.rtn1_trans; [|exact Hx]); [left|right]; exact Hs. }
    apply G. apply rtn1_refl.
  Qed.
  Lemma carried_start p p' q : carried A T L p q -> carried A T L p' q -> (forall y, ~ step y p) -> (forall y, ~ step y p') -> p = p'.
  Proof.
    intros H. apply carried_clos in H. induction H as [|y z Hs _ IH]; intros H' N1 N2.
    - destruct (carried_inv _ _ H') as [<-|(x & Hx & _)]; [reflexivity|]. exfalso. eapply N1; exact Hx.
    - destruct (carried_inv _ _ H') as [->|(x & Hx & Cx)]; [exfalso; eapply N2; exact Hs|]. pose proof (step_inj _ _ _ Hs Hx). subst x. auto.
  Qed.
  Lemma joined_inj s s' f : joined A T L s f -> joined A T L s' f -> s = s'.
  Proof.
    intros (q & r & B & C & R) (q' & r' & B' & C' & R'). pose proof (reaches_fun _ _ _ R R'). subst r'.
    assert (q = q') by (eapply carried_start; eauto using begins_first). subst q'. eapply begins_inj; eauto.
  Qed.

  Definition area_cells : list pos := iterate_tiles {| width := aw A; height := ah A; wrap_x := wrapx A; wrap_y := wrapy A |}.
  Lemma area_cells_in p : inside A p -> In p area_cells.
  Proof. intros H. unfold area_cells. apply iterate_tiles_in. exact H. Qed.

  (** Following a line backwards from its end. *)
  Definition fed (r : pos) : Prop := inside A r /\
    ((exists d, T r = Underground d false) \/
     exists d, takes (T r) d /\ match neighbour A r (opposite d) with None => True | Some b => pushes (T b) d end).
  Lemma trace_back r : fed r -> (forall y, ~ step r y) -> exists s q, begins A T s q /\ carried A T L q r.
  Proof.
    intros Fr Nr.
    destruct (chase area_cells (fun x y => step y x) fed (fun q => exists s, begins A T s q) r) as (q & C & _ & s & B); auto.
    - intros x x' y H H'. eapply step_fun; eauto.
    - intros x [H _]. apply area_cells_in. exact H.
    - intros x [Hx [(d & Tx)|(d & Tk & Hb)]].
      + right. destruct (leaves _ _ Hx Tx) as (q & Hq & Tq & Tu). exists q. split; [right; split; [exact Hq|]; exists d; auto|].
        split; [exact Hq|]. right. exists d. split; [rewrite Tq; reflexivity|]. destruct (neighbour A q (opposite d)) as [b|] eqn:Eb; [|exact Logic.I].
        eapply supplied; [exact Hq|rewrite Tq; reflexivity|rewrite Tq; intros []|exact Eb].
      + destruct (neighbour A x (opposite d)) as [b|] eqn:Eb; [|left; exists (Enter x); split; [reflexivity|]; split; [exact Hx|eauto]].
        assert (Hbi : inside A b) by (eapply ahead_inside; exact Eb). pose proof (back _ _ _ Hx Eb) as Ef. rewrite opposite_opposite in Ef.
        destruct (T b) as [| |i o|f e|f h|f k|u v] eqn:Tb; try contradiction.
        * right. exists b. split; [left; split; [exact Hbi|]; rewrite Tb; split; [intros []|]; exists d; split; [exact Hb|exact Ef]|].
          split; [exact Hbi|]. right. exists i. split; [rewrite Tb; reflexivity|]. destruct (neighbour A b (opposite i)) as [c|] eqn:Ec; [|exact Logic.I].
          eapply supplied; [exact Hbi|rewrite Tb; reflexivity|rewrite Tb; intros []|exact Ec].
        * right. exists b. split; [left; split; [exact Hbi|]; rewrite Tb; split; [intros []|]; exists d; split; [exact Hb|exact Ef]|].
          split; [exact Hbi|]. destruct e; [contradiction|]. left. eauto.
        * left. exists (Exit b). split; [exact Hbi|]. cbn in Hb. subst f. exists d, h. auto.
    - exists s, q. split; [exact B|]. apply carried_backward. exact C.
  Qed.

  (** Following a line forwards from its start. *)
  Definition fed_cell (q : pos) : Prop := inside A q /\ ((exists d, T q = Underground d false) \/ exists d, takes (T q) d).
  Lemma trace_forward s q : begins A T s q -> exists f r, carried A T L q r /\ reaches A T f r.
  Proof.
    intros B. destruct (begins_takes _ _ B) as [d0 Tk0].
    destruct (chase area_cells step fed_cell (fun r => exists f, reaches A T f r) q) as (r & C & _ & f & R).
    - apply (begins_first _ _ B).
    - intros x x' y. apply step_inj.
    - intros x [H _]. apply area_cells_in. exact H.
    - intros x [Hx Hd].
      assert (Push : forall d, pushes (T x) d -> ~ is_splitter_tile (T x) -> (exists f, reaches A T f x) \/ exists y, step x y /\ fed_cell y).
      { intros d Pd N. destruct (neighbour A x d) as [y|] eqn:En.
        - right. exists y. split; [left; split; [exact Hx|]; split; [exact N|]; eauto|]. split; [eapply ahead_inside; exact En|].
          right. exists d. eapply received; eauto.
        - left. exists (Leave x). split; [reflexivity|]. split; [exact Hx|]. split; [exact N|]. eauto. }
      destruct (T x) as [| |i o|e b|e h|e k|u v] eqn:Tx.
      + destruct Hd as [(d & [=])|(d & [])].
      + destruct Hd as [(d & [=])|(d & [])].
      + apply (Push o); [reflexivity|intros []].
      + destruct b.
        * right. destruct (enters _ _ Hx Tx) as (y & Ty & Tu). exists y. split; [right; split; [exact Hx|]; exists e; auto|].
          destruct Tu as (k & _ & E & _). split; [eapply ahead_inside; exact E|]. left. eauto.
        * apply (Push e); [reflexivity|intros []].
      + left. exists (Entrance x). split; [reflexivity|]. split; [exact Hx|]. rewrite Tx. exact Logic.I.
      + destruct Hd as [(d & [=])|(d & [])].
      + destruct Hd as [(d & [=])|(d & [])].
    - split; [eapply begins_inside; exact B|]. right. eauto.
    - exists f, r. split; [|exact R]. apply carried_forward. exact C.
  Qed.
End Trace.
