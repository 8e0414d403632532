(** Proofs about parse_network: when it raises. *)
From Coq Require Import ZArith List Bool Lia Permutation Sorted Relations.
From Verif Require Import Spec_Tile Spec_Layout M_Json M_Tile M_Dict M_Network M_Template Spec_Network Spec_Balancer Spec_Interchange Spec_Parse M_Parse P_Tile P_Layout P_List P_Template P_Walk P_Trace P_Grid P_Edge P_Parse P_Parse2 P_Parse3 P_Parse4.
Import ListNotations.
Open Scope Z_scope.

Section Total.
  Variables (w h : Z) (T : Z * Z -> tile) (L : Z).
  Let A := rectangle w h.
  Hypothesis WA : wf_area A.
  Hypothesis VL : valid_layout A T L.

  (** The exit of a tunnel that starts in the top row. *)
  Definition top_exit (r : pos) : Prop := exists p, snd p = 0 /\ sends_under A T L p r.
  (** The trace back from [s] comes to such an exit. *)
  Definition stuck (s : pos) : Prop := exists r, top_exit r /\ carried A T L r s /\ (carried A T L s r -> s = r).

  Lemma in_shape_row p low : inside A p -> low <= snd p -> in_shape w h low p = true.
  Proof. intros [Hx Hy] Hl. cbn [A rectangle aw ah] in Hx, Hy. unfold in_shape. repeat (apply andb_true_iff; split); try (apply Z.leb_le; lia); apply Z.ltb_lt; lia. Qed.
  Lemma exit_conv r : top_exit r -> conv (T r) /\ inside A r.
  Proof. intros (p & _ & Ip & d & _ & Tr & Tu). split; [rewrite Tr; exact Logic.I|]. destruct Tu as (k & _ & E & _). eapply ahead_inside. exact E. Qed.

  Lemma next_total p b : inside A p -> conv (T p) -> b = true \/ ~ top_exit p -> exists q, next_tile w h T p b = Some q.
  Proof.
    intros Hp C Top. unfold next_tile. destruct (T p) as [| |i o|d e|d e|d e|x y] eqn:Tp; try contradiction; [eauto|].
    assert (Short : forall p k d, 0 <= k -> inside A p -> inside A (fst p + k * step_x d, snd p + k * step_y d) -> k <= Z.of_nat (walk_steps w h)).
    { intros p0 k d0 Hk [H1 H2] [H3 H4]. cbn [A rectangle aw ah fst snd] in *. unfold walk_steps. rewrite Z2Nat.id by lia. destruct d0; cbn [step_x step_y] in *; lia. }
    destruct e, b; eauto; rewrite dx_step, dy_step.
    - destruct (enters A T L VL p d Hp Tp) as (r & Tr & Tu). destruct (tunnel_cells w h T L p d r Hp Tu) as (k & Hk & Er & _ & B & _ & I). eexists.
      apply (walk_some w h T 0 d false (step_x d) (step_y d) _ p k).
      + split; [lia|]. apply (Short p k d); [lia|exact Hp|apply I; lia].
      + intros j Hj. apply in_shape_row; [apply I; lia|]. destruct (I j ltac:(lia)) as [_ X]. cbn [snd] in *. lia.
      + exact B.
      + rewrite <- Er, Tr. apply is_underground_iff. reflexivity.
    - destruct (leaves A T L VL p d Hp Tp) as (r & Ir & Tr & Tu). destruct (tunnel_cells w h T L r d p Ir Tu) as (k & Hk & Er & Er' & _ & B & I). eexists.
      assert (Row : 1 <= snd r).
      { destruct Top as [Top|Top]; [discriminate|]. destruct Ir as [X Y]. destruct (Z.eq_dec (snd r) 0) as [E|]; [|lia]. exfalso. apply Top. exists r. split; [exact E|]. split; [exact (conj X Y)|]. exists d. auto. }
      assert (Cell : forall j, (fst p + j * - step_x d, snd p + j * - step_y d) = (fst r + (k - j) * step_x d, snd r + (k - j) * step_y d)) by (intros j; rewrite Er; cbn [fst snd]; apply pair_equal_spec; split; ring).
      apply (walk_some w h T 1 d true (- step_x d) (- step_y d) _ p k).
      + split; [lia|]. apply (Short r k d); [lia|exact Ir|apply I; lia].
      + intros j Hj. rewrite Cell. apply in_shape_row; [apply I; lia|]. cbn [snd]. destruct d; cbn [step_y]; try lia.
        destruct Hp as [_ Y]. rewrite Er in Y. cbn [snd step_y A rectangle ah] in Y. lia.
      + exact B.
      + rewrite <- Er', Tr. apply is_underground_iff. reflexivity.
  Qed.
  Lemma walk_low low d e vx vy : forall f p q, walk w h T f low d e vx vy p = Some q -> in_shape w h low q = true.
  Proof.
    induction f as [|f IH]; intros p q E; [discriminate|]. cbn [walk] in E. destruct (in_shape w h low (fst p + vx, snd p + vy)) eqn:Es; [|discriminate].
    destruct (is_underground _ d (negb e)); [discriminate|]. destruct (is_underground _ d e); [injection E as <-; exact Es|eauto].
  Qed.
  Lemma next_fails p : top_exit p -> next_tile w h T p false = None.
  Proof.
    intros (r & Row & Ir & d & Tr & Tp & Tu). unfold next_tile. rewrite Tp. destruct (walk w h T (walk_steps w h) 1 d true (- dx d) (- dy d) p) as [q|] eqn:E; [exfalso|reflexivity].
    pose proof (walk_low _ _ _ _ _ _ _ _ E) as Sh. destruct (tunnel_cells w h T L r d p Ir Tu) as (k & Hk & _ & Er & _ & B & _). rewrite dx_step, dy_step in E.
    assert (q = r). { rewrite Er. apply (walk_finds w h T _ _ _ _ _ _ p k q E); [lia|exact B|]. rewrite <- Er, Tr. apply is_underground_iff. reflexivity. }
    subst q. unfold in_shape in Sh. repeat (apply andb_true_iff in Sh; destruct Sh as [Sh ?]). apply andb_true_iff in H. destruct H as [H _]. apply Z.leb_le in H. lia.
  Qed.

  Lemma trace_total c b cmI cur0 : Inv w h T L cmI cur0 -> forall f cm q, (uncoloured w h cm < f)%nat -> (forall r, cm r = cmI r \/ cm r = Some c) ->
    (inside A q -> conv (T q) -> cmI q = None) -> (b = true \/ (inside A q -> conv (T q) -> forall r, cm r = None -> carried A T L r q -> ~ top_exit r)) -> exists cm', trace w h T f cm c q b = Some cm'.
  Proof.
    intros (_ & _ & I2 & _). induction f as [|f IH]; intros cm q Hf Hc Hq Hb; [lia|]. cbn [trace].
    destruct (in_shape w h 0 q) eqn:Es; [|eauto]. apply in_shape_inside in Es. rename Es into Iq. change (inside A q) in Iq.
    destruct (tiles_belt w h T L VL q Iq) as [Cq|[Eq|Sq]]; [|rewrite Eq; eauto|destruct (T q); try contradiction; eauto].
    specialize (Hq Iq Cq).
    assert (X : exists cm', match cm q with Some c0 => if c0 =? c then Some cm else None | None => obind (next_tile w h T q b) (fun p => trace w h T f (set_colour cm q c) c p b) end = Some cm').
    { destruct (cm q) as [c0|] eqn:Ec.
      - destruct (Hc q) as [X|X]; [congruence|]. rewrite Ec in X. injection X as ->. rewrite Z.eqb_refl. eauto.
      - destruct (next_total q b Iq Cq) as (q2 & En); [destruct Hb as [Hb|Hb]; [left; exact Hb|right; apply (Hb Iq Cq q Ec); constructor]|].
        rewrite En. cbn [obind]. destruct (any_next w h T L WA VL b q q2 Iq En) as [_ Hn]. apply IH.
        + pose proof (uncoloured_less w h cm q c Iq Ec). lia.
        + intros r. destruct (pos_dec r q) as [->|N]; [right; apply set_same|]. rewrite set_other by assumption. apply Hc.
        + intros I2' C2. specialize (Hn I2' (conv_not_splitter _ C2)). destruct b; cbn [R] in Hn.
          * rewrite <- (I2 q q2 Hn C2). exact Hq.
          * rewrite (I2 q2 q Hn Cq). exact Hq.
        + destruct Hb as [Hb|Hb]; [left; exact Hb|]. destruct b; [left; reflexivity|right]. intros I2' C2 r Hr Cr. specialize (Hn I2' (conv_not_splitter _ C2)). cbn [R] in Hn.
          destruct (pos_dec r q) as [->|N]; [rewrite set_same in Hr; discriminate|]. rewrite set_other in Hr by assumption. apply (Hb Iq Cq r Hr).
          eapply carried_trans; [exact Cr|]. apply step_carried. exact Hn. }
    destruct (T q); try contradiction; exact X.
  Qed.

  (** Where a line leads there is a belt, an end of a tunnel or a splitter. *)
  Lemma carried_conv p q : conv (T p) -> carried A T L p q -> ~ is_splitter_tile (T q) -> conv (T q).
  Proof.
    intros C H N. destruct (carried_inv A T L p q H) as [<-|(y & S & _)]; [exact C|].
    assert (Tk : exists d, takes (T q) d \/ T q = Underground d false).
    { destruct S as [(Iy & Ny & d & Pd & En)|(Iy & d & _ & Tq & _)]; exists d; [left; exact (received A T L VL y d q Iy Pd Ny En)|right; exact Tq]. }
    destruct Tk as (d & [Tk|Tk]); [|rewrite Tk; exact Logic.I]. destruct (T q) as [| |i o|e []|e b|e k|x y']; cbn in *; try contradiction; try exact Logic.I; apply N; exact Logic.I.
  Qed.
  Lemma carried_inside p q : inside A p -> carried A T L p q -> inside A q.
  Proof. intros Ip H. destruct (carried_inv A T L p q H) as [<-|(y & S & _)]; [exact Ip|]. apply (step_inside _ _ _ _ _ S). Qed.
  Lemma carried_inside' p q : inside A q -> carried A T L p q -> inside A p.
  Proof. intros Ip H. destruct H as [p|p y q [X _] _|p y q [X _] _]; assumption. Qed.
  (** All the tiles of a line have the same colour. *)
  Lemma carried_colour cm cur p q : Inv w h T L cm cur -> carried A T L p q -> conv (T q) -> cm p = cm q.
  Proof.
    intros (_ & _ & I2 & _) H. apply carried_clos in H. induction H as [|y z S H IH]; [reflexivity|]. intros C. rewrite IH; [apply I2; assumption|]. exact (step_conv w h T L _ _ S).
  Qed.
  Lemma line_colour cm cur p q : Inv w h T L cm cur -> one_line w h T L p q -> conv (T p) -> conv (T q) -> cm p = cm q.
  Proof. intros I [H|H] Cp Cq; [|symmetry]; eapply carried_colour; eassumption. Qed.

  (** What the trace forward from [p] colours. *)
  Lemma forward_all cm cur p a cm2 f : Inv w h T L cm cur -> inside A p -> conv (T p) -> cm p = None -> next_tile w h T p true = Some a ->
    trace w h T f (set_colour cm p cur) cur a true = Some cm2 -> forall r, carried A T L p r -> conv (T r) -> cm2 r = Some cur.
  Proof.
    intros I Hp Cp Ec Ea E2 r H. destruct (any_next w h T L WA VL true p a Hp Ea) as [Na _]. destruct (trace_spec w h T L WA VL cur true _ _ _ _ E2) as (Fa & Fb & Fc & Fd & _).
    assert (K : cm2 p = Some cur) by (rewrite Fa; rewrite set_same; congruence).
    apply carried_clos in H. induction H as [|y z S H IH]; [intros _; exact K|]. intros Cz. pose proof (step_conv w h T L _ _ S) as Cy. specialize (IH Cy).
    destruct (pos_dec y p) as [->|N]; [rewrite <- (Na z S) in Fc; apply Fc; [apply (step_inside _ _ _ _ _ S)|exact Cz]|].
    apply (Fd y z); [|exact IH|exact S|exact Cz]. rewrite set_other by assumption. rewrite <- Ec. symmetry. apply (carried_colour cm cur p y I); [|exact Cy]. apply carried_forward. exact H.
  Qed.
  Lemma forward_only cm cur p a cm2 f : Inv w h T L cm cur -> inside A p -> cm p = None -> next_tile w h T p true = Some a ->
    trace w h T f (set_colour cm p cur) cur a true = Some cm2 -> forall r, cm r = None -> cm2 r <> None -> carried A T L p r.
  Proof.
    intros I Hp Ec Ea E2 r Hr Hr2. destruct (any_next w h T L WA VL true p a Hp Ea) as [_ Na]. destruct (trace_spec w h T L WA VL cur true _ _ _ _ E2) as (_ & Fb & _).
    destruct (pos_dec r p) as [->|N]; [constructor|]. destruct (Fb r) as (_ & _ & _ & P4 & P5 & P6); [rewrite set_other; assumption|exact Hr2|].
    apply (reach_cons w h T L true p a r); [apply Na; [exact P5|apply conv_not_splitter; exact P6]|exact P4].
  Qed.

  Lemma scan_tile_total cm cur (sp : list (Z * Z)) (p : Z * Z) : inside A p -> Inv w h T L cm cur -> (cm p = None -> conv (T p) -> ~ stuck p) -> exists st', scan_tile w h T (cm, cur, sp) p = Some st'.
  Proof.
    intros Hp I Ok. unfold scan_tile. cbv beta iota zeta. destruct (cm p) as [c0|] eqn:Ec; [eauto|].
    destruct (tiles_belt w h T L VL p Hp) as [Cp|[Tp|Sp]]; [|rewrite Tp; eauto|destruct (T p); try contradiction; eauto].
    specialize (Ok eq_refl Cp).
    set (sp1 := match T p with Splitter _ true => _ | _ => _ end).
    assert (X : exists st', obind (next_tile w h T p true) (fun a => obind (trace w h T (trace_steps w h) (set_colour cm p cur) cur a true) (fun cm2 =>
      obind (next_tile w h T p false) (fun b => obind (trace w h T (trace_steps w h) cm2 cur b false) (fun cm3 => Some (cm3, cur + 1, sp1))))) = Some st').
    { destruct (next_total p true Hp Cp (or_introl eq_refl)) as (a & Ea).
      destruct (next_total p false Hp Cp) as (b & Eb); [right; intros X; apply Ok; exists p; split; [exact X|split; [constructor|reflexivity]]|]. rewrite Ea, Eb. cbn [obind].
      destruct (any_next w h T L WA VL true p a Hp Ea) as [_ Na], (any_next w h T L WA VL false p b Hp Eb) as [_ Nb]. cbn [R] in Na, Nb. pose proof I as (_ & _ & I2 & _).
      destruct (trace_total cur true cm cur I (trace_steps w h) (set_colour cm p cur) a) as (cm2 & E2).
      - apply uncoloured_start.
      - intros r. destruct (pos_dec r p) as [->|N]; [right; apply set_same|left; apply set_other; exact N].
      - intros Ia Ca. rewrite <- (I2 p a (Na Ia (conv_not_splitter _ Ca)) Ca). exact Ec.
      - left. reflexivity.
      - rewrite E2. cbn [obind]. destruct (trace_spec w h T L WA VL cur true _ _ _ _ E2) as (Fa & Fb & _).
        destruct (trace_total cur false cm cur I (trace_steps w h) cm2 b) as (cm3 & E3).
        + apply uncoloured_start.
        + intros r. destruct (cm2 r) as [c2|] eqn:C2.
          * destruct (set_colour cm p cur r) as [c1|] eqn:C1.
            -- pose proof (Fa r ltac:(congruence)) as X. destruct (pos_dec r p) as [->|N]; [rewrite set_same in X; right; congruence|]. rewrite set_other in X by assumption. left. congruence.
            -- right. destruct (Fb r C1 ltac:(congruence)) as (X & _). congruence.
          * left. destruct (set_colour cm p cur r) as [c1|] eqn:C1; [pose proof (Fa r ltac:(congruence)); congruence|]. destruct (pos_dec r p) as [->|N]; [rewrite set_same in C1; discriminate|]. rewrite set_other in C1 by assumption. congruence.
        + intros Ib Cb. rewrite (I2 b p (Nb Ib (conv_not_splitter _ Cb)) Cp). exact Ec.
        + right. intros Ib Cb r Hr Cr Tr. apply Ok. exists r. split; [exact Tr|]. split; [eapply carried_trans; [exact Cr|apply step_carried; apply Nb; [exact Ib|apply conv_not_splitter; exact Cb]]|].
          intros Cp'. exfalso. pose proof (forward_all cm cur p a cm2 _ I Hp Cp Ec Ea E2 r Cp' (proj1 (exit_conv r Tr))). congruence.
        + rewrite E3. cbn [obind]. eauto. }
    destruct (T p); try contradiction; exact X.
  Qed.

  (** The tiles [l] from [p] back to [r], one step at a time. *)
  Inductive chain : pos -> list pos -> pos -> Prop :=
  | chain_end p : chain p [] p
  | chain_back p y l r : step A T L y p -> chain y l r -> chain p (y :: l) r.
  Lemma chain_cut p l r z : chain p l r -> NoDup (p :: l) -> In z (p :: l) -> exists l', chain p l' z /\ NoDup (p :: l') /\ incl l' l.
  Proof.
    intros C. revert z. induction C as [p|p y l r S C IH]; intros z N [<-|Hz].
    - exists []. split; [constructor|split; [exact N|apply incl_refl]].
    - contradiction.
    - exists []. split; [constructor|split; [repeat constructor; intros []|intros x []]].
    - inversion N as [|? ? N1 N2]; subst. destruct (IH z N2 Hz) as (l' & C' & N' & Hi). exists (y :: l'). split; [econstructor; eassumption|].
      assert (Hi' : incl (y :: l') (y :: l)) by (intros x [<-|Hx]; [left; reflexivity|right; apply Hi; exact Hx]). split; [|exact Hi']. constructor; [|exact N']. intros X. apply N1. apply Hi'. exact X.
  Qed.
  Lemma chain_snoc p l r z : chain p l r -> step A T L z r -> chain p (l ++ [z]) z.
  Proof. intros C S. induction C as [p|p y l r S' C IH]; cbn [app]; [econstructor; [exact S|constructor]|econstructor; [exact S'|auto]]. Qed.
  Lemma simple_chain r p : carried A T L r p -> exists l, chain p l r /\ NoDup (p :: l).
  Proof.
    assert (Ext : forall z r l, step A T L z r -> chain p l r -> NoDup (p :: l) -> exists l, chain p l z /\ NoDup (p :: l)).
    { intros z r0 l S C N. destruct (in_dec pos_dec z (p :: l)) as [Y|Nz].
      - destruct (chain_cut p l r0 z C N Y) as (l' & C' & N' & _). eauto.
      - exists (l ++ [z])%list. split; [eapply chain_snoc; eassumption|]. change (p :: l ++ [z])%list with ((p :: l) ++ [z])%list. apply NoDup_app_intro; [exact N|repeat constructor; intros []|]. intros x Hx [<-|[]]. contradiction. }
    intros H. induction H as [p|p q r S _ IH|p q r S _ IH].
    - exists []. split; [constructor|repeat constructor; intros []].
    - destruct (IH Ext) as (l & C & N). eapply Ext; [left; exact S|exact C|exact N].
    - destruct (IH Ext) as (l & C & N). eapply Ext; [right; exact S|exact C|exact N].
  Qed.
  Lemma chain_carried p l r : chain p l r -> carried A T L r p /\ forall x, In x l -> carried A T L x p /\ conv (T x) /\ inside A x.
  Proof.
    induction 1 as [p|p y l r S _ (H & IH)]; [split; [constructor|intros x []]|]. split; [eapply carried_trans; [exact H|apply step_carried; exact S]|].
    intros x [<-|Hx]; [split; [apply step_carried; exact S|split; [exact (step_conv w h T L _ _ S)|apply (step_inside _ _ _ _ _ S)]]|].
    destruct (IH x Hx) as (X & C & Ix). split; [eapply carried_trans; [exact X|apply step_carried; exact S]|auto].
  Qed.
  (** If [p] leads to a tile of the chain then it leads to the end of the chain. *)
  Lemma chain_round p q l r x : chain q l r -> ~ In p l -> carried A T L p x -> In x l -> carried A T L p r.
  Proof.
    intros C. revert x. induction C as [q|q y l r S C IH]; intros x N H Hx; [contradiction|].
    destruct Hx as [<-|Hx]; [|apply (IH x); [intros X; apply N; right; exact X|exact H|exact Hx]].
    destruct C as [y|y z l r S' C]; [exact H|]. apply (IH z); [intros X; apply N; right; exact X| |left; reflexivity].
    destruct (carried_inv A T L p y H) as [->|(y' & Sy & Cy)]; [exfalso; apply N; left; reflexivity|]. rewrite (step_inj A T L WA VL _ _ _ S' Sy). exact Cy.
  Qed.
  Lemma trace_stuck c : forall f cm q l r, inside A q -> conv (T q) -> chain q l r -> NoDup (q :: l) -> (forall x, In x (q :: l) -> cm x = None) -> top_exit r -> trace w h T f cm c q false = None.
  Proof.
    induction f as [|f IH]; intros cm q l r Iq Cq C N U X; [reflexivity|]. cbn [trace].
    assert (Es : in_shape w h 0 q = true) by (apply in_shape_row; [exact Iq|destruct Iq; lia]). rewrite Es.
    assert (Y : match cm q with Some c0 => if c0 =? c then Some cm else None | None => obind (next_tile w h T q false) (fun p => trace w h T f (set_colour cm q c) c p false) end = None).
    { rewrite (U q (or_introl eq_refl)). destruct C as [q|q y l r S C]; [rewrite (next_fails q X); reflexivity|].
      destruct (next_tile w h T q false) as [q2|] eqn:En; [|reflexivity]. cbn [obind]. destruct (any_next w h T L WA VL false q q2 Iq En) as [Hn _]. rewrite <- (Hn y S). inversion N as [|? ? N1 N2]; subst.
      apply (IH _ y l r); [apply (step_inside _ _ _ _ _ S)|exact (step_conv w h T L _ _ S)|exact C|exact N2| |exact X].
      intros x Hx. rewrite set_other; [apply U; right; exact Hx|]. intros ->. contradiction. }
    destruct (T q); try contradiction; exact Y.
  Qed.

  Lemma scan_tile_stuck cm cur (sp : list (Z * Z)) (p : Z * Z) : inside A p -> Inv w h T L cm cur -> cm p = None -> conv (T p) -> stuck p -> scan_tile w h T (cm, cur, sp) p = None.
  Proof.
    intros Hp I Ec Cp (r & X & H & Loop). unfold scan_tile. cbv beta iota zeta. rewrite Ec. set (sp1 := match T p with Splitter _ true => _ | _ => _ end).
    assert (Y : obind (next_tile w h T p true) (fun a => obind (trace w h T (trace_steps w h) (set_colour cm p cur) cur a true) (fun cm2 =>
      obind (next_tile w h T p false) (fun b => obind (trace w h T (trace_steps w h) cm2 cur b false) (fun cm3 => Some (cm3, cur + 1, sp1))))) = None).
    { destruct (next_tile w h T p true) as [a|] eqn:Ea; [|reflexivity]. cbn [obind].
      destruct (trace w h T (trace_steps w h) (set_colour cm p cur) cur a true) as [cm2|] eqn:E2; [|reflexivity]. cbn [obind].
      destruct (simple_chain r p H) as (l & C & N). destruct C as [p|p y l r S C]; [rewrite (next_fails p X); reflexivity|].
      destruct (next_tile w h T p false) as [b|] eqn:Eb; [|reflexivity]. cbn [obind]. destruct (any_next w h T L WA VL false p b Hp Eb) as [Hn _]. rewrite <- (Hn y S). inversion N as [|? ? N1 N2]; subst.
      rewrite (trace_stuck cur _ cm2 y l r); [reflexivity|apply (step_inside _ _ _ _ _ S)|exact (step_conv w h T L _ _ S)|exact C|exact N2| |exact X].
      intros x Hx. destruct (chain_carried p (y :: l) r (chain_back p y l r S C)) as (_ & K). destruct (K x Hx) as (Cx & Vx & Ix).
      assert (Ux : cm x = None) by (rewrite (carried_colour cm cur x p I Cx Cp); exact Ec). destruct (cm2 x) as [c2|] eqn:C2; [exfalso|reflexivity].
      assert (F : carried A T L p x) by (apply (forward_only cm cur p a cm2 _ I Hp Ec Ea E2); congruence).
      pose proof (chain_round p p (y :: l) r x (chain_back p y l r S C) N1 F Hx) as Hr. specialize (Loop Hr). subst r. apply N1.
      clear - C S. assert (Z : forall q l r, chain q l r -> In r (q :: l)) by (induction 1; [left; reflexivity|right; assumption]). apply (Z y l p C). }
    destruct (T p); try contradiction; exact Y.
  Qed.

  (** The order of the loop over the tiles. *)
  Lemma all_tiles_sorted : StronglySorted visited_before (all_tiles w h).
  Proof.
    unfold all_tiles. generalize (Z.to_nat h) as m. intros m. generalize (Z.to_nat w) as n. intros n.
    assert (Col : forall x a k, StronglySorted visited_before (map (fun y => (Z.of_nat x, Z.of_nat y)) (seq a k))).
    { intros x a k. revert a. induction k as [|k IH]; intros a; cbn [seq map]; [constructor|]. constructor; [apply IH|]. apply Forall_forall. intros q Hq. apply in_map_iff in Hq. destruct Hq as (y & <- & Hy). apply in_seq in Hy. right. cbn [fst snd]. lia. }
    generalize 0%nat at 2 as a. induction n as [|n IH]; intros a; cbn [seq flat_map]; [constructor|].
    assert (App : forall l1 l2, StronglySorted visited_before l1 -> StronglySorted visited_before l2 -> (forall p q, In p l1 -> In q l2 -> visited_before p q) -> StronglySorted visited_before (l1 ++ l2)).
    { intros l1 l2 S1 S2 H. induction S1 as [|p l1 S1 I1 F1]; cbn [app]; [exact S2|]. constructor; [apply I1; intros; apply H; [right|]; assumption|]. apply Forall_app. split; [exact F1|]. apply Forall_forall. intros q Hq. apply H; [left; reflexivity|exact Hq]. }
    apply App; [apply Col|apply IH|]. intros p q Hp Hq. apply in_map_iff in Hp. destruct Hp as (y & <- & _). apply in_flat_map in Hq. destruct Hq as (x & Hx & Hq). apply in_map_iff in Hq. destruct Hq as (y' & <- & _). apply in_seq in Hx. left. cbn [fst]. lia.
  Qed.
  Lemma done_iff l1 p l2 : all_tiles w h = (l1 ++ p :: l2)%list -> forall q, In q l1 <-> inside A q /\ visited_before q p.
  Proof.
    intros E. pose proof all_tiles_sorted as S. rewrite E in S.
    assert (Irr : forall x, ~ visited_before x x) by (intros x [X|[_ X]]; lia).
    assert (Asym : forall x y, visited_before x y -> visited_before y x -> False) by (intros x y [X|[X X']] [Y|[Y Y']]; lia).
    assert (B : forall q, In q l1 -> visited_before q p).
    { clear E. induction l1 as [|x l1 IH]; [intros q []|]. cbn [app] in S. inversion S as [|? ? S1 F]; subst. intros q [<-|Hq]; [|auto]. rewrite Forall_forall in F. apply F. apply in_elt. }
    assert (C : forall q, In q l2 -> visited_before p q).
    { clear - S. induction l1 as [|x l1 IH]; cbn [app] in S; inversion S as [|? ? S1 F]; subst; [rewrite Forall_forall in F; exact F|auto]. }
    intros q. split.
    - intros Hq. split; [apply all_tiles_in; rewrite E; apply in_or_app; left; exact Hq|auto].
    - intros [Hq V]. apply all_tiles_in in Hq. rewrite E in Hq. apply in_app_or in Hq. destruct Hq as [Hq|[<-|Hq]]; [exact Hq|exfalso; eapply Irr; exact V|exfalso; eauto].
  Qed.

  (** The tiles that have a colour are those on the lines of the tiles visited. *)
  Definition Done (l : list (Z * Z)) (cm : mapping) : Prop :=
    (forall r, cm r <> None -> exists q, In q l /\ ~ is_splitter_tile (T q) /\ one_line w h T L q r) /\ (forall q, In q l -> ~ is_splitter_tile (T q) -> cm q <> None).
  Lemma found_iff l1 p l2 cm cur : all_tiles w h = (l1 ++ p :: l2)%list -> Inv w h T L cm cur -> Done l1 cm -> conv (T p) -> (cm p = None <-> found_at A T L p).
  Proof.
    intros E I (D1 & D2) Cp. pose proof (done_iff l1 p l2 E) as Di. split.
    - intros Ec. split; [apply conv_not_splitter; exact Cp|]. intros q Iq Nq Hq V. apply (D2 q); [apply Di; auto|exact Nq|]. rewrite <- Ec. symmetry.
      assert (Cq : conv (T q)).
      { destruct Hq as [Hq|Hq]; [exact (carried_conv p q Cp Hq Nq)|]. inversion Hq as [|? y ? S|? y ? S]; subst; [exact Cp|exact (step_conv w h T L _ _ (or_introl S))|exact (step_conv w h T L _ _ (or_intror S))]. }
      eapply line_colour; [exact I|exact Hq|exact Cp|exact Cq].
    - intros (_ & F). destruct (cm p) as [c|] eqn:Ec; [exfalso|reflexivity]. destruct (D1 p ltac:(congruence)) as (q & Hq & Nq & Lq). apply Di in Hq. destruct Hq as [Iq V].
      apply (F q Iq Nq); [destruct Lq; auto|exact V].
  Qed.
  Lemma scan_exact : forall l2 l1 cm cur (sp : list (Z * Z)), all_tiles w h = (l1 ++ l2)%list -> Inv w h T L cm cur -> Done l1 cm ->
    (exists st', scan w h T (cm, cur, sp) l2 = Some st') <-> forall p, In p l2 -> conv (T p) -> found_at A T L p -> ~ stuck p.
  Proof.
    induction l2 as [|p l2 IH]; intros l1 cm cur sp E I D; [split; [intros _ p []|intros _; eexists; reflexivity]|]. cbn [scan].
    assert (Hp : inside A p) by (apply all_tiles_in; rewrite E; apply in_elt). pose proof (found_iff l1 p l2 cm cur E I D) as Fd.
    assert (Next : forall st', scan_tile w h T (cm, cur, sp) p = Some st' -> (exists st'', scan w h T st' l2 = Some st'') <-> forall p, In p l2 -> conv (T p) -> found_at A T L p -> ~ stuck p).
    { intros [[cm1 cur1] sp1] E1. destruct (scan_tile_spec w h T L WA VL cm cur sp p _ Hp I E1) as (J1 & _ & J3 & J4 & _ & J6).
      apply (IH (l1 ++ [p])%list); [rewrite <- app_assoc; exact E|exact J1|]. destruct D as [D1 D2]. split.
      - intros r Hr. destruct (cm r) as [c|] eqn:Er.
        + destruct (D1 r ltac:(congruence)) as (q & Hq & X). exists q. split; [apply in_or_app; left; exact Hq|exact X].
        + destruct (J6 r Er Hr) as [X Y]. exists p. split; [apply in_or_app; right; left; reflexivity|auto].
      - intros q Hq Nq. apply in_app_or in Hq. destruct Hq as [Hq|[<-|[]]]; [|auto]. rewrite J3; auto. }
    split.
    - intros (st'' & X) q Hq. destruct (scan_tile w h T (cm, cur, sp) p) as [st'|] eqn:E1; [|discriminate]. cbn [obind] in X.
      destruct Hq as [<-|Hq]; [|apply (Next st' eq_refl); [eauto|exact Hq]]. intros Cp Fp St. apply (Fd Cp) in Fp. rewrite (scan_tile_stuck cm cur sp p Hp I Fp Cp St) in E1. discriminate.
    - intros Ok. destruct (scan_tile_total cm cur sp p Hp I) as (st' & E1); [intros Ec Cp; apply Ok; [left; reflexivity|exact Cp|apply Fd; assumption]|]. rewrite E1. cbn [obind]. apply (Next st' E1). intros q Hq. apply Ok. right. exact Hq.
  Qed.
  Lemma scan_some : (exists st', scan w h T (no_colours, 0, []) (all_tiles w h) = Some st') <-> ~ late_top_tunnel A T L.
  Proof.
    rewrite (scan_exact (all_tiles w h) [] no_colours 0 [] eq_refl (Inv_start w h T L)); [|split; [intros r X; contradiction X; reflexivity|intros q []]]. split.
    - intros Ok (p & r & s & Row & Sr & Cr & Lp & Fs). assert (X : top_exit r) by (exists p; auto). destruct (exit_conv r X) as [Vr Ir].
      apply (Ok s); [apply all_tiles_in; exact (carried_inside r s Ir Cr)|exact (carried_conv r s Vr Cr (proj1 Fs))|exact Fs|]. exists r. auto.
    - intros N s _ _ Fs (r & (p & Row & Sr) & Cr & Lp). apply N. exists p, r, s. auto.
  Qed.
  Lemma clear_not_late : top_row_clear A T -> ~ late_top_tunnel A T L.
  Proof. intros Top (p & r & s & Row & (Ip & d & Tp & _) & _). exact (Top p d Ip Row Tp). Qed.
End Total.

Section Slots.
  Variables (w h : Z) (T : Z * Z -> tile) (L : Z) (edge : bool).
  Let A := rectangle w h.
  Hypothesis VL : valid_layout A T L.

  Lemma slot_some d st out q : inside A q -> (exists x, slot w h T edge d st out q = Some x) <-> (inside A (beside out q d) -> T (beside out q d) <> Empty).
  Proof.
    intros Hq. destruct st as [cm cur].
    assert (E : slot w h T edge d (cm, cur) out q = let p := beside out q d in
      if in_shape w h 0 p then match T p with
        | Splitter d' _ => if dir_eqb d' d then let cp := if out then p else q in match cm cp with Some c => Some ((cm, cur), Some c) | None => Some ((set_colour cm cp cur, cur + 1), Some cur) end else Some ((cm, cur), None)
        | Belt _ _ | Underground _ _ => let side := if out then input_direction (T p) else output_direction (T p) in Some ((cm, cur), match side with Some s => if dir_eqb d s then cm p else None | None => None end)
        | _ => None end
      else if edge then Some ((cm, cur + 1), Some cur) else Some ((cm, cur), None)) by (unfold slot; rewrite !dx_step, !dy_step; reflexivity).
    rewrite E. clear E. cbv zeta. destruct (in_shape w h 0 (beside out q d)) eqn:Es.
    - apply in_shape_inside in Es. destruct (tiles_belt w h T L VL _ Es) as [C|[C|C]].
      + split; [intros _ _ X; rewrite X in C; contradiction|]. intros _. destruct (T (beside out q d)); try contradiction; eauto.
      + rewrite C. split; [intros (x & X); discriminate|intros X; exfalso; apply X; [exact Es|reflexivity]].
      + split; [intros _ _ X; rewrite X in C; contradiction|]. intros _. destruct (T (beside out q d)) as [| | | |d' b'| |]; try contradiction. destruct (dir_eqb d' d); [|eauto]. destruct (cm _); eauto.
    - split; [intros _ X; apply in_shape_inside in X; congruence|]. intros _. destruct edge; eauto.
  Qed.

  (** Both sides of both halves of the splitter at [p]. *)
  Definition clear_sides (p : Z * Z) (d : dir) : Prop := forall b out, inside A (beside out (half (p, mate_of p d) b) d) -> T (beside out (half (p, mate_of p d) b) d) <> Empty.
  Lemma read_node_some st (p : Z * Z) d : inside A p -> T p = Splitter d true -> (exists x, read_node w h T edge st p = Some x) <-> clear_sides p d.
  Proof.
    intros Hp Tp. pose proof (mate_at w h T L VL p d Hp Tp) as At. destruct At as (_ & Iq & _). cbn [fst snd] in Iq. unfold read_node. rewrite Tp.
    assert (Eq : (fst p + dx (next d), snd p + dy (next d)) = mate_of p d) by (rewrite dx_step, dy_step, next_anticlockwise; reflexivity). rewrite Eq.
    assert (Si : forall b, inside A (half (p, mate_of p d) b)) by (intros [|]; cbn [half fst snd]; assumption).
    split.
    - intros (x & E) b out. pose proof (fun st => proj1 (slot_some d st out (half (p, mate_of p d) b) (Si b))) as S.
      destruct (slot w h T edge d st false p) as [[st1 a1]|] eqn:E1; [|discriminate]. cbn [obind] in E.
      destruct (slot w h T edge d st1 false (mate_of p d)) as [[st2 a2]|] eqn:E2; [|discriminate]. cbn [obind] in E.
      destruct (slot w h T edge d st2 true p) as [[st3 a3]|] eqn:E3; [|discriminate]. cbn [obind] in E.
      destruct (slot w h T edge d st3 true (mate_of p d)) as [[st4 a4]|] eqn:E4; [|discriminate].
      destruct b, out; cbn [half fst snd] in *; eapply S; eauto.
    - intros C.
      destruct (proj2 (slot_some d st false p Hp) (C false false)) as ([st1 a1] & E1). rewrite E1. cbn [obind].
      destruct (proj2 (slot_some d st1 false (mate_of p d) Iq) (C true false)) as ([st2 a2] & E2). rewrite E2. cbn [obind].
      destruct (proj2 (slot_some d st2 true p Hp) (C false true)) as ([st3 a3] & E3). rewrite E3. cbn [obind].
      destruct (proj2 (slot_some d st3 true (mate_of p d) Iq) (C true true)) as ([st4 a4] & E4). rewrite E4. cbn [obind]. eauto.
  Qed.
  Lemma read_nodes_some : forall (ps : list (Z * Z)) st, (forall p, In p ps -> inside A p /\ exists d, T p = Splitter d true) ->
    (exists net, read_nodes w h T edge st ps = Some net) <-> (forall p d, In p ps -> T p = Splitter d true -> clear_sides p d).
  Proof.
    induction ps as [|p ps IH]; intros st Hps; [split; [intros _ p d []|intros _; eexists; reflexivity]|]. destruct (Hps p (or_introl eq_refl)) as (Hp & d & Tp). cbn [read_nodes].
    pose proof (read_node_some st p d Hp Tp) as R. destruct (read_node w h T edge st p) as [[st1 nd]|]; cbn [obind].
    - specialize (IH st1 (fun r Hr => Hps r (or_intror Hr))). split.
      + intros (net & E). destruct (read_nodes w h T edge st1 ps) as [net'|]; [|discriminate]. intros r dr [<-|Hr] Tr.
        * assert (d = dr) by congruence. subst dr. apply R. eauto.
        * apply (proj1 IH); eauto.
      + intros C. destruct (proj2 IH) as (net' & ->); [intros r dr Hr; apply C; right; exact Hr|]. cbn [obind]. eauto.
    - split; [intros (x & X); discriminate|]. intros C. destruct (proj2 R (C p d (or_introl eq_refl) Tp)) as (x & X). discriminate.
  Qed.
End Slots.

Theorem parse_some w h T L order edge : 0 < w -> 0 < h -> valid_layout (rectangle w h) T L -> (forall l, Permutation l (order l)) ->
  (exists net, parse_network w h T order edge = Some net) <-> no_gaps (rectangle w h) T /\ ~ late_top_tunnel (rectangle w h) T L.
Proof.
  intros Hw Hh VL Or. pose proof (rectangle_wf w h Hw Hh) as WA. unfold parse_network. pose proof (scan_some w h T L WA VL) as Sc.
  destruct (scan w h T (no_colours, 0, []) (all_tiles w h)) as [[[cm cur] sp]|] eqn:Es; cbn [obind].
  2:{ split; [intros (net & X); discriminate|]. intros [_ X]. apply Sc in X. destruct X as (st' & X). discriminate. }
  assert (Nl : ~ late_top_tunnel (rectangle w h) T L) by (apply Sc; eauto). clear Sc.
  pose proof (scan_spec w h T L WA VL (all_tiles w h) no_colours 0 [] _ (fun p => proj1 (all_tiles_in w h p)) (Inv_start w h T L) Es) as (_ & _ & _ & _ & Esp). cbn [app] in Esp. subst sp.
  set (ps := order (heads T (all_tiles w h))).
  assert (Hin : forall p, In p ps <-> inside (rectangle w h) p /\ exists d, T p = Splitter d true).
  { intros p. rewrite <- all_tiles_in, <- heads_in. split; apply Permutation_in; [apply Permutation_sym|]; apply Or. }
  pose proof (read_nodes_some w h T L edge VL ps (cm, cur) (fun p => proj1 (Hin p))) as R.
  assert (X : (exists net, obind (read_nodes w h T edge (cm, cur) ps) (fun net => Some (remap_colours net (name_map net))) = Some net) <-> exists net, read_nodes w h T edge (cm, cur) ps = Some net).
  { destruct (read_nodes w h T edge (cm, cur) ps); cbn [obind]; split; intros (x & X); try discriminate; eauto. }
  rewrite X, R. clear X R. split.
  - intros C. split; [|exact Nl]. intros p d b q Hp Tp Hq.
    assert (Y : exists out, q = beside out p d /\ inside (rectangle w h) q) by (destruct Hq as [Hq|Hq]; [exists true; apply (front w h) in Hq|exists false; apply (behind w h) in Hq]; exact Hq).
    destruct Y as (out & -> & Iq). 
    assert (Hd : exists p0 b0, inside (rectangle w h) p0 /\ T p0 = Splitter d true /\ p = half (p0, mate_of p0 d) b0).
    { destruct b; [exists p, false; auto|]. destruct VL as (_ & S & _). destruct (S p d false Hp Tp) as (q & En & Tq). exists q, true.
      assert (Iq' : inside (rectangle w h) q) by (eapply ahead_inside; exact En). split; [exact Iq'|]. split; [exact Tq|]. cbn [mate_side negb] in En.
      apply neighbour_some in En. destruct En as [-> _]. unfold mate_of, half. destruct p, d; cbn [fst snd step_x step_y anticlockwise opposite mate_side clockwise]; apply pair_equal_spec; split; lia. }
    destruct Hd as (p0 & b0 & I & T0 & ->). apply (C p0 d); [apply Hin; eauto|exact T0|exact Iq].
  - intros [G _] p d Hp Tp b out Iq. apply Hin in Hp. destruct Hp as [Hp _].
    destruct (mate_at w h T L VL p d Hp Tp) as (_ & Im & d' & T1 & T2 & _). cbn [fst snd] in *. rewrite Tp in T1. injection T1 as <-.
    assert (Hh' : inside (rectangle w h) (half (p, mate_of p d) b) /\ T (half (p, mate_of p d) b) = Splitter d (negb b)) by (destruct b; cbn [half fst snd negb]; auto). destruct Hh' as [Ih Th].
    apply (G _ d (negb b) _ Ih Th). destruct out; [left; apply (front w h)|right; apply (behind w h)]; auto.
Qed.
