(** Proofs about parse_network: the colours of the sides of the splitters. *)
From Coq Require Import ZArith List Bool Lia.
From Verif Require Import Spec_Tile Spec_Layout M_Json M_Tile M_Dict M_Network M_Template Spec_Network Spec_Balancer Spec_Interchange Spec_Parse M_Parse P_Tile P_Layout P_List P_Template P_Walk P_Trace P_Parse P_Parse2.
Import ListNotations.
Open Scope Z_scope.

Section Nodes.
  Variables (w h : Z) (T : Z * Z -> tile) (L : Z) (edge : bool).
  Let A := rectangle w h.
  Hypothesis WA : wf_area A.
  Hypothesis VL : valid_layout A T L.
  Variables (cm0 : mapping) (cur0 : Z).
  Hypothesis I0 : Inv w h T L cm0 cur0.
  Hypothesis Full : forall p, inside A p -> ~ is_splitter_tile (T p) -> cm0 p <> None.

  (** The tile before or behind the half at [q] of a splitter of direction [d]. *)
  Definition beside (out : bool) (q : Z * Z) (d : dir) : Z * Z := if out then (fst q + step_x d, snd q + step_y d) else (fst q - step_x d, snd q - step_y d).
  Definition convb (t : tile) : bool := match t with Belt _ _ | Underground _ _ => true | _ => false end.
  (** Where the colour of this side is kept. *)
  Definition key (out : bool) (q : Z * Z) (d : dir) : Z * Z :=
    if out then beside true q d else if insideb A (beside false q d) && convb (T (beside false q d)) then beside false q d else q.
  Definition meets (out : bool) (t : tile) (d : dir) : Prop := if out then takes t d else pushes t d.
  Definition active (out : bool) (q : Z * Z) (d : dir) : Prop :=
    inside A (beside out q d) /\ meets out (T (beside out q d)) d \/ ~ inside A (beside out q d) /\ edge = true.
  Definition slot_is (G : mapping) (out : bool) (q : Z * Z) (d : dir) (c : colour) : Prop :=
    (active out q d -> c <> None /\ c = G (key out q d)) /\ (~ active out q d -> c = None).

  Definition line_cell (p : Z * Z) : Prop := inside A p /\ ~ is_splitter_tile (T p).
  (** The half at [p] of a splitter has a tile behind it. *)
  Definition backed (p : Z * Z) : Prop := exists d b, T p = Splitter d b /\ inside A (beside false p d).

  Record NI (cm : mapping) (cur : Z) (G : mapping) (done : list (bool * (Z * Z))) : Prop := {
    n_cur : cur0 <= cur;
    n_line : forall p, line_cell p -> cm p = cm0 p /\ G p = cm0 p;
    n_link : forall p, inside A p -> backed p -> cm p = G p;
    n_new : forall k c, ~ line_cell k -> G k = Some c -> cur0 <= c < cur;
    n_inj : forall k k' c, ~ line_cell k -> ~ line_cell k' -> G k = Some c -> G k' = Some c -> k = k';
    n_done : forall out q d b, inside A q -> T q = Splitter d b -> ~ inside A (beside out q d) -> G (key out q d) <> None -> In (out, q) done }.

  Definition ext (G G' : mapping) : Prop := forall k c, G k = Some c -> G' k = Some c.
  Lemma ext_refl G : ext G G.
  Proof. intros k c H. exact H. Qed.
  Lemma ext_trans G G' G'' : ext G G' -> ext G' G'' -> ext G G''.
  Proof. intros H H' k c X. auto. Qed.
  Lemma slot_ext G G' out q d c : ext G G' -> slot_is G out q d c -> slot_is G' out q d c.
  Proof.
    intros X [H1 H2]. split; [|exact H2]. intros Ac. destruct (H1 Ac) as [N E]. split; [exact N|]. destruct c as [c|]; [|contradiction]. symmetry. apply X. congruence.
  Qed.

  Lemma NI_start : NI cm0 cur0 (fun p => if insideb A p then match T p with Splitter _ _ => None | _ => cm0 p end else None) [].
  Proof.
    assert (NS : forall p, ~ line_cell p -> (if insideb A p then match T p with Splitter _ _ => None | _ => cm0 p end else None) = None).
    { intros p N. destruct (insideb A p) eqn:E; [|reflexivity]. apply insideb_iff in E. destruct (T p) eqn:Tp; try reflexivity; exfalso; apply N; (split; [exact E|]); rewrite Tp; intros []. }
    split.
    - lia.
    - intros p [Hp N]. split; [reflexivity|]. rewrite (proj2 (insideb_iff A p) Hp). destruct (T p); try reflexivity. exfalso. apply N. exact Logic.I.
    - intros p Hp (d & b & Tp & _). rewrite (proj2 (insideb_iff A p) Hp), Tp. destruct (cm0 p) as [c|] eqn:E; [|reflexivity].
      destruct I0 as (_ & I1 & _). destruct (I1 p c E) as (_ & [[C _]|[C _]]); rewrite Tp in C; [contradiction|discriminate].
    - intros k c N E. rewrite (NS k N) in E. discriminate.
    - intros k k' c N _ E. rewrite (NS k N) in E. discriminate.
    - intros out q d b Hq Tq No Hk. exfalso. apply Hk. apply NS. unfold key. destruct out.
      + intros [X _]. contradiction.
      + destruct (insideb A (beside false q d)) eqn:E; [apply insideb_iff in E; contradiction|]. cbn [andb]. intros [_ X]. apply X. rewrite Tq. exact Logic.I.
  Qed.

  Lemma beside_unique q q' d d' : inside A q -> inside A q' -> ~ inside A (beside true q d) -> beside true q d = beside true q' d' -> q = q'.
  Proof.
    unfold inside, A. cbn [rectangle aw ah]. destruct q as [x y], q' as [x' y']. cbn [fst snd beside]. intros H1 H2 H3 E. apply pair_equal_spec in E. apply pair_equal_spec.
    destruct d, d'; cbn [step_x step_y] in *; lia.
  Qed.
  Lemma beside_back q d : inside A q -> forall p, beside false q d = p -> beside true p d = q.
  Proof. intros _ p <-. destruct q. cbn [beside fst snd]. apply pair_equal_spec. split; lia. Qed.
  Lemma beside_forth q d p : beside true q d = p -> beside false p d = q.
  Proof. intros <-. destruct q. cbn [beside fst snd]. apply pair_equal_spec. split; lia. Qed.

  Lemma not_line q d b : T q = Splitter d b -> ~ line_cell q.
  Proof. intros Tq [_ N]. apply N. rewrite Tq. exact Logic.I. Qed.

  (** A new colour for the side [(out, q)] kept at [k]. *)
  Lemma NI_add cm cur G done k cm' out q : NI cm cur G done -> ~ line_cell k -> G k = None ->
    (forall p, p <> k -> cm' p = cm p) -> (inside A k -> backed k -> cm' k = Some cur) ->
    (forall out' q' d' b', inside A q' -> T q' = Splitter d' b' -> ~ inside A (beside out' q' d') -> key out' q' d' = k -> (out', q') = (out, q)) ->
    NI cm' (cur + 1) (set_colour G k cur) ((out, q) :: done) /\ ext G (set_colour G k cur).
  Proof.
    intros [N1 N2 N3 N4 N5 N6] Nk Gk Cm Ck Uq.
    assert (X : ext G (set_colour G k cur)) by (intros k' c H; rewrite set_other; [exact H|congruence]). split; [|exact X]. split.
    - lia.
    - intros p Hp. assert (p <> k) by congruence. rewrite Cm, set_other by assumption. auto.
    - intros p Hp Bp. destruct (pos_dec p k) as [->|N]; [rewrite set_same; auto|]. rewrite Cm, set_other by assumption. auto.
    - intros k' c Nk' E. destruct (pos_dec k' k) as [->|N]; [rewrite set_same in E; injection E as <-; lia|]. rewrite set_other in E by assumption. specialize (N4 k' c Nk' E). lia.
    - intros a b c Na Nb Ea Eb. destruct (pos_dec a k) as [->|Ka], (pos_dec b k) as [->|Kb]; auto.
      + rewrite set_same in Ea. rewrite set_other in Eb by assumption. injection Ea as <-. specialize (N4 b cur Nb Eb). lia.
      + rewrite set_same in Eb. rewrite set_other in Ea by assumption. injection Eb as <-. specialize (N4 a cur Na Ea). lia.
      + rewrite set_other in Ea, Eb by assumption. eauto.
    - intros o r d b Hr Tr No Hk. destruct (pos_dec (key o r d) k) as [Ek|Nk'].
      + left. symmetry. eapply Uq; eassumption.
      + rewrite set_other in Hk by assumption. right. eapply N6; eassumption.
  Qed.

  Lemma NI_more cm cur G done x : NI cm cur G done -> NI cm cur G (x :: done).
  Proof. intros [N1 N2 N3 N4 N5 N6]. split; auto. intros. right. eauto. Qed.

  Lemma slot_spec cm cur G done d b out q st' c : NI cm cur G done -> inside A q -> T q = Splitter d b -> ~ In (out, q) done ->
    slot w h T edge d (cm, cur) out q = Some (st', c) ->
    exists G', ext G G' /\ NI (fst st') (snd st') G' ((out, q) :: done) /\ slot_is G' out q d c.
  Proof.
    intros N Hq Tq Nd E. unfold slot in E. rewrite !dx_step, !dy_step in E.
    assert (E' : (let p := beside out q d in
      if in_shape w h 0 p then match T p with
        | Splitter d' _ => if dir_eqb d' d then let cp := if out then p else q in match cm cp with Some c => Some ((cm, cur), Some c) | None => Some ((set_colour cm cp cur, cur + 1), Some cur) end else Some ((cm, cur), None)
        | Belt _ _ | Underground _ _ => let side := if out then input_direction (T p) else output_direction (T p) in Some ((cm, cur), match side with Some s => if dir_eqb d s then cm p else None | None => None end)
        | _ => None end
      else if edge then Some ((cm, cur + 1), Some cur) else Some ((cm, cur), None)) = Some (st', c)) by exact E.
    clear E. cbv zeta in E'. set (p := beside out q d) in *.
    destruct (in_shape w h 0 p) eqn:Es.
    - apply in_shape_inside in Es. rename Es into Hp. change (inside A p) in Hp.
      assert (Ac : active out q d <-> meets out (T p) d). { unfold active. fold p. split; [intros [[_ X]|[X _]]; [exact X|contradiction]|intros X; left; auto]. }
      assert (Ib : insideb A p = true) by (apply insideb_iff; exact Hp).
      destruct (tiles_belt w h T L VL p Hp) as [Cp|[Tp|Sp]].
      + (* a belt or an underground *)
        assert (Lp : line_cell p) by (split; [exact Hp|apply conv_not_splitter; exact Cp]).
        assert (Ek : key out q d = p). { unfold key. destruct out; [reflexivity|]. change (beside false q d) with p. rewrite Ib. destruct (T p); try contradiction; reflexivity. }
        assert (E2 : Some ((cm, cur), match (if out then input_direction (T p) else output_direction (T p)) with Some s => if dir_eqb d s then cm p else None | None => None end) = Some (st', c)) by (destruct (T p); try contradiction; exact E').
        clear E'. injection E2 as <- <-. exists G. split; [apply ext_refl|]. split; [apply NI_more; exact N|].
        destruct N as [_ N2 _ _ _ _]. destruct (N2 p Lp) as [Ecm EG].
        assert (M : meets out (T p) d <-> (if out then input_direction (T p) else output_direction (T p)) = Some d).
        { destruct out; destruct (T p) as [| |i o|f [|]|f x|f x|x y]; try contradiction; cbn; split; intros X; first [contradiction|congruence]. }
        split.
        * intros X. apply Ac in X. apply (proj1 M) in X. rewrite X. rewrite (proj2 (dir_eqb_eq d d) eq_refl), Ek, EG, Ecm. split; [apply Full; apply Lp|reflexivity].
        * intros X. destruct (if out then input_direction (T p) else output_direction (T p)) as [s|] eqn:Ei; [|reflexivity]. destruct (dir_eqb d s) eqn:Ed; [|reflexivity].
          exfalso. apply dir_eqb_eq in Ed. subst s. apply X, Ac, M. reflexivity.
      + rewrite Tp in E'. discriminate.
      + destruct (T p) as [| | | |d' b'| |] eqn:Tp; try contradiction.
        assert (M : meets out (Splitter d' b') d <-> d' = d) by (destruct out; cbn; split; congruence).
        destruct (dir_eqb d' d) eqn:Ed.
        * apply dir_eqb_eq in Ed. subst d'. assert (Acc : active out q d) by (apply Ac, M; reflexivity).
          set (cp := if out then p else q) in *.
          assert (Ek : key out q d = cp). { unfold key, cp. destruct out; [reflexivity|]. change (beside false q d) with p. rewrite Ib, Tp. reflexivity. }
          assert (Icp : inside A cp) by (unfold cp; destruct out; assumption).
          assert (Scp : exists b0, T cp = Splitter d b0) by (unfold cp; destruct out; eauto). destruct Scp as (b0 & Tcp).
          assert (Bcp : backed cp). { exists d, b0. split; [exact Tcp|]. unfold cp. destruct out; [|exact Hp]. rewrite (beside_forth q d p eq_refl). exact Hq. }
          destruct (cm cp) as [c0|] eqn:Ec.
          -- injection E' as <- <-. exists G. split; [apply ext_refl|]. split; [apply NI_more; exact N|]. split; [|intros X; contradiction].
             intros _. split; [discriminate|]. rewrite Ek, <- (n_link _ _ _ _ N cp Icp Bcp). symmetry. exact Ec.
          -- injection E' as <- <-. exists (set_colour G cp cur).
             destruct (NI_add cm cur G done cp (set_colour cm cp cur) out q N) as [N' X].
             ++ eapply not_line. exact Tcp.
             ++ rewrite <- (n_link _ _ _ _ N cp Icp Bcp). exact Ec.
             ++ intros r Hr. apply set_other. exact Hr.
             ++ intros _ _. apply set_same.
             ++ intros o r dr br Hr Tr No Er. exfalso. unfold key in Er. destruct o.
                ** rewrite <- Er in Icp. contradiction.
                ** destruct (insideb A (beside false r dr)) eqn:Ei; [apply insideb_iff in Ei; contradiction|]. cbn [andb] in Er. subst r.
                   destruct Bcp as (dx & bx & Tx & Ix). rewrite Tr in Tx. injection Tx as <- <-. contradiction.
             ++ split; [exact X|]. split; [exact N'|]. split; [|intros Y; contradiction]. intros _. split; [discriminate|]. rewrite Ek, set_same. reflexivity.
        * injection E' as <- <-. exists G. split; [apply ext_refl|]. split; [apply NI_more; exact N|]. split; [|reflexivity]. intros X. apply Ac, M in X. subst d'.
          rewrite (proj2 (dir_eqb_eq d d) eq_refl) in Ed. discriminate.
    - assert (No : ~ inside A p) by (intros X; apply in_shape_inside in X; congruence).
      assert (Ac : active out q d <-> edge = true). { unfold active. fold p. split; [intros [[X _]|[_ X]]; [contradiction|exact X]|intros X; right; auto]. }
      destruct edge.
      + injection E' as <- <-. set (k := key out q d). exists (set_colour G k cur).
        assert (Ek : k = if out then p else q). { unfold k, key. destruct out; [reflexivity|]. change (beside false q d) with p. destruct (insideb A p) eqn:Ei; [apply insideb_iff in Ei; contradiction|reflexivity]. }
        destruct (NI_add cm cur G done k cm out q N) as [N' X].
        * rewrite Ek. destruct out; [intros [X _]; contradiction|]. eapply not_line. exact Tq.
        * destruct (G k) as [c0|] eqn:Eg; [|reflexivity]. exfalso. apply Nd. apply (n_done _ _ _ _ N out q d b Hq Tq No). fold k. congruence.
        * reflexivity.
        * intros Ik (d0 & b0 & Tk & Bk). exfalso. rewrite Ek in Ik, Tk, Bk. destruct out; [contradiction|]. rewrite Tq in Tk. injection Tk as <- <-. contradiction.
        * intros o r dr br Hr Tr Nr Er.
          assert (Er' : (if o then beside true r dr else r) = if out then p else q).
          { rewrite <- Ek, <- Er. unfold key. destruct o; [reflexivity|]. destruct (insideb A (beside false r dr)) eqn:Ei; [apply insideb_iff in Ei; contradiction|reflexivity]. }
          destruct o, out.
          -- f_equal. apply (beside_unique r q dr d Hr Hq Nr Er').
          -- exfalso. apply Nr. rewrite Er'. exact Hq.
          -- exfalso. apply No. rewrite <- Er'. exact Hr.
          -- congruence.
        * split; [exact X|]. split; [exact N'|]. split; [|intros Y; exfalso; apply Y, Ac; reflexivity]. intros _. split; [discriminate|]. fold k. rewrite set_same. reflexivity.
      + injection E' as <- <-. exists G. split; [apply ext_refl|]. split; [apply NI_more; exact N|]. split; [|reflexivity]. intros X. apply Ac in X. discriminate.
  Qed.

  (** The other half of the splitter whose head is at [p]. *)
  Definition mate_of (p : Z * Z) (d : dir) : Z * Z := (fst p + step_x (anticlockwise d), snd p + step_y (anticlockwise d)).
  Definition node_is (G : mapping) (p : Z * Z) (nd : splitter) : Prop :=
    exists d, inside A p /\ T p = Splitter d true /\ is_splitter_at A T (p, mate_of p d) /\
      forall b, slot_is G false (half (p, mate_of p d) b) d (pick (fst nd) b) /\ slot_is G true (half (p, mate_of p d) b) d (pick (snd nd) b).
  Lemma node_ext G G' p nd : ext G G' -> node_is G p nd -> node_is G' p nd.
  Proof.
    intros X (d & Hp & Tp & At & H). exists d. repeat (split; [assumption|]). intros b. destruct (H b). split; eapply slot_ext; eassumption.
  Qed.
  Lemma mate_at (p : Z * Z) d : inside A p -> T p = Splitter d true -> is_splitter_at A T (p, mate_of p d).
  Proof.
    intros Hp Tp. destruct VL as (_ & S & _). destruct (S p d true Hp Tp) as (q & En & Tq). cbn [mate_side] in En. apply neighbour_some in En. destruct En as [Eq Iq].
    change (mate_of p d) with (fst p + step_x (anticlockwise d), snd p + step_y (anticlockwise d)). rewrite <- Eq.
    split; [exact Hp|]. split; [exact Iq|]. exists d. cbn [fst snd]. split; [exact Tp|]. split; [exact Tq|]. apply neighbour_some. auto.
  Qed.

  Lemma read_node_spec cm cur G done (p : Z * Z) st' nd : NI cm cur G done -> inside A p ->
    (forall d out b, T p = Splitter d true -> ~ In (out, half (p, mate_of p d) b) done) -> read_node w h T edge (cm, cur) p = Some (st', nd) ->
    exists G' d, T p = Splitter d true /\ ext G G' /\ node_is G' p nd /\
      NI (fst st') (snd st') G' ((true, mate_of p d) :: (true, p) :: (false, mate_of p d) :: (false, p) :: done).
  Proof.
    intros N Hp Nd E. unfold read_node in E. destruct (T p) as [| | | |d [|]| |] eqn:Tp; try discriminate.
    pose proof (mate_at p d Hp Tp) as At. destruct At as (_ & Iq & d' & T1 & T2 & _). cbn [fst snd] in Iq, T1, T2. rewrite Tp in T1. injection T1 as <-.
    assert (Eq : (fst p + dx (next d), snd p + dy (next d)) = mate_of p d) by (rewrite dx_step, dy_step, next_anticlockwise; reflexivity).
    rewrite Eq in E. clear Eq. set (q := mate_of p d) in *.
    assert (Npq : p <> q) by congruence.
    assert (D1 : forall out, ~ In (out, p) done) by (intros out; exact (Nd d out false eq_refl)). assert (D2 : forall out, ~ In (out, q) done) by (intros out; exact (Nd d out true eq_refl)).
    destruct (slot w h T edge d (cm, cur) false p) as [[[cm1 cur1] a]|] eqn:Ea; [|discriminate]. cbn [obind] in E.
    destruct (slot_spec _ _ _ _ _ _ false _ _ _ N Hp Tp (D1 false) Ea) as (G1 & X1 & N1 & S1). cbn [fst snd] in N1.
    destruct (slot w h T edge d (cm1, cur1) false q) as [[[cm2 cur2] b]|] eqn:Eb; [|discriminate]. cbn [obind] in E.
    destruct (slot_spec _ _ _ _ _ _ false _ _ _ N1 Iq T2 ltac:(intros H; cbn [In] in H; destruct H as [H|H]; [exact (Npq (f_equal snd H))|exact (D2 _ H)]) Eb) as (G2 & X2 & N2 & S2). cbn [fst snd] in N2.
    destruct (slot w h T edge d (cm2, cur2) true p) as [[[cm3 cur3] c]|] eqn:Ec; [|discriminate]. cbn [obind] in E.
    destruct (slot_spec _ _ _ _ _ _ true _ _ _ N2 Hp Tp ltac:(intros H; cbn [In] in H; destruct H as [H|[H|H]]; [discriminate H|discriminate H|exact (D1 _ H)]) Ec) as (G3 & X3 & N3 & S3). cbn [fst snd] in N3.
    destruct (slot w h T edge d (cm3, cur3) true q) as [[[cm4 cur4] e]|] eqn:Ee; [|discriminate]. cbn [obind] in E. injection E as <- <-.
    destruct (slot_spec _ _ _ _ _ _ true _ _ _ N3 Iq T2 ltac:(intros H; cbn [In] in H; destruct H as [H|[H|[H|H]]]; [exact (Npq (f_equal snd H))|discriminate H|discriminate H|exact (D2 _ H)]) Ee) as (G4 & X4 & N4 & S4). cbn [fst snd] in N4.
    exists G4, d. split; [reflexivity|]. split; [eapply ext_trans; [exact X1|]; eapply ext_trans; [exact X2|]; eapply ext_trans; [exact X3|exact X4]|]. split; [|exact N4].
    exists d. split; [exact Hp|]. split; [exact Tp|]. split; [exact (mate_at p d Hp Tp)|]. fold q.
    intros [|]; cbn [half pick fst snd]; split.
    - eapply slot_ext; [|exact S2]. eapply ext_trans; eassumption.
    - exact S4.
    - eapply slot_ext; [|exact S1]. eapply ext_trans; [exact X2|]. eapply ext_trans; eassumption.
    - eapply slot_ext; [exact X4|exact S3].
  Qed.

  Lemma mate_inj (p p' : Z * Z) d d' : inside A p -> inside A p' -> T p = Splitter d true -> T p' = Splitter d' true -> mate_of p d = mate_of p' d' -> p = p'.
  Proof.
    intros Hp Hp' Tp Tp' E. destruct (mate_at p d Hp Tp) as (_ & _ & e & U1 & U2 & _), (mate_at p' d' Hp' Tp') as (_ & _ & e' & U1' & U2' & _). cbn [fst snd] in *.
    assert (d = d') by congruence. subst d'. unfold mate_of in E. apply pair_equal_spec in E. destruct p, p'. cbn [fst snd] in E. apply pair_equal_spec. lia.
  Qed.

  Lemma read_nodes_spec : forall (ps : list (Z * Z)) cm cur G done net, NI cm cur G done -> NoDup ps -> (forall p, In p ps -> inside A p) ->
    (forall p d out b, In p ps -> T p = Splitter d true -> ~ In (out, half (p, mate_of p d) b) done) -> read_nodes w h T edge (cm, cur) ps = Some net ->
    exists cm' cur' G' done', ext G G' /\ NI cm' cur' G' done' /\ Forall2 (node_is G') ps net.
  Proof.
    induction ps as [|p ps IH]; intros cm cur G done net N Nd Hps Hd E.
    - cbn [read_nodes] in E. injection E as <-. exists cm, cur, G, done. split; [apply ext_refl|]. split; [exact N|constructor].
    - cbn [read_nodes] in E. destruct (read_node w h T edge (cm, cur) p) as [[[cm1 cur1] nd]|] eqn:E1; [|discriminate]. cbn [obind] in E.
      destruct (read_nodes w h T edge (cm1, cur1) ps) as [net'|] eqn:E2; [|discriminate]. cbn [obind] in E. injection E as <-.
      pose proof (Hps p (or_introl eq_refl)) as Hp.
      destruct (read_node_spec _ _ _ _ _ _ _ N Hp (fun d out b => Hd p d out b (or_introl eq_refl)) E1) as (G1 & d & Tp & X1 & Ni & N1). cbn [fst snd] in N1.
      inversion Nd as [|? ? Np Nd']; subst.
      pose proof (mate_at p d Hp Tp) as At. destruct At as (_ & Iq & d' & T1 & T2 & _). cbn [fst snd] in Iq, T1, T2.
      assert (D : forall r dr out b, In r ps -> T r = Splitter dr true -> ~ In (out, half (r, mate_of r dr) b) ((true, mate_of p d) :: (true, p) :: (false, mate_of p d) :: (false, p) :: done)).
      { intros r dr out b Hr Tr Hin. pose proof (Hps r (or_intror Hr)) as Ir. assert (Nrp : r <> p) by congruence.
        destruct (mate_at r dr Ir Tr) as (_ & _ & dr' & U1 & U2 & _). cbn [fst snd] in U1, U2.
        assert (Nm : mate_of r dr <> mate_of p d) by (intros Em; apply Nrp; exact (mate_inj r p dr d Ir Hp Tr Tp Em)).
        assert (Y : forall x, x <> mate_of p d -> x <> p -> In (out, x) ((true, mate_of p d) :: (true, p) :: (false, mate_of p d) :: (false, p) :: done) -> In (out, x) done).
        { intros x Y1 Y2 [Z0|[Z0|[Z0|[Z0|Z0]]]]; [exfalso; apply Y1; exact (eq_sym (f_equal snd Z0))|exfalso; apply Y2; exact (eq_sym (f_equal snd Z0))|exfalso; apply Y1; exact (eq_sym (f_equal snd Z0))|exfalso; apply Y2; exact (eq_sym (f_equal snd Z0))|exact Z0]. }
        destruct b; cbn [half fst snd] in Hin; apply Y in Hin; try congruence.
        - exact (Hd r dr out true (or_intror Hr) Tr Hin).
        - exact (Hd r dr out false (or_intror Hr) Tr Hin). }
      destruct (IH _ _ _ _ _ N1 Nd' (fun r Hr => Hps r (or_intror Hr)) D E2) as (cm' & cur' & G' & done' & X2 & N2 & F).
      exists cm', cur', G', done'. split; [eapply ext_trans; eassumption|]. split; [exact N2|]. constructor; [eapply node_ext; eassumption|exact F].
  Qed.
End Nodes.
