(** Proofs about parse_network: after the loop over the tiles of a valid layout
    two tiles have the same colour exactly when they lie on one line. *)
From Coq Require Import ZArith List Bool Lia.
From Verif Require Import Spec_Tile Spec_Layout M_Json M_Tile M_Dict M_Network M_Template Spec_Network Spec_Balancer Spec_Interchange Spec_Parse M_Parse P_Tile P_Layout P_List P_Template P_Walk P_Trace P_Parse.
Import ListNotations.
Open Scope Z_scope.

Definition conv (t : tile) : Prop := match t with Belt _ _ | Underground _ _ => True | _ => False end.

Section Walk.
  Variables (w h : Z) (T : Z * Z -> tile).
  Lemma walk_finds low d e vx vy : forall f p k q, walk w h T f low d e vx vy p = Some q -> 1 <= k ->
    (forall j b, 0 < j < k -> is_underground (T (fst p + j * vx, snd p + j * vy)) d b = false) ->
    is_underground (T (fst p + k * vx, snd p + k * vy)) d e = true -> q = (fst p + k * vx, snd p + k * vy).
  Proof.
    induction f as [|f IH]; intros p k q Hw Hk Hb He; [discriminate|]. cbn [walk] in Hw. destruct (in_shape w h low _); [|discriminate].
    destruct (Z.eq_dec k 1) as [->|Nk].
    - rewrite !Z.mul_1_l in *. rewrite He in Hw. destruct (is_underground _ d (negb e)); [discriminate|]. injection Hw as <-. reflexivity.
    - assert (X : forall b, is_underground (T (fst p + vx, snd p + vy)) d b = false) by (intros b; specialize (Hb 1 b ltac:(lia)); rewrite !Z.mul_1_l in Hb; exact Hb).
      rewrite !X in Hw. specialize (IH _ (k - 1) q Hw ltac:(lia)). cbn [fst snd] in IH.
      assert (E : forall j, (fst p + vx + j * vx, snd p + vy + j * vy) = (fst p + (j + 1) * vx, snd p + (j + 1) * vy)) by (intros j; apply pair_equal_spec; split; ring).
      rewrite E in IH. replace (k - 1 + 1) with k in IH by lia. apply IH; [|exact He]. intros j b Hj. rewrite E. apply Hb. lia.
  Qed.
  Lemma walk_some low d e vx vy : forall f p k, 1 <= k <= Z.of_nat f ->
    (forall j, 0 < j <= k -> in_shape w h low (fst p + j * vx, snd p + j * vy) = true) ->
    (forall j b, 0 < j < k -> is_underground (T (fst p + j * vx, snd p + j * vy)) d b = false) ->
    is_underground (T (fst p + k * vx, snd p + k * vy)) d e = true -> walk w h T f low d e vx vy p = Some (fst p + k * vx, snd p + k * vy).
  Proof.
    induction f as [|f IH]; intros p k Hk Hs Hb He; [lia|]. cbn [walk].
    assert (S1 := Hs 1 ltac:(lia)). rewrite !Z.mul_1_l in S1. rewrite S1. destruct (Z.eq_dec k 1) as [->|Nk].
    - rewrite !Z.mul_1_l in *. rewrite He. destruct (is_underground _ d (negb e)) eqn:En; [|reflexivity].
      exfalso. destruct (T (fst p + vx, snd p + vy)); try discriminate. cbn in He, En. apply andb_true_iff in He, En. destruct He as [_ He], En as [_ En]. destruct entrance, e; discriminate.
    - assert (X : forall b, is_underground (T (fst p + vx, snd p + vy)) d b = false) by (intros b; specialize (Hb 1 b ltac:(lia)); rewrite !Z.mul_1_l in Hb; exact Hb).
      rewrite !X. assert (E : forall j, (fst p + vx + j * vx, snd p + vy + j * vy) = (fst p + (j + 1) * vx, snd p + (j + 1) * vy)) by (intros j; apply pair_equal_spec; split; ring).
      rewrite (IH _ (k - 1)); cbn [fst snd].
      + rewrite E. replace (k - 1 + 1) with k by lia. reflexivity.
      + lia.
      + intros j Hj. rewrite E. apply Hs. lia.
      + intros j b Hj. rewrite E. apply Hb. lia.
      + rewrite E. replace (k - 1 + 1) with k by lia. exact He.
  Qed.
  Lemma is_underground_iff t d e : is_underground t d e = true <-> t = Underground d e.
  Proof.
    destruct t as [| |i o|f b|f b|f b|x y]; cbn; try (split; discriminate). rewrite andb_true_iff, dir_eqb_eq, eqb_true_iff. split; [intros [-> ->]; reflexivity|intros [= -> ->]; auto].
  Qed.
  Lemma unblocked t d b : ~ blocks_tunnel t d -> is_underground t d b = false.
  Proof. intros N. destruct (is_underground t d b) eqn:E; [|reflexivity]. apply is_underground_iff in E. subst t. exfalso. apply N. apply blocks_self. Qed.
End Walk.

Section Valid.
  Variables (w h : Z) (T : Z * Z -> tile) (L : Z).
  Let A := rectangle w h.
  Hypothesis WA : wf_area A.
  Hypothesis VL : valid_layout A T L.

  Notation step := (step A T L).

  Lemma tiles_belt p : inside A p -> conv (T p) \/ T p = Empty \/ is_splitter_tile (T p).
  Proof. intros Hp. destruct VL as (B & _). specialize (B p Hp). destruct (T p); cbn; auto; contradiction. Qed.
  Lemma step_conv p q : step p q -> conv (T p).
  Proof.
    intros [(Hp & N & d & P & _)|(Hp & d & Tp & _)]; [|rewrite Tp; exact Logic.I]. destruct (T p); try contradiction; cbn; auto. apply N. exact Logic.I.
  Qed.

  (** The cells of a tunnel, counted from its entrance and from its exit. *)
  Lemma tunnel_cells p d q : inside A p -> tunnel A T L p d q -> exists k, 2 <= k /\
    q = (fst p + k * step_x d, snd p + k * step_y d) /\ p = (fst q + k * - step_x d, snd q + k * - step_y d) /\
    (forall j b, 0 < j < k -> is_underground (T (fst p + j * step_x d, snd p + j * step_y d)) d b = false) /\
    (forall j b, 0 < j < k -> is_underground (T (fst q + j * - step_x d, snd q + j * - step_y d)) d b = false) /\
    (forall j, 0 <= j <= k -> inside A (fst p + j * step_x d, snd p + j * step_y d)).
  Proof.
    intros Hp (k & Hk & Eq & B). apply ahead_some in Eq. destruct Eq as [Eq Iq].
    assert (C : forall j, 0 < j < k -> inside A (fst p + j * step_x d, snd p + j * step_y d) /\ forall b, is_underground (T (fst p + j * step_x d, snd p + j * step_y d)) d b = false).
    { intros j Hj. destruct (B j Hj) as (r & Er & Nr). apply ahead_some in Er. destruct Er as [-> Ir]. split; [exact Ir|]. intros b. apply unblocked. exact Nr. }
    exists k. split; [lia|]. split; [exact Eq|]. split; [|split; [|split]].
    - rewrite Eq. cbn [fst snd]. rewrite (surjective_pairing p) at 1. apply pair_equal_spec. split; ring.
    - intros j b Hj. apply C. exact Hj.
    - intros j b Hj. rewrite Eq. cbn [fst snd]. replace (fst p + k * step_x d + j * - step_x d, snd p + k * step_y d + j * - step_y d) with (fst p + (k - j) * step_x d, snd p + (k - j) * step_y d) by (apply pair_equal_spec; split; ring).
      apply C. lia.
    - intros j Hj. destruct (Z.eq_dec j 0) as [->|]; [replace (fst p + 0 * step_x d, snd p + 0 * step_y d) with p by (rewrite (surjective_pairing p) at 1; apply pair_equal_spec; split; ring); exact Hp|].
      destruct (Z.eq_dec j k) as [->|]; [rewrite <- Eq; exact Iq|]. apply C. lia.
  Qed.

  Lemma fwd_next p q : inside A p -> next_tile w h T p true = Some q -> (forall r, step p r -> r = q) /\ (inside A q -> step p q).
  Proof.
    intros Hp E. unfold next_tile in E.
    assert (Out : forall d, pushes (T p) d -> ~ is_splitter_tile (T p) -> q = (fst p + step_x d, snd p + step_y d) -> (forall r, step p r -> r = q) /\ (inside A q -> step p q)).
    { intros d P N Eq. assert (G : inside A q -> step p q) by (intros Iq; left; split; [exact Hp|split; [exact N|]]; exists d; split; [exact P|]; apply neighbour_some; auto).
      split; [|exact G]. intros r Hr. pose proof (step_inside _ _ _ _ _ Hr) as [_ Ir]. destruct Hr as [(_ & _ & d' & P' & En)|(_ & d' & Tp & _)].
      - rewrite <- (pushes_fun _ _ _ P P') in En. apply neighbour_some in En. destruct En as [-> _]. symmetry. exact Eq.
      - rewrite Tp in P. contradiction. }
    destruct (T p) as [| |i o|d e|d e|d e|x y] eqn:Tp; try discriminate.
    - injection E as <-. apply (Out o); [reflexivity|intros []|]. rewrite dx_step, dy_step. reflexivity.
    - destruct e.
      + destruct (enters A T L VL p d Hp Tp) as (r & Tr & Tu). destruct (tunnel_cells p d r Hp Tu) as (k & Hk & Er & _ & B & _ & _).
        assert (q = r). { rewrite Er. rewrite dx_step, dy_step in E. apply (walk_finds w h T _ _ _ _ _ _ p k q E); [lia|exact B|]. rewrite <- Er, Tr. apply is_underground_iff. reflexivity. }
        subst q. assert (S : step p r) by (right; split; [exact Hp|]; exists d; auto). split; [|intros _; exact S]. intros r' Hr'. exact (step_fun A T L _ _ _ Hr' S).
      + injection E as <-. apply (Out d); [reflexivity|intros []|]. rewrite dx_step, dy_step. reflexivity.
  Qed.

  Lemma bwd_next p q : inside A p -> next_tile w h T p false = Some q -> (forall r, step r p -> r = q) /\ (inside A q -> ~ is_splitter_tile (T q) -> step q p).
  Proof.
    intros Hp E. unfold next_tile in E.
    assert (Inp : forall d, takes (T p) d -> ~ is_splitter_tile (T p) -> q = (fst p - step_x d, snd p - step_y d) -> (forall r, step r p -> r = q) /\ (inside A q -> ~ is_splitter_tile (T q) -> step q p)).
    { intros d P N Eq.
      assert (Eo : q = (fst p + step_x (opposite d), snd p + step_y (opposite d))) by (rewrite Eq; destruct d; cbn [step_x step_y opposite]; apply pair_equal_spec; split; ring).
      split.
      - intros r Hr. destruct Hr as [(Hr & Nr & d' & P' & En)|(Hr & d' & _ & Tq & _)].
        + pose proof (received A T L VL r d' p Hr P' Nr En) as Tk. rewrite (takes_fun _ _ _ P Tk) in Eo. apply (neighbour_back A r d' p WA Hr) in En. apply neighbour_some in En. destruct En as [-> _]. symmetry. exact Eo.
        + rewrite Tq in P. contradiction.
      - intros Iq Nq. assert (En : neighbour A p (opposite d) = Some q) by (apply neighbour_some; auto). left. split; [exact Iq|]. split; [exact Nq|]. exists d.
        split; [exact (supplied A T L VL p d q Hp P N En)|]. apply (neighbour_back A p (opposite d) q WA Hp) in En. rewrite opposite_opposite in En. exact En. }
    destruct (T p) as [| |i o|d e|d e|d e|x y] eqn:Tp; try discriminate.
    - injection E as <-. apply (Inp i); [reflexivity|intros []|]. rewrite dx_step, dy_step, reverse_opposite. destruct i; cbn [step_x step_y opposite]; apply pair_equal_spec; split; ring.
    - destruct e.
      + injection E as <-. apply (Inp d); [reflexivity|intros []|]. rewrite dx_step, dy_step. reflexivity.
      + destruct (leaves A T L VL p d Hp Tp) as (r & Ir & Tr & Tu). destruct (tunnel_cells r d p Ir Tu) as (k & Hk & _ & Er & _ & B & _).
        assert (q = r). { rewrite Er. rewrite dx_step, dy_step in E. apply (walk_finds w h T _ _ _ _ _ _ p k q E); [lia|exact B|]. rewrite <- Er, Tr. apply is_underground_iff. reflexivity. }
        subst q. assert (S : step r p) by (right; split; [exact Ir|]; exists d; auto). split; [|intros _ _; exact S]. intros r' Hr'. exact (step_inj A T L WA VL _ _ _ Hr' S).
  Qed.

  Definition R (b : bool) (x y : pos) : Prop := if b then step x y else step y x.
  Definition reach (b : bool) (x y : pos) : Prop := if b then carried A T L x y else carried A T L y x.
  Lemma any_next b p q : inside A p -> next_tile w h T p b = Some q -> (forall r, R b p r -> r = q) /\ (inside A q -> ~ is_splitter_tile (T q) -> R b p q).
  Proof.
    intros Hp E. destruct b; [|apply bwd_next; assumption]. destruct (fwd_next p q Hp E) as [H1 H2]. split; [exact H1|]. intros Iq _. apply H2. exact Iq.
  Qed.
  Lemma R_inside b x y : R b x y -> inside A x /\ inside A y.
  Proof. destruct b; intros H; apply step_inside in H; tauto. Qed.
  Lemma step_carried x y : step x y -> carried A T L x y.
  Proof. intros H. eapply carried_step; [constructor|exact H]. Qed.
  Lemma carried_trans x y z : carried A T L x y -> carried A T L y z -> carried A T L x z.
  Proof. induction 1 as [|? ? ? H _ IH|? ? ? H _ IH]; auto; intros C; [eapply carried_belt|eapply carried_under]; eauto. Qed.
  Lemma reach_cons b x y z : R b x y -> reach b y z -> reach b x z.
  Proof.
    destruct b; cbn; intros H C.
    - eapply carried_trans; [apply step_carried; exact H|exact C].
    - eapply carried_trans; [exact C|apply step_carried; exact H].
  Qed.
  Lemma conv_not_splitter t : conv t -> ~ is_splitter_tile t.
  Proof. destruct t; cbn; tauto. Qed.

  Lemma trace_spec c b : forall f cm q cm', trace w h T f cm c q b = Some cm' ->
    (forall r, cm r <> None -> cm' r = cm r) /\
    (forall r, cm r = None -> cm' r <> None -> cm' r = Some c /\ inside A r /\ conv (T r) /\ reach b q r /\ inside A q /\ conv (T q)) /\
    (inside A q -> conv (T q) -> cm' q = Some c) /\
    (forall r r', cm r = None -> cm' r = Some c -> R b r r' -> conv (T r') -> cm' r' = Some c) /\
    (forall r, cm r = None -> cm' r = Some c -> r = q \/ exists r', R b r' r /\ cm' r' = Some c).
  Proof.
    induction f as [|f IH]; intros cm q cm' E; [discriminate|]. cbn [trace] in E.
    assert (Stop : cm' = cm -> (inside A q -> conv (T q) -> cm q = Some c) -> 
      (forall r, cm r <> None -> cm' r = cm r) /\
      (forall r, cm r = None -> cm' r <> None -> cm' r = Some c /\ inside A r /\ conv (T r) /\ reach b q r /\ inside A q /\ conv (T q)) /\
      (inside A q -> conv (T q) -> cm' q = Some c) /\
      (forall r r', cm r = None -> cm' r = Some c -> R b r r' -> conv (T r') -> cm' r' = Some c) /\
      (forall r, cm r = None -> cm' r = Some c -> r = q \/ exists r', R b r' r /\ cm' r' = Some c)).
    { intros -> H. split; [reflexivity|]. split; [intros r X Y; contradiction|]. split; [exact H|]. split; intros r; intros; congruence. }
    destruct (in_shape w h 0 q) eqn:Es.
    2:{ apply Stop; [congruence|]. intros Iq. apply in_shape_inside in Iq. congruence. }
    apply in_shape_inside in Es. rename Es into Iq.
    destruct (tiles_belt q Iq) as [Cq|[Eq|Sq]].
    2:{ apply Stop; [rewrite Eq in E; congruence|]. intros _ X. rewrite Eq in X. contradiction. }
    2:{ apply Stop; [destruct (T q); try contradiction; congruence|]. intros _ X. exfalso. exact (conv_not_splitter _ X Sq). }
    assert (E' : match cm q with Some c0 => if c0 =? c then Some cm else None | None => obind (next_tile w h T q b) (fun p => trace w h T f (set_colour cm q c) c p b) end = Some cm') by (destruct (T q); try contradiction; exact E).
    clear E. destruct (cm q) as [c0|] eqn:Ec.
    { destruct (Z.eqb_spec c0 c) as [->|]; [|discriminate]. apply Stop; [congruence|]. intros _ _. reflexivity. }
    destruct (next_tile w h T q b) as [q2|] eqn:En; [|discriminate]. cbn [obind] in E'. clear Stop.
    destruct (IH _ _ _ E') as (Ha & Hb & Hc & Hd & He). clear IH E'. destruct (any_next b q q2 Iq En) as [Hn1 Hn2].
    assert (Kq : cm' q = Some c) by (rewrite Ha; rewrite set_same; congruence).
    assert (N1 : forall r, r <> q -> set_colour cm q c r = cm r) by (intros r; apply set_other).
    split; [|split; [|split; [|split]]].
    - intros r Hr. assert (r <> q) by congruence. rewrite Ha; rewrite N1; auto.
    - intros r Hr Hr'. destruct (pos_dec r q) as [->|N].
      + split; [exact Kq|]. repeat (split; [assumption|]). split; [destruct b; constructor|auto].
      + destruct (Hb r) as (P1 & P2 & P3 & P4 & P5 & P6); [rewrite N1; assumption|exact Hr'|]. repeat (split; [assumption|]). split; [|auto].
        eapply reach_cons; [|exact P4]. apply Hn2; [exact P5|]. apply conv_not_splitter. exact P6.
    - intros _ _. exact Kq.
    - intros r r' Hr Hr' Rr Cr. destruct (pos_dec r q) as [->|N].
      + pose proof (Hn1 _ Rr). subst r'. apply Hc; [apply (R_inside b) in Rr; tauto|exact Cr].
      + eapply Hd; [rewrite N1; eassumption|exact Hr'|exact Rr|exact Cr].
    - intros r Hr Hr'. destruct (pos_dec r q) as [->|N]; [left; reflexivity|right].
      assert (Hr1 : set_colour cm q c r = None) by (rewrite N1; assumption).
      destruct (He r Hr1 Hr') as [->|(r' & Rr & Hr2)]; [|exists r'; auto].
      exists q. split; [|exact Kq]. destruct (Hb q2 Hr1 ltac:(congruence)) as (_ & P2 & P3 & _). apply Hn2; [exact P2|]. apply conv_not_splitter. exact P3.
  Qed.

  Lemma carried_split p q r : carried A T L p q -> carried A T L p r -> carried A T L q r \/ carried A T L r q.
  Proof.
    intros H. revert r. induction H as [p|p q s Hs Hc IH|p q s Hs Hc IH]; intros r Hr; [left; exact Hr| |].
    - inversion Hr as [x Ex|x y z Hx Hy|x y z Hx Hy]; subst; [right; eapply carried_belt; [exact Hs|exact Hc] | |].
      + assert (q = y) by (apply (step_fun A T L p); left; assumption). subst y. auto.
      + assert (q = y) by (apply (step_fun A T L p); [left|right]; assumption). subst y. auto.
    - inversion Hr as [x Ex|x y z Hx Hy|x y z Hx Hy]; subst; [right; eapply carried_under; [exact Hs|exact Hc] | |].
      + assert (q = y) by (apply (step_fun A T L p); [right|left]; assumption). subst y. auto.
      + assert (q = y) by (apply (step_fun A T L p); right; assumption). subst y. auto.
  Qed.
  Lemma carried_merge p q r : carried A T L q p -> carried A T L r p -> carried A T L q r \/ carried A T L r q.
  Proof.
    intros H. apply carried_clos in H. induction H as [|y z Hs Hc IH]; intros Hr; [right; exact Hr|].
    destruct (carried_inv A T L _ _ Hr) as [->|(x & Hx & Cx)].
    - left. eapply carried_step; [|exact Hs]. apply carried_forward. exact Hc.
    - assert (y = x) by exact (step_inj A T L WA VL _ _ _ Hs Hx). subst x. auto.
  Qed.

  (** What holds between two rounds of the loop. *)
  Definition one_line (p q : pos) : Prop := carried A T L p q \/ carried A T L q p.
  Definition Inv (cm : mapping) (cur : Z) : Prop :=
    0 <= cur /\
    (forall p c, cm p = Some c -> inside A p /\ (conv (T p) /\ 0 <= c < cur \/ T p = Empty /\ c = -1)) /\
    (forall p q, step p q -> conv (T q) -> cm p = cm q) /\
    (forall p q c, cm p = Some c -> cm q = Some c -> 0 <= c -> one_line p q).

  Lemma Inv_start : Inv no_colours 0.
  Proof. split; [lia|]. split; [discriminate|]. split; [reflexivity|]. discriminate. Qed.

  Lemma scan_tile_spec cm cur (sp : list (Z * Z)) (p : Z * Z) st' : inside A p -> Inv cm cur -> scan_tile w h T (cm, cur, sp) p = Some st' ->
    let '(cm', cur', sp') := st' in Inv cm' cur' /\ cur <= cur' /\ (forall r, cm r <> None -> cm' r = cm r) /\ (~ is_splitter_tile (T p) -> cm' p <> None) /\
    sp' = (sp ++ match T p with Splitter _ true => [p] | _ => [] end)%list /\
    (forall r, cm r = None -> cm' r <> None -> ~ is_splitter_tile (T p) /\ one_line p r).
  Proof.
    intros Hp (I0 & I1 & I2 & I3) E. unfold scan_tile in E. cbv beta iota zeta in E.
    assert (Esp : (match T p with Splitter _ true => (sp ++ [p])%list | _ => sp end) = (sp ++ match T p with Splitter _ true => [p] | _ => [] end)%list)
      by (destruct (T p) as [| | | |d [|]| |]; rewrite ?app_nil_r; reflexivity).
    rewrite Esp in E. clear Esp. set (sp1 := (sp ++ _)%list) in *. clearbody sp1.
    destruct (cm p) as [c0|] eqn:Ec.
    { injection E as <-. split; [exact (conj I0 (conj I1 (conj I2 I3)))|]. split; [lia|]. split; [reflexivity|]. split; [congruence|split; [reflexivity|intros; contradiction]]. }
    destruct (tiles_belt p Hp) as [Cp|[Tp|Sp]].
    2:{ rewrite Tp in E. injection E as <-.
        assert (Np : forall q, ~ step p q) by (intros q S; apply step_conv in S; rewrite Tp in S; contradiction).
        split; [|split; [lia|split; [|split; [intros _; rewrite set_same; discriminate|split; [reflexivity|]]]]].
        - split; [exact I0|]. split; [|split].
          + intros r c Hr. destruct (pos_dec r p) as [->|N]; [rewrite set_same in Hr; injection Hr as <-; auto|]. rewrite set_other in Hr by assumption. apply I1. exact Hr.
          + intros r q S C. destruct (pos_dec r p) as [->|N]; [exfalso; eapply Np; exact S|]. destruct (pos_dec q p) as [->|N2]; [rewrite Tp in C; contradiction|]. rewrite !set_other by assumption. auto.
          + intros r q c Hr Hq Hc. destruct (pos_dec r p) as [->|N]; [rewrite set_same in Hr; injection Hr as <-; lia|]. destruct (pos_dec q p) as [->|N2]; [rewrite set_same in Hq; injection Hq as <-; lia|].
            rewrite !set_other in * by assumption. eauto.
        - intros r Hr. apply set_other. congruence.
        - intros r Hr Hr'. destruct (pos_dec r p) as [->|N]; [|rewrite set_other in Hr' by assumption; contradiction]. split; [rewrite Tp; intros []|left; constructor]. }
    2:{ destruct (T p) eqn:Tp; try contradiction. injection E as <-. split; [exact (conj I0 (conj I1 (conj I2 I3)))|]. split; [lia|]. split; [reflexivity|]. split; [intros X; contradiction X|split; [reflexivity|intros; contradiction]]. }
    assert (E' : obind (next_tile w h T p true) (fun a => obind (trace w h T (trace_steps w h) (set_colour cm p cur) cur a true) (fun cm2 =>
      obind (next_tile w h T p false) (fun b => obind (trace w h T (trace_steps w h) cm2 cur b false) (fun cm3 => Some (cm3, cur + 1, sp1))))) = Some st') by (destruct (T p); try contradiction; exact E).
    clear E. destruct (next_tile w h T p true) as [a|] eqn:Ea; [|discriminate]. cbn [obind] in E'.
    destruct (trace w h T (trace_steps w h) (set_colour cm p cur) cur a true) as [cm2|] eqn:E2; [|discriminate]. cbn [obind] in E'.
    destruct (next_tile w h T p false) as [b|] eqn:Eb; [|discriminate]. cbn [obind] in E'.
    destruct (trace w h T (trace_steps w h) cm2 cur b false) as [cm3|] eqn:E3; [|discriminate]. cbn [obind] in E'. injection E' as <-.
    destruct (any_next true p a Hp Ea) as [Na1 Na2]. destruct (any_next false p b Hp Eb) as [Nb1 Nb2].
    destruct (trace_spec cur true _ _ _ _ E2) as (Fa & Fb & Fc & Fd & Fe). destruct (trace_spec cur false _ _ _ _ E3) as (Ba & Bb & Bc & Bd & Be). clear E2 E3.
    set (cm1 := set_colour cm p cur) in *.
    assert (K1 : cm1 p = Some cur) by apply set_same. assert (K2 : cm2 p = Some cur) by (rewrite Fa; congruence). assert (K3 : cm3 p = Some cur) by (rewrite Ba; congruence).
    assert (O1 : forall r, r <> p -> cm1 r = cm r) by (intros r; apply set_other).
    assert (Old : forall r, cm r <> None -> cm3 r = cm r).
    { intros r Hr. assert (r <> p) by congruence. assert (X1 : cm1 r = cm r) by auto. assert (X2 : cm2 r = cm1 r) by (apply Fa; congruence). rewrite Ba; congruence. }
    assert (New : forall r, cm r = None -> cm3 r <> None -> cm3 r = Some cur /\ inside A r /\ conv (T r) /\ (carried A T L p r \/ carried A T L r p)).
    { intros r Hr Hr3. destruct (pos_dec r p) as [->|N]; [repeat (split; [assumption|]); left; constructor|]. assert (X1 : cm1 r = None) by (rewrite O1; assumption).
      destruct (cm2 r) as [c2|] eqn:C2.
      - destruct (Fb r X1 ltac:(congruence)) as (P1 & P2 & P3 & P4 & P5 & P6). split; [rewrite Ba; congruence|]. repeat (split; [assumption|]). left.
        apply (reach_cons true p a r); [apply Na2; [exact P5|apply conv_not_splitter; exact P6]|exact P4].
      - destruct (Bb r C2 Hr3) as (P1 & P2 & P3 & P4 & P5 & P6). repeat (split; [assumption|]). right.
        apply (reach_cons false p b r); [apply Nb2; [exact P5|apply conv_not_splitter; exact P6]|exact P4]. }
    assert (Fwd : forall x y, cm x = None -> cm3 x = Some cur -> step x y -> conv (T y) -> cm3 y = Some cur).
    { intros x y Hx Hx3 S C. destruct (step_inside _ _ _ _ _ S) as [Ix Iy]. destruct (pos_dec x p) as [->|N].
      - pose proof (Na1 y S). subst y. assert (X : cm2 a = Some cur) by (apply Fc; assumption). rewrite Ba; congruence.
      - assert (X1 : cm1 x = None) by (rewrite O1; assumption). destruct (cm2 x) as [c2|] eqn:C2.
        + assert (c2 = cur) by (assert (X : cm3 x = cm2 x) by (apply Ba; congruence); congruence). subst c2. assert (X : cm2 y = Some cur) by exact (Fd x y X1 C2 S C). rewrite Ba; congruence.
        + destruct (Be x C2 Hx3) as [->|(r' & Rr & Hr')].
          * assert (y = p). { destruct (Bb b C2 ltac:(congruence)) as (_ & P2 & P3 & _). apply (step_fun A T L b); [exact S|]. apply Nb2; [exact P2|apply conv_not_splitter; exact P3]. } subst y. exact K3.
          * assert (y = r') by exact (step_fun A T L x _ _ S Rr). subst y. exact Hr'. }
    assert (Bwd : forall x y, cm y = None -> cm3 y = Some cur -> step x y -> conv (T y) -> cm3 x = Some cur).
    { intros x y Hy Hy3 S C. destruct (step_inside _ _ _ _ _ S) as [Ix Iy]. pose proof (step_conv _ _ S) as Cx. destruct (pos_dec y p) as [->|N].
      - pose proof (Nb1 x S). subst x. apply Bc; assumption.
      - assert (X1 : cm1 y = None) by (rewrite O1; assumption). destruct (cm2 y) as [c2|] eqn:C2.
        + assert (c2 = cur) by (assert (X : cm3 y = cm2 y) by (apply Ba; congruence); congruence). subst c2. destruct (Fe y X1 C2) as [->|(r' & Rr & Hr')].
          * assert (x = p). { destruct (Fb a X1 ltac:(congruence)) as (_ & P2 & P3 & _). apply (step_inj A T L WA VL _ _ a); [exact S|]. apply Na2; [exact P2|apply conv_not_splitter; exact P3]. } subst x. exact K3.
          * assert (x = r') by exact (step_inj A T L WA VL _ _ _ S Rr). subst x. rewrite Ba; congruence.
        + exact (Bd y x C2 Hy3 S Cx). }
    assert (Val : forall r c, cm3 r = Some c -> cm r = Some c \/ cm r = None /\ c = cur /\ inside A r /\ conv (T r) /\ (carried A T L p r \/ carried A T L r p)).
    { intros r c Hr. destruct (cm r) as [c'|] eqn:Er; [left; rewrite <- Er; rewrite <- Hr; symmetry; apply Old; congruence|right]. destruct (New r Er ltac:(congruence)) as (P1 & P2 & P3 & P4).
      split; [reflexivity|]. split; [congruence|auto]. }
    split; [|split; [lia|split; [exact Old|split; [congruence|split; [reflexivity|intros r Hr Hr'; split; [apply conv_not_splitter; exact Cp|apply (New r Hr Hr')]]]]]].
    split; [lia|]. split; [|split].
    - intros r c Hr. destruct (Val r c Hr) as [X|(_ & -> & P2 & P3 & _)]; [|split; [exact P2|left; split; [exact P3|lia]]].
      destruct (I1 r c X) as (Ir & [[C B]|[C B]]); (split; [exact Ir|]); [left; split; [exact C|lia]|right; auto].
    - intros x y S C. pose proof (I2 x y S C) as Exy. destruct (cm x) as [c|] eqn:Ex.
      + rewrite (Old x) by congruence. rewrite (Old y) by congruence. congruence.
      + destruct (cm3 x) as [c|] eqn:X3.
        * destruct (New x Ex ltac:(congruence)) as (P1 & _). assert (X : cm3 x = Some cur) by congruence. rewrite (Fwd x y Ex X S C). congruence.
        * destruct (cm3 y) as [c|] eqn:Y3; [|reflexivity]. destruct (New y (eq_sym Exy) ltac:(congruence)) as (P1 & _). rewrite (Bwd x y (eq_sym Exy) P1 S C) in X3. discriminate.
    - intros r q c Hr Hq Hc. destruct (Val r c Hr) as [Xr|(Nr & Er & _ & _ & Lr)], (Val q c Hq) as [Xq|(Nq & Eq & _ & _ & Lq)].
      + eauto.
      + exfalso. destruct (I1 r c Xr) as (_ & [[_ B]|[_ B]]); lia.
      + exfalso. destruct (I1 q c Xq) as (_ & [[_ B]|[_ B]]); lia.
      + unfold one_line. destruct Lr as [Lr|Lr], Lq as [Lq|Lq].
        * exact (carried_split p r q Lr Lq).
        * right. eapply carried_trans; eassumption.
        * left. eapply carried_trans; eassumption.
        * exact (carried_merge p r q Lr Lq).
  Qed.

  Definition heads (ps : list (Z * Z)) : list (Z * Z) := flat_map (fun p => match T p with Splitter _ true => [p] | _ => [] end) ps.
  Lemma scan_spec : forall (ps : list (Z * Z)) cm cur (sp : list (Z * Z)) st', (forall p, In p ps -> inside A p) -> Inv cm cur -> scan w h T (cm, cur, sp) ps = Some st' ->
    let '(cm', cur', sp') := st' in Inv cm' cur' /\ cur <= cur' /\ (forall r, cm r <> None -> cm' r = cm r) /\ (forall p, In p ps -> ~ is_splitter_tile (T p) -> cm' p <> None) /\
    sp' = (sp ++ heads ps)%list.
  Proof.
    induction ps as [|p ps IH]; intros cm cur sp st' Hps I E.
    - cbn [scan] in E. injection E as <-. split; [exact I|]. split; [lia|]. split; [reflexivity|]. split; [intros p []|]. symmetry. apply app_nil_r.
    - cbn [scan] in E. destruct (scan_tile w h T (cm, cur, sp) p) as [[[cm1 cur1] sp1]|] eqn:E1; [|discriminate]. cbn [obind] in E.
      destruct (scan_tile_spec cm cur sp p _ (Hps p (or_introl eq_refl)) I E1) as (J1 & J2 & J3 & J4 & J5 & _).
      specialize (IH cm1 cur1 sp1 st' (fun r Hr => Hps r (or_intror Hr)) J1 E). destruct st' as [[cm' cur'] sp']. destruct IH as (K1 & K2 & K3 & K4 & K5).
      split; [exact K1|]. split; [lia|]. split; [intros r Hr; rewrite K3; rewrite J3; auto|]. split.
      + intros r [<-|Hr] Nr; [|auto]. rewrite K3; auto.
      + rewrite K5, J5, <- app_assoc. reflexivity.
  Qed.
End Valid.
