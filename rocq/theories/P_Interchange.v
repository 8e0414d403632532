(** What the clauses of interchange.py exclude, on the layout of a solution. *)
From Coq Require Import String ZArith List Bool Lia.
From Verif Require Import Spec_Cnf Spec_Tile Spec_Layout Spec_Pattern Spec_Interchange M_Json M_Tile M_Util M_Card M_Template M_Grid M_Balancer M_Optimise M_Interchange
  P_Cnf P_Util P_Card P_Tile P_Layout P_List P_Template P_Walk P_Grid P_GridSound P_Pattern.
Import ListNotations.
Open Scope Z_scope.

Lemma satc_invert a ls : Forall nonzero ls -> (satc a (invert_components ls) = false <-> forall l, In l ls -> evl a l = true).
Proof.
  unfold invert_components. induction ls as [|l ls IH]; intros N; cbn [map].
  - rewrite satc_f_nil. split; [intros _ l []|intros _; exact Logic.I].
  - apply Forall_cons_iff in N. destruct N as [N1 N2]. rewrite satc_f_cons, evl_neg_f, IH by assumption. split.
    + intros [H1 H2] x [<-|Hx]; auto.
    + intros H. split; [apply H; left; reflexivity|intros x Hx; apply H; right; exact Hx].
Qed.
Lemma evl_set_literal a l s : l <> 0 -> (evl a (set_literal l s) = true <-> evl a l = s).
Proof. intros N. unfold set_literal. destruct s; [reflexivity|]. rewrite evl_neg_iff by exact N. reflexivity. Qed.
Lemma set_literal_nz l s : l <> 0 -> set_literal l s <> 0.
Proof. unfold set_literal. destruct s; lia. Qed.

Section Interchange.
  Variable g : grid.
  Hypothesis W : wf_grid g.
  Hypothesis NX : wrap_x (geo g) = false.
  Hypothesis NY : wrap_y (geo g) = false.
  Variable a : assignment.
  Notation A := (garea g).
  Notation V p := (view_of a (tile_at g p)).
  Variable T : layout.
  Hypothesis HT : forall p, inside A p -> decoded g a p = Some (T p).
  Hypothesis G : grid_rules g a.
  Hypothesis Lk : forall p d, inside A p -> link_rule g a p d.
  Hypothesis Ur : forall p d, inside A p -> under_rule g a p d.
  Hypothesis ER : edge_under_rule g a (EBool true).
  Hypothesis Plain : forall p, inside A p -> vs (V p) = false.

  Let HA : wf_area A := WA g W.
  Let ok := tile_at_ok g.
  Lemma belt_of p i o : inside A p -> vi (V p) i = true -> vo (V p) o = true -> T p = Belt i o.
  Proof. intros Hp Hi Ho. apply (is_belt_at g a T HT G p i o Hp Hi Ho (Plain p Hp)). Qed.
  Lemma belt_is p i o : inside A p -> T p = Belt i o -> vi (V p) i = true /\ vo (V p) o = true.
  Proof. intros Hp E. destruct (belt_at g a T HT G p i o Hp E) as (H1 & H2 & _). auto. Qed.
  Lemma link_is p d q : inside A p -> neighbour A p d = Some q -> vo (V p) d = vi (V q) d.
  Proof. apply (lnk g a Lk). Qed.

  (** ** Without wrapping *)
  Lemma neighbour_plain p d q : inside A p -> inside A q -> q = (fst p + step_x d, snd p + step_y d) -> neighbour A p d = Some q.
  Proof.
    intros Hp Hq E. unfold neighbour, ahead. rewrite !Z.mul_1_l, <- E. apply place_self. exact Hq.
  Qed.
  Lemma place_plain (p : pos) : place A p = if insideb A p then Some p else None.
  Proof. unfold place, garea, area_of. cbn [wrapx wrapy]. rewrite NX, NY. destruct p; reflexivity. Qed.
  Lemma spot_plain p d i t j q : spot A p d i t j = Some q -> inside A q /\ q = (fst p + (i * step_x d + j * step_x t), snd p + (i * step_y d + j * step_y t)).
  Proof.
    intros E. split; [eapply spot_inside; exact E|]. unfold spot in E. rewrite place_plain in E. destruct (insideb A _); [|discriminate]. apply Some_inj in E. congruence.
  Qed.
  Lemma spot_corner p d i j q : inside A p -> spot A p (anticlockwise d) i d j = Some q -> exists r, spot A p (anticlockwise d) i d 0 = Some r.
  Proof.
    intros Hp E. destruct (spot_plain _ _ _ _ _ _ E) as [Hq ->]. unfold spot. rewrite place_plain.
    replace (insideb A _) with true; [eauto|]. symmetry. apply insideb_iff. destruct Hp as [P1 P2], Hq as [Q1 Q2]. cbn [aw ah garea area_of fst snd] in *. unfold garea, area_of in *. cbn [aw ah] in *.
    destruct d; cbn [anticlockwise step_x step_y] in *; split; cbn [fst snd aw ah]; lia.
  Qed.

  (** ** Lines of one colour passing each other *)
  Hypothesis Bits : colour_bits g = 1%nat.
  Notation Hue p := (value a (colour (tile_at g p))).
  Definition lamp (p : pos) : lit := nth 0 (colour (tile_at g p)) 0.
  Lemma lamp_is p : inside A p -> lamp p <> 0 /\ Hue p = Z.b2z (evl a (lamp p)).
  Proof.
    intros Hp. pose proof (ok_c _ (ok p W Hp)) as N. pose proof (proj1 (colour_len g p)) as L. unfold len in L. rewrite Bits in L. unfold lamp.
    destruct (colour (tile_at g p)) as [|l [|m r]]; cbn [length] in L; try lia. cbn [nth]. split.
    - apply Forall_inv in N. exact N.
    - unfold value. cbn [values map num]. destruct (evl a l); reflexivity.
  Qed.
  Definition paired (p q r s : pos) (d : dir) : Prop :=
    T p = Belt d d /\ T q = Belt d d /\ T r = Belt (opposite d) (opposite d) /\ T s = Belt (opposite d) (opposite d) /\ Hue p = Hue q /\ Hue q = Hue r /\ Hue r = Hue s.
  Lemma passing_at p q r s d : inside A p -> inside A q -> inside A r -> inside A s ->
    (sat a (passing_clauses d (tile_at g p) (tile_at g q) (tile_at g r) (tile_at g s)) = true <-> ~ paired p q r s d).
  Proof.
    intros Hp Hq Hr Hs. unfold passing_clauses. rewrite reverse_opp. rewrite sat_map_iff.
    destruct (lamp_is p Hp) as [Zp Vp], (lamp_is q Hq) as [Zq Vq], (lamp_is r Hr) as [Zr Vr], (lamp_is s Hs) as [Zs Vs].
    assert (X : forall sign, satc a (invert_components
      (map (fun t => set_literal (nth 0 (colour t) 0) sign) [tile_at g p; tile_at g q; tile_at g r; tile_at g s] ++
       [input_dir (tile_at g p) d; output_dir (tile_at g p) d; input_dir (tile_at g q) d; output_dir (tile_at g q) d;
        input_dir (tile_at g r) (opposite d); output_dir (tile_at g r) (opposite d); input_dir (tile_at g s) (opposite d); output_dir (tile_at g s) (opposite d)])%list) = false <->
      paired p q r s d /\ Hue p = Z.b2z sign).
    { intros sign. rewrite satc_invert.
      - cbn [map app In]. split.
        + intros H. assert (L : forall x, inside A x -> lamp x <> 0 -> In x [p; q; r; s] -> evl a (lamp x) = sign).
          { intros x Hx Zx Ix. apply (evl_set_literal a _ sign Zx). apply H. unfold lamp. cbn [In] in Ix. destruct Ix as [<-|[<-|[<-|[<-|[]]]]]; tauto. }
          pose proof (L p Hp Zp ltac:(cbn; tauto)) as L1. pose proof (L q Hq Zq ltac:(cbn; tauto)) as L2. pose proof (L r Hr Zr ltac:(cbn; tauto)) as L3. pose proof (L s Hs Zs ltac:(cbn; tauto)) as L4. clear L.
          split; [|congruence]. unfold paired.
          split; [apply belt_of; [exact Hp|apply H; tauto|apply H; tauto]|]. split; [apply belt_of; [exact Hq|apply H; tauto|apply H; tauto]|].
          split; [apply belt_of; [exact Hr|apply H; tauto|apply H; tauto]|]. split; [apply belt_of; [exact Hs|apply H; tauto|apply H; tauto]|].
          split; [congruence|]. split; congruence.
        + intros [(B1 & B2 & B3 & B4 & C1 & C2 & C3) Cs].
          destruct (belt_is p _ _ Hp B1), (belt_is q _ _ Hq B2), (belt_is r _ _ Hr B3), (belt_is s _ _ Hs B4).
          assert (L : forall x, lamp x <> 0 -> Hue x = Z.b2z (evl a (lamp x)) -> Hue x = Z.b2z sign -> evl a (set_literal (nth 0 (colour (tile_at g x)) 0) sign) = true).
          { intros x Zx E1 E2. apply (evl_set_literal a _ sign Zx). rewrite E1 in E2. clear - E2. revert E2. destruct (evl a (lamp x)), sign; cbn; congruence. }
          intros l Hl. repeat (destruct Hl as [<-|Hl]); try contradiction; try assumption; (apply L; [assumption|assumption|]); congruence.
      - cbn [map app].
        pose proof (ok p W Hp) as Op. pose proof (ok q W Hq) as Oq. pose proof (ok r W Hr) as Or. pose proof (ok s W Hs) as Os.
        repeat (apply Forall_cons; [unfold nonzero; first [apply set_literal_nz; assumption|apply Op|apply Oq|apply Or|apply Os]|]). apply Forall_nil. }
    split.
    - intros H P. specialize (H (evl a (lamp p))). assert (I : In (evl a (lamp p)) [false; true]) by (destruct (evl a (lamp p)); cbn; tauto). specialize (H I).
      rewrite satc_true in H. apply H. apply X. auto.
    - intros N sign _. rewrite satc_true. intros F. apply X in F. apply N, F.
  Qed.
  Lemma passing_exact : exists cs, prevent_passing g = Some cs /\
    (sat a cs = true <-> forall p d, inside A p -> ~ exists q r s,
      neighbour A p d = Some q /\ neighbour A p (anticlockwise d) = Some r /\ spot A p d 1 (anticlockwise d) 1 = Some s /\ paired p q r s d).
  Proof.
    unfold prevent_passing. destruct HA as [W1 W2]. unfold garea, area_of in W1, W2. cbn [aw ah] in W1, W2.
    replace (in_grid g 0 0) with true by (symmetry; unfold in_grid; rewrite !andb_true_iff, !Z.leb_le, !Z.ltb_lt; lia).
    pose proof (proj1 (colour_len g (0, 0))) as L. unfold len in L. rewrite Bits in L. replace (Nat.eqb _ 1) with true by (symmetry; apply Nat.eqb_eq; lia). cbn [andb].
    eexists. split; [reflexivity|]. rewrite (dirs_sat a). split.
    - intros H p d Hp (q & r & s & N1 & N2 & N3 & P). specialize (H d). rewrite (for_blocks_sat g W a) in H. rewrite next_ac in H.
      specialize (H p q r s Hp Logic.I N1 N2 N3). apply passing_at in H; [contradiction| | | |]; try exact Hp; try (eapply nbr_in; eassumption). eapply spot_inside; exact N3.
    - intros H d. apply (for_blocks_sat g W a). rewrite next_ac. intros p q r s Hp _ N1 N2 N3. apply passing_at; [exact Hp|eapply nbr_in; exact N1|eapply nbr_in; exact N2|eapply spot_inside; exact N3|].
      intros P. apply (H p d Hp). exists q, r, s. auto.
  Qed.

  (** ** Awkward exits *)
  Lemma ve_empty p : inside A p -> (ve (V p) = true <-> T p = Empty).
  Proof.
    intros Hp. pose proof (T_shows g a T HT G p Hp) as (_ & _ & E & _). rewrite E. destruct (T p); split; congruence.
  Qed.
  Lemma awkward_at p d p01 p02 q r u v x y : inside A p -> spot A p (anticlockwise d) 0 d 1 = Some q -> spot A p (anticlockwise d) 1 d 1 = Some r -> spot A p (anticlockwise d) 2 d 1 = Some u ->
    spot A p (anticlockwise d) 0 d 2 = Some v -> spot A p (anticlockwise d) 1 d 2 = Some x -> spot A p (anticlockwise d) 2 d 2 = Some y ->
    (sat a (awkward_clauses g d [[Some p; Some p01; Some p02]; [Some q; Some r; Some u]; [Some v; Some x; Some y]]) = true <-> ~ awkward_exit (width (geo g)) (height (geo g)) T p d).
  Proof.
    intros Hp Eq Er Eu Ev Ex Ey. cbn [awkward_clauses]. rewrite sat_one, satc_true, next_ac, reverse_opp.
    assert (RA : rectangle (width (geo g)) (height (geo g)) = A) by (unfold rectangle, garea, area_of; rewrite NX, NY; reflexivity).
    set (t := anticlockwise d) in *.
    assert (Hq : inside A q) by (eapply spot_inside; exact Eq). assert (Hr : inside A r) by (eapply spot_inside; exact Er). assert (Hu : inside A u) by (eapply spot_inside; exact Eu).
    assert (Hv : inside A v) by (eapply spot_inside; exact Ev). assert (Hx : inside A x) by (eapply spot_inside; exact Ex). assert (Hy : inside A y) by (eapply spot_inside; exact Ey).
    assert (Npq : neighbour A p d = Some q) by (rewrite (spot_t A p t d); exact Eq).
    assert (Nqp : neighbour A q (opposite d) = Some p) by (apply neighbour_back; [exact HA|exact Hp|exact Npq]).
    assert (Nqv : neighbour A q d = Some v) by (rewrite (spot_step_t A p t 0 d 1 q HA Eq); exact Ev).
    assert (Nvx : neighbour A v t = Some x) by (rewrite (spot_step_d A p t 0 d 2 v HA Ev); exact Ex).
    assert (Nxy : neighbour A x t = Some y) by (rewrite (spot_step_d A p t 1 d 2 x HA Ex); exact Ey).
    assert (Nyu : neighbour A y (opposite d) = Some u) by (apply neighbour_back; [exact HA|exact Hu|]; rewrite (spot_step_t A p t 2 d 1 u HA Eu); exact Ey).
    pose proof (link_is q d v Hq Nqv) as L1. pose proof (link_is v t x Hv Nvx) as L2. pose proof (link_is x t y Hx Nxy) as L3. pose proof (link_is y (opposite d) u Hy Nyu) as L4.
    rewrite satc_invert.
    - cbn [In]. split; intros N H; apply N; clear N.
      + unfold awkward_exit in H. fold t in H. cbv zeta in H. rewrite RA in H.
        destruct H as (q' & r' & u' & v' & x' & y' & M1 & M2 & M3 & M4 & M5 & M6 & B0 & B1 & B2 & B3 & B4 & B5 & B6).
        assert (q' = q /\ r' = r /\ u' = u /\ v' = v /\ x' = x /\ y' = y) as (-> & -> & -> & -> & -> & ->) by (repeat split; congruence).
        destruct (uo_at g a T HT G q d Hq B1) as [U1 U2]. destruct (Ur q d Hq) as ([_ K1] & _ & K2). destruct (K1 U1 U2) as [K3 _]. destruct (K2 p Nqp) as [K4 _]. specialize (K4 U1 U2).
        destruct (belt_is v _ _ Hv B3) as [_ D1]. destruct (belt_is x _ _ Hx B4) as [_ D2]. destruct (belt_is y _ _ Hy B5) as [_ D3]. destruct (belt_is u _ _ Hu B6) as [_ D4].
        apply (ve_empty p Hp) in B0. apply (ve_empty r Hr) in B2.
        intros l Hl. destruct Hl as [<-|[<-|[<-|[<-|[<-|[<-|[<-|[<-|[]]]]]]]]]; try assumption. apply evl_neg_iff; [apply (ok_u _ (ok q W Hq))|exact K3].
      + assert (E1 : ve (V p) = true) by (apply H; tauto). assert (E2 : vu (V p) d = true) by (apply H; tauto).
        assert (E3 : vu (V q) d = false) by (apply evl_neg_iff; [apply (ok_u _ (ok q W Hq))|]; apply H; tauto).
        assert (E4 : ve (V r) = true) by (apply H; tauto). assert (E5 : vo (V v) t = true) by (apply H; tauto). assert (E6 : vo (V x) t = true) by (apply H; tauto).
        assert (E7 : vo (V y) (opposite d) = true) by (apply H; tauto). assert (E8 : vo (V u) (opposite d) = true) by (apply H; tauto). clear H.
        destruct (Ur p d Hp) as (_ & K & _). destruct (K q Npq) as [_ K2]. destruct (K2 E2 E3) as [O1 O2].
        unfold awkward_exit. fold t. cbv zeta. rewrite RA. exists q, r, u, v, x, y. repeat (split; [assumption|]).
        split; [apply ve_empty; assumption|]. split; [apply (is_uo_at g a T HT G); assumption|]. split; [apply ve_empty; assumption|].
        split; [apply belt_of; congruence|]. split; [apply belt_of; congruence|]. split; [apply belt_of; congruence|apply belt_of; congruence].
    - pose proof (ok p W Hp) as Op. pose proof (ok q W Hq) as Oq. pose proof (ok r W Hr) as Or. pose proof (ok u W Hu) as Ou. pose proof (ok v W Hv) as Ov. pose proof (ok x W Hx) as Ox. pose proof (ok y W Hy) as Oy.
      pose proof (ok_u _ Oq d) as Uq. repeat (apply Forall_cons; [unfold nonzero; first [apply Op|apply Or|apply Ou|apply Ov|apply Ox|apply Oy|lia]|]). apply Forall_nil.
  Qed.
  Lemma awkward_exact : sat a (prevent_awkward_underground_entry g) = true <-> forall p d, inside A p -> ~ awkward_exit (width (geo g)) (height (geo g)) T p d.
  Proof.
    unfold prevent_awkward_underground_entry. rewrite (dirs_sat a).
    assert (X : forall d, sat a match iterate_tile_blocks (geo g) (dir_vec (next d)) 3 (dir_vec d) 3 None None None None with None => [] | Some bs => flat_map (awkward_clauses g d) bs end = true <->
      forall p, inside A p -> sat a (awkward_clauses g d (map (fun j => map (fun i => spot A p (anticlockwise d) i d j) [0; 1; 2]) [0; 1; 2])) = true).
    { intros d. unfold iterate_tile_blocks. rewrite next_ac, !vec_step.
      replace (Z.abs (step_x (anticlockwise d)) + Z.abs (step_y (anticlockwise d)) =? 1) with true by (destruct d; reflexivity).
      replace (Z.abs (step_x d) + Z.abs (step_y d) =? 1) with true by (destruct d; reflexivity).
      cbn [negb Z.ltb Z.compare Pos.compare Pos.compare_cont]. rewrite sat_flat_map. change (range 3) with [0; 1; 2].
      assert (O : forall p, map (fun r => map (fun c => get_tile_instance_offset (geo g) (fst p) (snd p) (step_x d * r + step_x (anticlockwise d) * c) (step_y d * r + step_y (anticlockwise d) * c)) [0; 1; 2]) [0; 1; 2] =
        map (fun j => map (fun i => spot A p (anticlockwise d) i d j) [0; 1; 2]) [0; 1; 2]).
      { intros p. apply map_ext. intros j. apply map_ext. intros i. rewrite <- (offset_spot g W). unfold offset2, offset. rewrite !dx_step, !dy_step. f_equal; ring. }
      split.
      - intros H p Hp. apply H. apply in_map_iff. exists p. split; [apply O|]. apply filter_In. split; [apply iterate_tiles_in; exact Hp|reflexivity].
      - intros H b Hb. apply in_map_iff in Hb. destruct Hb as (p & <- & Hp). apply filter_In in Hp. destruct Hp as [Hp _]. apply iterate_tiles_in in Hp. rewrite O. apply H. exact Hp. }
    assert (RA : rectangle (width (geo g)) (height (geo g)) = A) by (unfold rectangle, garea, area_of; rewrite NX, NY; reflexivity).
    assert (E00 : forall p d, inside A p -> spot A p (anticlockwise d) 0 d 0 = Some p).
    { intros p d Hp. unfold spot. rewrite !Z.mul_0_l, !Z.add_0_r, <- surjective_pairing. apply place_self. exact Hp. }
    split.
    - intros H p d Hp Aw. specialize (H d). rewrite X in H. specialize (H p Hp). pose proof Aw as (q & r & u & v & x & y & Eq & Er & Eu & Ev & Ex & Ey & _). rewrite RA in *.
      destruct (spot_corner p d 1 1 r Hp Er) as (p01 & E01). destruct (spot_corner p d 2 1 u Hp Eu) as (p02 & E02).
      cbn [map] in H. rewrite E00, E01, E02, Eq, Er, Eu, Ev, Ex, Ey in H by exact Hp. apply awkward_at in H; try assumption. contradiction.
    - intros H d. apply X. intros p Hp. cbn [map]. rewrite E00 by exact Hp.
      destruct (spot A p (anticlockwise d) 1 d 0) as [p01|] eqn:E01; [|reflexivity]. destruct (spot A p (anticlockwise d) 2 d 0) as [p02|] eqn:E02; [|reflexivity].
      destruct (spot A p (anticlockwise d) 0 d 1) as [q|] eqn:Eq; [|reflexivity]. destruct (spot A p (anticlockwise d) 1 d 1) as [r|] eqn:Er; [|reflexivity]. destruct (spot A p (anticlockwise d) 2 d 1) as [u|] eqn:Eu; [|reflexivity].
      destruct (spot A p (anticlockwise d) 0 d 2) as [v|] eqn:Ev; [|reflexivity]. destruct (spot A p (anticlockwise d) 1 d 2) as [x|] eqn:Ex; [|reflexivity]. destruct (spot A p (anticlockwise d) 2 d 2) as [y|] eqn:Ey; [|reflexivity].
      apply awkward_at; try assumption. apply H. exact Hp.
  Qed.

  (** ** Half-turn symmetry *)
  Notation w := (width (geo g)).
  Notation h := (height (geo g)).
  Notation tr := (turned g).
  Lemma turned_inside p : inside A p -> inside A (tr p).
  Proof. intros [H1 H2]. unfold turned. split; cbn [fst snd garea area_of aw ah] in *; unfold garea, area_of in *; cbn [aw ah] in *; lia. Qed.
  Lemma turned_turned p : tr (tr p) = p.
  Proof. unfold turned. destruct p as [x y]. cbn [fst snd]. f_equal; lia. Qed.
  Lemma turned_neighbour p d q : inside A p -> neighbour A p d = Some q -> neighbour A (tr p) (opposite d) = Some (tr q).
  Proof.
    intros Hp N. assert (Hq : inside A q) by (eapply nbr_in; exact N). unfold neighbour, ahead in N. rewrite place_plain in N. destruct (insideb A _); [|discriminate]. apply Some_inj in N. rewrite !Z.mul_1_l in N.
    apply neighbour_plain; [apply turned_inside; exact Hp|apply turned_inside; exact Hq|]. unfold turned. cbn [fst snd]. rewrite <- N. cbn [fst snd]. destruct d; cbn [opposite step_x step_y]; f_equal; lia.
  Qed.
  Definition mirrored (p : pos) : Prop :=
    (forall d, vi (V p) d = vo (V (tr p)) d) /\ (forall d, vo (V p) d = vi (V (tr p)) d) /\ (forall d, vu (V p) d = vu (V (tr p)) d) /\
    ve (V p) = ve (V (tr p)) /\ vb (V p) = vb (V (tr p)) /\ vui (V p) = vuo (V (tr p)) /\ vuo (V p) = vui (V (tr p)).
  Lemma no_head p : inside A p -> vh (V p) = false.
  Proof.
    intros Hp. destruct (vh (V p)) eqn:E; [|reflexivity]. pose proof (T_shows g a T HT G p Hp) as (_ & _ & _ & S1 & _ & _ & S2). rewrite (Plain p Hp) in S1. rewrite E in S2. destruct (T p); congruence.
  Qed.
  Lemma symmetry_at p : inside A p -> exists cs, symmetry_clauses (tile_at g p) (tile_at g (tr p)) = Some cs /\ (sat a cs = true <-> mirrored p).
  Proof.
    intros Hp. pose proof (turned_inside p Hp) as Hq. unfold symmetry_clauses.
    assert (Nz : forall r, inside A r -> Forall nonzero (inputs (tile_at g r)) /\ Forall nonzero (outputs (tile_at g r)) /\ Forall nonzero (map (underground (tile_at g r)) directions)).
    { intros r Hr. pose proof (ok r W Hr) as Or. repeat split; apply Forall_forall; intros l Hl; apply in_map_iff in Hl; destruct Hl as (d & <- & _); apply Or. }
    destruct (Nz p Hp) as (I1 & I2 & I3). destruct (Nz (tr p) Hq) as (J1 & J2 & J3). pose proof (ok p W Hp) as Op. pose proof (ok _ W Hq) as Oq.
    match goal with |- context [set_numbers_equal ?x ?y false] => set (xs := x); set (ys := y) end.
    assert (N1 : Forall nonzero xs).
    { unfold xs. repeat (apply Forall_app; split); try assumption. repeat (apply Forall_cons; [apply Op|]). apply Forall_nil. }
    assert (N2 : Forall nonzero ys).
    { unfold ys. repeat (apply Forall_app; split); try assumption. repeat (apply Forall_cons; [apply Oq|]). apply Forall_nil. }
    assert (Len : length xs = length ys) by reflexivity.
    destruct (proj2 (set_numbers_equal_some xs ys false) (or_intror Len)) as (cs & Ecs). rewrite Ecs. cbn [obind]. eexists. split; [reflexivity|].
    rewrite sat_app_iff, (set_numbers_equal_spec xs ys false cs N1 N2 Ecs a), <- (values_eq_value a xs ys Len), sat_one.
    assert (Hd : satc a [- is_splitter_head (tile_at g p); - is_splitter_head (tile_at g (tr p))] = true).
    { apply satc_cons_iff. left. apply evl_neg_iff; [apply Op|apply (no_head p Hp)]. }
    assert (Vals : values a xs = values a ys <-> mirrored p).
    { unfold xs, ys, inputs, outputs, values, mirrored. rewrite !map_app, !map_map. unfold directions. cbn [map app].
      repeat match goal with
      | |- context [evl a (is_belt (tile_at g ?p))] => change (evl a (is_belt (tile_at g p))) with (vb (V p))
      | |- context [evl a (is_empty (tile_at g ?p))] => change (evl a (is_empty (tile_at g p))) with (ve (V p))
      | |- context [evl a (is_splitter (tile_at g ?p))] => change (evl a (is_splitter (tile_at g p))) with (vs (V p))
      | |- context [evl a (is_underground_in (tile_at g ?p))] => change (evl a (is_underground_in (tile_at g p))) with (vui (V p))
      | |- context [evl a (is_underground_out (tile_at g ?p))] => change (evl a (is_underground_out (tile_at g p))) with (vuo (V p))
      | |- context [evl a (input_dir (tile_at g ?p) ?d)] => change (evl a (input_dir (tile_at g p) d)) with (vi (V p) d)
      | |- context [evl a (output_dir (tile_at g ?p) ?d)] => change (evl a (output_dir (tile_at g p) d)) with (vo (V p) d)
      | |- context [evl a (underground (tile_at g ?p) ?d)] => change (evl a (underground (tile_at g p) d)) with (vu (V p) d)
      end.
      rewrite (Plain p Hp), (Plain _ Hq). split.
      - intros E. injection E as E1 E2 E3 E4 E5 E6 E7 E8 E9 E10 E11 E12 E13 E14 E15 E16. repeat split; try (intros []); assumption.
      - intros (F1 & F2 & F3 & F4 & F5 & F6 & F7). rewrite !F1, !F2, !F3, F4, F5, F6, F7. reflexivity. }
    rewrite Vals. tauto.
  Qed.
  Lemma symmetry_mirrored : exists cs, require_rotational_symmetry g = Some cs /\ (sat a cs = true <-> forall p, inside A p -> mirrored p).
  Proof.
    unfold require_rotational_symmetry.
    destruct (oflat_some (fun p => symmetry_clauses (tile_at g p) (tile_at g (tr p))) (iterate_tiles (geo g))) as (cs & E).
    { intros p Hp. apply iterate_tiles_in in Hp. destruct (symmetry_at p Hp) as (c & Ec & _). eauto. }
    exists cs. split; [exact E|]. rewrite (sat_oflat a _ _ _ E). split.
    - intros H p Hp. destruct (symmetry_at p Hp) as (c & Ec & Sc). apply Sc. destruct (H p (proj2 (iterate_tiles_in _ _) Hp)) as (c2 & E2 & S2). assert (c2 = c) by congruence. subst c2. exact S2.
    - intros H p Hp. apply iterate_tiles_in in Hp. destruct (symmetry_at p Hp) as (c & Ec & Sc). exists c. split; [exact Ec|]. apply Sc. apply H. exact Hp.
  Qed.
  Lemma mirrored_tiles : (forall p, inside A p -> mirrored p) <-> half_turn_symmetric w h T.
  Proof.
    assert (RA : rectangle w h = A) by (unfold rectangle, garea, area_of; rewrite NX, NY; reflexivity).
    unfold half_turn_symmetric. rewrite RA. split.
    - intros M p Hp. destruct (M p Hp) as (F1 & F2 & _ & F4 & F5 & F6 & F7). pose proof (turned_inside p Hp) as Hq. change (w - 1 - fst p, h - 1 - snd p) with (tr p).
      pose proof (T_shows g a T HT G p Hp) as Sp. pose proof (no_head _ Hq) as Nh. pose proof (Plain _ Hp) as Ps. pose proof (Plain _ Hq) as Pq.
      apply (shows_unique (V (tr p))); [apply (T_shows g a T HT G); exact Hq|].
      destruct Sp as (S1 & S2 & S3 & S4 & S5 & S6 & S7). unfold shows. rewrite <- F4, <- F5, <- F6, <- F7, Pq, Nh.
      destruct (T p) as [| |i o|d []|d b|d k|x y]; cbn [reversed negb]; try contradiction.
      + destruct S1 as (X1 & X2 & X3). repeat split; try assumption; intros e; rewrite <- ?F1, <- ?F2; auto.
      + destruct S1 as (X1 & X2 & X3 & X4). repeat split; try assumption.
        * rewrite <- F2. apply X3.
        * rewrite <- F2. apply X3.
        * rewrite <- F1. apply X2.
        * rewrite <- F1. apply X2.
        * intros C. apply X4. rewrite C, opposite_opposite. reflexivity.
      + destruct S1 as (X1 & X2 & X3). repeat split; try assumption.
        * intros e. rewrite <- F2. apply X3.
        * rewrite <- F1. apply X2.
        * rewrite <- F1. apply X2.
      + destruct S1 as (X1 & X2 & X3). repeat split; try assumption.
        * rewrite <- F2. apply X3.
        * rewrite <- F2. apply X3.
        * intros e. rewrite <- F1. apply X2.
      + congruence.
    - intros Sy.
      assert (TT : forall p, inside A p -> T (tr p) = reversed (T p)) by exact Sy. clear Sy.
      (* hidden belts *)
      assert (U : forall n p d, inside A p -> vu (V p) d = true -> (match d with RIGHT => fst p | LEFT => w - 1 - fst p | DOWN => snd p | UP => h - 1 - snd p end) < Z.of_nat n -> vu (V (tr p)) d = true).
      { induction n as [|n IH]; intros p d Hp Hu Hn.
        - exfalso. destruct Hp as [P1 P2]. unfold garea, area_of in P1, P2. cbn [aw ah] in P1, P2. destruct d; lia.
        - destruct (under_prev g W a (EBool true)) with (p := p) (d := d) as (q & Nq); [repeat split; reflexivity|exact ER|exact Hp|exact Hu|].
          assert (Hq : inside A q) by (eapply nbr_in; exact Nq). pose proof (turned_inside p Hp) as Hp'. pose proof (turned_inside q Hq) as Hq'.
          pose proof (turned_neighbour p (opposite d) q Hp Nq) as Nt. rewrite opposite_opposite in Nt.
          assert (Nb : neighbour A (tr q) (opposite d) = Some (tr p)) by (apply neighbour_back; [exact HA|exact Hp'|exact Nt]).
          destruct (Ur (tr q) d Hq') as (_ & _ & K). destruct (K (tr p) Nb) as [K1 K2].
          destruct (vu (V q) d) eqn:Eq.
          + assert (Uq : vu (V (tr q)) d = true).
            { apply (IH q d Hq Eq). unfold neighbour, ahead in Nq. rewrite place_plain in Nq. destruct (insideb A _); [|discriminate]. apply Some_inj in Nq. rewrite <- Nq. cbn [fst snd]. destruct d; cbn [opposite step_x step_y]; lia. }
            destruct (vu (V (tr p)) d) eqn:Ep; [reflexivity|]. exfalso. destruct (K2 Uq eq_refl) as [E1 E2].
            pose proof (is_ui_at g a T HT G (tr p) d Hp' E1 E2) as ET. rewrite (TT p Hp) in ET.
            apply (vu_clear g a T HT G Ur p d Hp Hu). destruct (T p) as [| |i o|e b|e k|e k|x y]; cbn [reversed] in ET; try discriminate. injection ET as -> Eb. cbn. destruct d; reflexivity.
          + destruct (Ur p d Hp) as (_ & _ & J). destruct (J q Nq) as [_ J2]. destruct (J2 Hu Eq) as [E1 E2].
            pose proof (is_ui_at g a T HT G q d Hq E1 E2) as ET. pose proof (TT q Hq) as Et. rewrite ET in Et. cbn [reversed negb] in Et.
            destruct (uo_at g a T HT G (tr q) d Hq' Et) as [O1 O2]. auto. }
      assert (U' : forall p d, inside A p -> vu (V p) d = true -> vu (V (tr p)) d = true).
      { intros p d Hp Hu. apply (U (Z.to_nat (Z.max w h + 1)) p d Hp Hu). destruct Hp as [P1 P2]. unfold garea, area_of in P1, P2. cbn [aw ah] in P1, P2. destruct d; lia. }
      intros p Hp. pose proof (turned_inside p Hp) as Hq.
      pose proof (T_shows g a T HT G p Hp) as (S1 & S2 & S3 & S4 & S5 & S6 & _). pose proof (T_shows g a T HT G _ Hq) as (Q1 & Q2 & Q3 & Q4 & Q5 & Q6 & _). rewrite (TT p Hp) in *.
      assert (BE : forall b c : bool, (b = true <-> c = true) -> b = c) by (intros [] []; intuition congruence).
      assert (Un : forall d, vu (V p) d = vu (V (tr p)) d).
      { intros d. apply BE. split; [apply U'; exact Hp|]. intros Hu. apply U' in Hu; [|exact Hq]. rewrite turned_turned in Hu. exact Hu. }
      unfold mirrored. rewrite (Plain p Hp) in S4.
      destruct (T p) as [| |i o|d []|d b|d k|x y]; cbn [reversed negb] in *; try contradiction; try congruence;
        (split; [intros e|split; [intros e|split; [exact Un|repeat split; congruence]]]).
      + destruct S1 as (_ & X1 & X2), Q1 as (_ & Y1 & Y2). rewrite X1, Y2. reflexivity.
      + destruct S1 as (_ & X1 & X2), Q1 as (_ & Y1 & Y2). rewrite X2, Y1. reflexivity.
      + destruct S1 as (_ & X1 & X2 & _), Q1 as (_ & Y1 & Y2 & _). apply BE. rewrite X1, Y2. reflexivity.
      + destruct S1 as (_ & X1 & X2 & _), Q1 as (_ & Y1 & Y2 & _). apply BE. rewrite X2, Y1. reflexivity.
      + destruct S1 as (_ & X1 & X2), Q1 as (_ & Y1 & Y2). apply BE. rewrite X1, Y2. reflexivity.
      + destruct S1 as (_ & X1 & X2), Q1 as (_ & Y1 & Y2). rewrite X2, Y1. reflexivity.
      + destruct S1 as (_ & X1 & X2), Q1 as (_ & Y1 & Y2). rewrite X1, Y2. reflexivity.
      + destruct S1 as (_ & X1 & X2), Q1 as (_ & Y1 & Y2). apply BE. rewrite X2, Y1. reflexivity.
  Qed.
  Lemma symmetry_exact : exists cs, require_rotational_symmetry g = Some cs /\ (sat a cs = true <-> half_turn_symmetric w h T).
  Proof. destruct symmetry_mirrored as (cs & E & S). exists cs. split; [exact E|]. rewrite S. apply mirrored_tiles. Qed.

  (** ** Rules about splitters, without any *)
  Lemma glue_idle : sat a (glue_splitters g) = true.
  Proof.
    apply (glue_exact g W a T HT G Lk). intros p d Hp _ (q0 & q1 & _ & _ & E & _).
    pose proof (T_shows g a T HT G p Hp) as (_ & _ & _ & S & _). rewrite (Plain p Hp), E in S. discriminate.
  Qed.
  Lemma satc_holds a' c l : In l c -> evl a' l = true -> satc a' c = true.
  Proof. intros H E. unfold satc. apply existsb_exists. eauto. Qed.
  Lemma parallel_idle : sat a (prevent_belt_parallel_splitter g) = true.
  Proof.
    unfold prevent_belt_parallel_splitter. rewrite (dirs_sat a). intros d. rewrite sat_flat_map. intros [t hd] _. cbn [fst snd]. apply (for_blocks_sat g W a).
    intros p p01 p10 p11 Hp _ _ _ N. unfold parallel_clauses. apply sat_map_iff. intros i _. apply (satc_holds a _ (- is_splitter (tile_at g p11))).
    - unfold invert_components. apply in_map. rewrite !in_app_iff. cbn [In]. tauto.
    - assert (I : inside A p11) by (eapply spot_inside; exact N). apply evl_neg_iff; [apply (ok _ W I)|exact (Plain _ I)].
  Qed.
  Lemma partial_idle : sat a (glue_partial_splitters g) = true.
  Proof.
    unfold glue_partial_splitters. rewrite (dirs_sat a). intros d. apply (for_blocks_sat g W a).
    intros p p01 p10 p11 Hp _ _ N _. assert (I : inside A p10) by (eapply nbr_in; exact N). unfold partial_clauses. apply sat_cons_iff. split; [|apply sat_one].
    - apply (satc_holds a _ (- is_splitter_head (tile_at g p))).
      + unfold invert_components. apply in_map. rewrite !in_app_iff. cbn [In]. tauto.
      + apply evl_neg_iff; [apply (ok _ W Hp)|exact (no_head _ Hp)].
    - apply (satc_holds a _ (- is_splitter (tile_at g p10))).
      + unfold invert_components. apply in_map. rewrite !in_app_iff. cbn [In]. tauto.
      + apply evl_neg_iff; [apply (ok _ W I)|exact (Plain _ I)].
  Qed.
End Interchange.
