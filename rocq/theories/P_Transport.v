(** Quantities (colours, flows) transported along belts and tunnels. *)
From Coq Require Import String ZArith List Bool Lia.
From Verif Require Import Spec_Cnf Spec_Tile Spec_Layout M_Json M_Tile M_Util M_Card M_Template M_Grid
  P_Cnf P_Util P_Card P_Tile P_Layout P_List P_Template P_Walk P_Grid P_GridSound P_GridComplete.
Import ListNotations.
Open Scope Z_scope.

Lemma z_up_ind (P : Z -> Prop) m : P m -> (forall k, m <= k -> P k -> P (k + 1)) -> forall k, m <= k -> P k.
Proof.
  intros H0 HS k Hk. replace k with (m + (k - m)) by lia. assert (Hd : 0 <= k - m) by lia. revert Hd. generalize (k - m). clear k Hk.
  intros n Hn. pattern n. apply natlike_ind; [replace (m + 0) with m by lia; exact H0| |exact Hn].
  intros x Hx IH. replace (m + Z.succ x) with (m + x + 1) by lia. apply HS; [lia|exact IH].
Qed.

Section Transport.
  Variable g : grid.
  Hypothesis W : wf_grid g.
  Variable a : assignment.
  Notation A := (garea g).
  Notation V p := (view_of a (tile_at g p)).
  Variables q0 qx qy : pos -> list lit.
  Variable n : nat.
  Hypothesis Q0 : forall p, inside A p -> length (q0 p) = n /\ Forall nonzero (q0 p).
  Hypothesis QX : forall p, inside A p -> length (qx p) = n /\ Forall nonzero (qx p).
  Hypothesis QY : forall p, inside A p -> length (qy p) = n /\ Forall nonzero (qy p).

  Definition qu (d : dir) (p : pos) : list lit := if is_horizontal d then qx p else qy p.

  Definition transport_rule (p : pos) (d : dir) : Prop := forall q, neighbour A p d = Some q ->
    (vo (V p) d = true -> vs (V p) = false -> value a (q0 p) = value a (q0 q)) /\
    (vu (V p) d = true -> value a (qu d p) = value a (qu d q)) /\
    (vi (V p) d = true -> vs (V p) = false -> (forall e, vo (V p) e = false) -> value a (q0 p) = value a (qu d q)) /\
    (vo (V q) d = true -> vs (V q) = false -> (forall e, vi (V q) e = false) -> value a (qu d p) = value a (q0 q)).

  Lemma sat_implies_trans x y (f : dir -> lit) cs : x <> 0 -> y <> 0 -> (forall d, f d <> 0) ->
    (sat a (implies (x :: - y :: invert_components (map f directions)) cs) = true <->
     (evl a x = true -> evl a y = false -> (forall d, evl a (f d) = false) -> sat a cs = true)).
  Proof.
    intros Hx Hy Hf. rewrite sat_implies.
    2:{ constructor; [exact Hx|]. constructor; [unfold nonzero; lia|]. unfold invert_components. rewrite map_map. apply Forall_map.
        apply Forall_forall. intros d _. unfold nonzero. specialize (Hf d). lia. }
    rewrite orb_true_iff, negb_true_iff. cbn [forallb]. unfold invert_components. rewrite map_map.
    destruct (evl a x); cbn [andb]; [|split; [discriminate|auto]].
    rewrite evl_neg by exact Hy. destruct (evl a y); cbn [negb andb]; [split; [discriminate|auto]|].
    destruct (forallb (evl a) (map (fun d => - f d) directions)) eqn:E.
    - rewrite forallb_forall in E. split; [intros [C|C]; [discriminate|auto]|]. intros H. right. apply H; auto.
      intros d. specialize (E (- f d)). rewrite evl_neg in E by apply Hf. destruct (evl a (f d)); [|reflexivity].
      discriminate E. apply in_map_iff. exists d. split; [reflexivity|apply directions_all].
    - split; [|auto]. intros _ _ _ H. exfalso. rewrite <- not_true_iff_false in E. apply E. apply forallb_forall. intros l Hl.
      apply in_map_iff in Hl. destruct Hl as (d & <- & _). rewrite evl_neg by apply Hf. rewrite H. reflexivity.
  Qed.

  Lemma transport_line_sat p d : inside A p ->
    exists cs, transport_line g q0 qx qy d p = Some cs /\ (sat a cs = true <-> transport_rule p d).
  Proof.
    intros Hp. unfold transport_line, transport_rule. rewrite (offset_neighbour g W).
    destruct (neighbour A p d) as [q|] eqn:En; [|exists []; split; [reflexivity|split; [intros _ q [=]|reflexivity]]].
    assert (Hq : inside A q) by (eapply ahead_inside; exact En).
    pose proof (tile_at_ok g p W Hp) as Op. pose proof (tile_at_ok g q W Hq) as Oq.
    change (if is_horizontal d then qx p else qy p) with (qu d p).
    change (if is_horizontal d then qx q else qy q) with (qu d q).
    assert (QU : forall r, inside A r -> length (qu d r) = n /\ Forall nonzero (qu d r)) by (intros r Hr; unfold qu; destruct (is_horizontal d); auto).
    assert (X : forall xs ys, length xs = n /\ Forall nonzero xs -> length ys = n /\ Forall nonzero ys ->
      exists cs, set_numbers_equal xs ys false = Some cs /\ (sat a cs = true <-> value a xs = value a ys)).
    { intros xs ys [L1 N1] [L2 N2]. destruct (proj2 (set_numbers_equal_some xs ys false)) as [cs E]; [right; congruence|].
      exists cs. split; [exact E|]. apply (set_numbers_equal_spec xs ys false); assumption. }
    destruct (X _ _ (Q0 p Hp) (Q0 q Hq)) as (c1 & E1 & S1). destruct (X _ _ (QU p Hp) (QU q Hq)) as (c2 & E2 & S2).
    destruct (X _ _ (Q0 p Hp) (QU q Hq)) as (c3 & E3 & S3). destruct (X _ _ (QU p Hp) (Q0 q Hq)) as (c4 & E4 & S4).
    rewrite E1, E2, E3, E4. cbn [obind]. eexists. split; [reflexivity|].
    rewrite !sat_app_iff. unfold inputs, outputs. rewrite !sat_implies_trans by (apply Op || apply Oq).
    rewrite sat_implies2 by (try apply Op; pose proof (ok_s _ Op); lia). rewrite sat_implies1 by apply Op.
    rewrite S1, S2, S3, S4. rewrite evl_neg_iff by apply Op.
    cbn [view_of vb ve vs vui vuo vh vi vo vu vinp voutp]. split.
    - intros (H1 & H2 & H3 & H4) r [= <-]. auto.
    - intros H. apply (H q eq_refl).
  Qed.

  Lemma transport_sat : exists cs, transport_quantity g q0 qx qy = Some cs /\
    (sat a cs = true <-> forall p d, inside A p -> transport_rule p d).
  Proof.
    assert (E : forall d, exists cs, oflat (transport_line g q0 qx qy d) (iterate_tiles (geo g)) = Some cs).
    { intros d. apply oflat_some. intros p Hp. apply iterate_tiles_in in Hp.
      destruct (transport_line_sat p d Hp) as (c & -> & _). eauto. }
    unfold transport_quantity.
    destruct (oflat_some (fun d => oflat (transport_line g q0 qx qy d) (iterate_tiles (geo g))) directions) as [cs Ecs]; [intros d _; apply E|].
    exists cs. split; [exact Ecs|]. rewrite (sat_oflat a _ _ _ Ecs). split.
    - intros H p d Hp. destruct (H d (directions_all d)) as (c & Ec & Sc). rewrite (sat_oflat a _ _ _ Ec) in Sc.
      destruct (Sc p) as (c' & Ec' & Sc'); [apply iterate_tiles_in; exact Hp|].
      destruct (transport_line_sat p d Hp) as (c2 & Ec2 & Sc2). apply Sc2. congruence.
    - intros H d _. destruct (E d) as [c Ec]. exists c. split; [exact Ec|]. rewrite (sat_oflat a _ _ _ Ec).
      intros p Hp. apply iterate_tiles_in in Hp. destruct (transport_line_sat p d Hp) as (c2 & Ec2 & Sc2).
      exists c2. split; [exact Ec2|]. apply Sc2. auto.
  Qed.
End Transport.

(** * Soundness: what is carried keeps its quantity *)
Section Carried.
  Variable g : grid.
  Hypothesis W : wf_grid g.
  Variable a : assignment.
  Notation A := (garea g).
  Notation V p := (view_of a (tile_at g p)).
  Variable T : layout.
  Hypothesis HT : forall p, inside A p -> decoded g a p = Some (T p).
  Hypothesis G : grid_rules g a.
  Hypothesis UR : forall p d, inside A p -> under_rule g a p d.
  Hypothesis LR : length_rule g a.
  Variable e : edges.
  Hypothesis EC : edges_cover g e.
  Hypothesis ER : edge_under_rule g a e.
  Variables q0 qx qy : pos -> list lit.
  Hypothesis TR : forall p d, inside A p -> transport_rule g a q0 qx qy p d.
  Let HA : wf_area A := WA g W.

  Lemma hands_on_same p q : hands_on A T p q -> value a (q0 p) = value a (q0 q).
  Proof.
    intros (Hp & N & d & P & E). destruct (TR p d Hp q E) as [R _]. apply R.
    - apply (shows_pushes_inv _ (T p)); auto. apply (T_shows g a T HT G); exact Hp.
    - destruct (T_shows g a T HT G p Hp) as (_ & _ & _ & S & _). rewrite S. destruct (T p); cbn in N; tauto || reflexivity.
  Qed.

  (** The segments found in the solution and the tunnel of the layout reach
      the same exit. *)
  Lemma sends_under_same L p q : sends_under A T L p q -> value a (q0 p) = value a (q0 q).
  Proof.
    intros (Hp & d & Tp & Tq & k & Hk & Ek & Hc).
    pose proof (T_shows g a T HT G p Hp) as Sp. rewrite Tp in Sp. destruct Sp as ((S1 & S2 & S3) & _ & _ & S4 & _).
    assert (Vi : vi (V p) d = true) by (apply S2; reflexivity).
    destruct (UR p d Hp) as ((R1 & _) & R2 & _).
    assert (U : forall j, 1 <= j < k -> exists r, ahead A p d j = Some r /\ vu (V r) d = true).
    { intros j [Hj1 Hj2]. revert Hj2. revert j Hj1. apply (z_up_ind (fun j => j < k -> exists r, ahead A p d j = Some r /\ vu (V r) d = true)).
      - intros _. destruct (Hc 1 ltac:(lia)) as (r & Er & _). exists r. split; [exact Er|]. apply (proj1 (R2 r Er)); assumption.
      - intros m Hm IH Hlt. destruct (IH ltac:(lia)) as (r & Er & Ur). destruct (Hc (m + 1) ltac:(lia)) as (r' & Er' & Nr').
        exists r'. split; [exact Er'|]. assert (Hr : inside A r) by (eapply ahead_inside; exact Er).
        assert (Hr' : inside A r') by (eapply ahead_inside; exact Er').
        assert (En : neighbour A r d = Some r') by (unfold neighbour; rewrite (ahead_add A p d m 1 r HA Er); exact Er').
        destruct (vu (V r') d) eqn:Ur'; [reflexivity|]. exfalso.
        destruct (UR r d Hr) as (_ & R4 & _). destruct (proj2 (R4 r' En) Ur Ur') as [O1 O2].
        pose proof (T_shows g a T HT G r' Hr') as Sr. pose proof (shows_pushes _ _ _ Sr O2) as Pr.
        destruct Sr as (_ & _ & _ & _ & _ & Sr & _). rewrite O1 in Sr. destruct (T r') as [| |i o|f []|f h|f y|x y]; try discriminate.
        cbn in Pr. subst f. apply Nr'. cbn. destruct d; reflexivity. }
    (* the quantity of the tunnel *)
    assert (Q : forall j r, 1 <= j <= k -> ahead A p d j = Some r -> value a (q0 p) = value a (qu qx qy d r)).
    { intros j r [Hj1 Hj2]. revert Hj2. revert r. revert j Hj1. apply (z_up_ind (fun j => forall r, j <= k -> ahead A p d j = Some r -> value a (q0 p) = value a (qu qx qy d r))).
      - intros r _ Er. destruct (TR p d Hp r Er) as (_ & _ & R & _). apply R; auto.
      - intros m Hm IH r' Hle Er'. destruct (U m ltac:(lia)) as (r & Er & Ur). rewrite (IH r ltac:(lia) Er).
        assert (Hr : inside A r) by (eapply ahead_inside; exact Er).
        assert (En : neighbour A r d = Some r') by (unfold neighbour; rewrite (ahead_add A p d m 1 r HA Er); exact Er').
        destruct (TR r d Hr r' En) as (_ & R & _). apply R. exact Ur. }
    destruct (U (k - 1) ltac:(lia)) as (r & Er & Ur). assert (Hr : inside A r) by (eapply ahead_inside; exact Er).
    assert (En : neighbour A r d = Some q) by (unfold neighbour; rewrite (ahead_add A p d (k - 1) 1 r HA Er); replace (k - 1 + 1) with k by lia; exact Ek).
    assert (Hq : inside A q) by (eapply ahead_inside; exact Ek).
    pose proof (T_shows g a T HT G q Hq) as Sq. rewrite Tq in Sq. destruct Sq as ((O1 & O2 & O3) & _ & _ & O4 & _).
    rewrite (Q (k - 1) r ltac:(lia) Er). destruct (TR r d Hr q En) as (_ & _ & _ & R). apply R; auto. apply O3. reflexivity.
  Qed.

  Lemma carried_same L p q : carried A T L p q -> value a (q0 p) = value a (q0 q).
  Proof.
    induction 1 as [p|p q r H _ IH|p q r H _ IH]; [reflexivity| |].
    - rewrite (hands_on_same p q H). exact IH.
    - rewrite (sends_under_same L p q H). exact IH.
  Qed.
End Carried.

(** * Completeness: a colouring that respects the lines extends to tunnels *)
Section Tunnels.
  Variable A : area.
  Variable T : layout.
  Variable L : Z.
  Variable X : Type.
  Variable C : pos -> X.
  Variable default : X.

  (** The entrance behind [p]: the nearest tunnel end in that direction. *)
  Definition back_entrance (p : pos) (d : dir) : option pos :=
    match find (fun j => match ahead A p d (- (j + 1)) with Some r => blocksb (T r) d | None => false end) (range L) with
    | Some j => ahead A p d (- (j + 1))
    | None => None
    end.

  (** The quantity below [p] on an axis: that of the tunnel through [p], or of
      the exit at [p]. *)
  Definition exitb (t : tile) (d : dir) : bool := match t with Underground e false => same_axis e d | _ => false end.
  Definition tunnel_quantity (ds : dir * dir) (p : pos) : X :=
    if exitb (T p) (fst ds) then C p
    else if f_under A T L p (fst ds) then match back_entrance p (fst ds) with Some e => C e | None => default end
    else if f_under A T L p (snd ds) then match back_entrance p (snd ds) with Some e => C e | None => default end
    else default.

  Hypothesis HA : wf_area A.
  Hypothesis VL : valid_layout A T L.
  Hypothesis CH : forall p q, hands_on A T p q -> C p = C q.
  Hypothesis CU : forall p q, sends_under A T L p q -> C p = C q.

  Lemma find_range (P : Z -> bool) n j : 0 <= j < n -> P j = true -> (forall i, 0 <= i < j -> P i = false) -> find P (range n) = Some j.
  Proof.
    intros Hj Hp Hb. unfold range.
    assert (H : forall m s, Z.of_nat s <= j < Z.of_nat (s + m) -> (forall i, Z.of_nat s <= i < j -> P i = false) ->
      find P (map Z.of_nat (seq s m)) = Some j).
    { clear Hb Hj. induction m as [|m IH]; intros s Hs Hb; [lia|]. cbn [seq map find].
      destruct (Z.eq_dec (Z.of_nat s) j) as [E|N]; [rewrite E, Hp; congruence|].
      rewrite Hb by lia. apply IH; [lia|]. intros i Hi. apply Hb. lia. }
    apply H; [lia|]. intros i Hi. apply Hb. lia.
  Qed.

  Lemma back_entrance_spec p d j e : 1 <= j <= L -> ahead A p d (- j) = Some e -> T e = Underground d true ->
    (forall i, 0 <= i < j -> exists r, ahead A p d (- i) = Some r /\ ~ blocks_tunnel (T r) d) ->
    back_entrance p d = Some e.
  Proof.
    intros Hj Ee Te Hc. unfold back_entrance. rewrite (find_range _ L (j - 1)); [replace (j - 1 + 1) with j by lia; exact Ee|lia| |].
    - replace (j - 1 + 1) with j by lia. rewrite Ee, Te. cbn. destruct d; reflexivity.
    - intros i Hi. destruct (Hc (i + 1) ltac:(lia)) as (r & Er & Nr). rewrite Er. rewrite <- blocksb_iff in Nr.
      destruct (blocksb (T r) d); [exfalso; auto|reflexivity].
  Qed.

  Definition axis_dirs (d : dir) : dir * dir := if is_horizontal d then (RIGHT, LEFT) else (UP, DOWN).

  (** Inside a tunnel the quantity is that of its entrance. *)
  Lemma tunnel_quantity_inside p d j e : inside A p -> 1 <= j <= L -> ahead A p d (- j) = Some e -> T e = Underground d true ->
    (forall i, 0 <= i < j -> exists r, ahead A p d (- i) = Some r /\ ~ blocks_tunnel (T r) d) ->
    tunnel_quantity (axis_dirs d) p = C e.
  Proof.
    intros Hp Hj Ee Te Hc.
    assert (U : f_under A T L p d = true) by (apply f_under_iff; eauto 10).
    assert (U' : f_under A T L p (opposite d) = false).
    { destruct (f_under A T L p (opposite d)) eqn:E; [|reflexivity]. exfalso. exact (f_under_one A T L HA VL p d Hp U E). }
    pose proof (back_entrance_spec p d j e Hj Ee Te Hc) as B.
    pose proof (f_under_clear A T L p d Hp U) as N.
    unfold tunnel_quantity.
    replace (exitb (T p) (fst (axis_dirs d))) with false.
    2:{ destruct (T p) as [| |i o|f []|f h|f k|x y]; try reflexivity. cbn in *. destruct d, f; cbn in *; congruence. }
    unfold axis_dirs. destruct d; cbn in *; rewrite ?U', ?U, ?B; reflexivity.
  Qed.

  Lemma tunnel_quantity_exit p d : T p = Underground d false -> tunnel_quantity (axis_dirs d) p = C p.
  Proof. intros E. unfold tunnel_quantity. rewrite E. destruct d; reflexivity. Qed.
End Tunnels.

Section CompleteColours.
  Variable g : grid.
  Hypothesis W : wf_grid g.
  Variable T : layout.
  Variable L : Z.
  Variable C : pos -> Z.
  Variable a0 : assignment.
  Notation A := (garea g).
  Hypothesis VL : valid_layout A T L.
  Hypothesis CH : forall p q, hands_on A T p q -> C p = C q.
  Hypothesis CU : forall p q, sends_under A T L p q -> C p = C q.
  Let HA : wf_area A := WA g W.
  Definition colour_x : pos -> Z := tunnel_quantity A T L Z C 0 (RIGHT, LEFT).
  Definition colour_y : pos -> Z := tunnel_quantity A T L Z C 0 (UP, DOWN).
  Notation a := (layout_assignment g T L C colour_x colour_y a0).
  Notation V p := (view_of a (tile_at g p)).

  Lemma tunnel_quantity_range lo hi ds p : (forall p, inside A p -> lo <= C p < hi) -> lo <= 0 < hi -> inside A p ->
    lo <= tunnel_quantity A T L Z C 0 ds p < hi.
  Proof.
    intros H H0 Hp. unfold tunnel_quantity. destruct (exitb _ _); [auto|].
    assert (B : forall d, lo <= match back_entrance A T L p d with Some e => C e | None => 0 end < hi).
    { intros d. destruct (back_entrance A T L p d) as [e|] eqn:E; [|lia]. apply H.
      unfold back_entrance in E. destruct (find _ _); [|discriminate]. eapply ahead_inside. exact E. }
    destruct (f_under _ _ _ _ _); [apply B|]. destruct (f_under _ _ _ _ _); [apply B|]. lia.
  Qed.

  (** The quantity function of the axis of [d]. *)
  Definition tq (d : dir) (p : pos) : Z := tunnel_quantity A T L Z C 0 (axis_dirs d) p.

  Lemma layout_transport p d q : inside A p -> neighbour A p d = Some q ->
    (vo (V p) d = true -> vs (V p) = false -> C p = C q) /\
    (vu (V p) d = true -> tq d p = tq d q) /\
    (vi (V p) d = true -> vs (V p) = false -> (forall e, vo (V p) e = false) -> C p = tq d q) /\
    (vo (V q) d = true -> vs (V q) = false -> (forall e, vi (V q) e = false) -> tq d p = C q).
  Proof.
    intros Hp En. assert (Hq : inside A q) by (eapply ahead_inside; exact En).
    pose proof (layout_shows g W T L C colour_x colour_y a0 VL p Hp) as Sp.
    pose proof (layout_shows g W T L C colour_x colour_y a0 VL q Hq) as Sq.
    destruct (view_layout g W T L C colour_x colour_y a0 p Hp) as (_ & _ & _ & _ & _ & _ & _ & _ & _ & _ & Vu).
    pose proof VL as (VB & _ & _ & _ & _ & _ & VE & VX).
    split; [|split; [|split]].
    - intros O S. apply CH. split; [exact Hp|]. split.
      + destruct Sp as (_ & _ & _ & Sp & _). rewrite S in Sp. destruct (T p); cbn; try tauto; discriminate.
      + exists d. split; [exact (shows_pushes _ _ _ Sp O)|exact En].
    - intros U. rewrite Vu in U.
      destruct (f_under_inside A T L HA VL p d Hp U) as (j & k & e & x & Hj & Hk & He & Ee & Ep & Te & Ex & Tx & Hc).
      assert (E1 : tq d p = C e).
      { unfold tq. apply (tunnel_quantity_inside A T L Z C 0 HA VL p d j e); auto; try lia.
        intros i Hi. rewrite (ahead_add A e d j (- i) p HA Ep). apply Hc. lia. }
      assert (Eq : ahead A e d (j + 1) = Some q) by (rewrite <- (ahead_add A e d j 1 p HA Ep); exact En).
      rewrite E1. destruct (Z.eq_dec (j + 1) k) as [E|N].
      + rewrite E in Eq. assert (x = q) by congruence. subst x. unfold tq. rewrite tunnel_quantity_exit by exact Tx.
        apply CU. split; [exact He|]. exists d. split; [exact Te|]. split; [exact Tx|]. exists k. split; [lia|]. split; [exact Ex|exact Hc].
      + symmetry. unfold tq. apply (tunnel_quantity_inside A T L Z C 0 HA VL q d (j + 1) e); auto; try lia.
        * apply (ahead_back A e d (j + 1) q HA He Eq).
        * intros i Hi. rewrite (ahead_add A e d (j + 1) (- i) q HA Eq). apply Hc. lia.
    - intros I1 S N. pose proof (shows_takes _ _ _ Sp I1) as Tk.
      assert (Tp : T p = Underground d true).
      { destruct (T p) as [| |i o|f []|f h|f k|x y] eqn:E; cbn in Tk; try contradiction; subst.
        - destruct Sp as ((_ & _ & O & _) & _). rewrite (proj2 (O o) eq_refl) in N || (specialize (N o); rewrite (proj2 (O o) eq_refl) in N); discriminate.
        - reflexivity.
        - destruct Sp as (_ & _ & _ & Sp & _). congruence. }
      destruct (VE p d Hp Tp) as (x & Tx & k & Hk & Ek & Hc). unfold tq. symmetry.
      destruct (Hc 1 ltac:(lia)) as (r & Er & Nr). unfold neighbour in En. rewrite En in Er. injection Er as <-.
      apply (tunnel_quantity_inside A T L Z C 0 HA VL q d 1 p); auto; try lia.
      + apply (ahead_back A p d 1 q HA Hp En).
      + intros i Hi. replace (- i) with 0 by lia. exists q. split; [apply ahead_0; exact Hq|exact Nr].
    - intros O S N. pose proof (shows_pushes _ _ _ Sq O) as Pq.
      assert (Tq : T q = Underground d false).
      { destruct (T q) as [| |i o|f []|f h|f k|x y] eqn:E; cbn in Pq; try contradiction; subst.
        - destruct Sq as ((_ & I1 & _) & _). specialize (N i). rewrite (proj2 (I1 i) eq_refl) in N. discriminate.
        - reflexivity.
        - destruct Sq as (_ & _ & _ & Sq & _). congruence. }
      destruct (VX q d Hq Tq) as (x & Hx & Tx & k & Hk & Ek & Hc).
      assert (Ep : ahead A x d (k - 1) = Some p).
      { pose proof (neighbour_back A p d q HA Hp En) as B. unfold neighbour in B. rewrite ahead_opposite in B. change (Z.opp 1) with (-1) in B.
        rewrite (ahead_add A x d k (-1) q HA Ek) in B. exact B. }
      transitivity (C x).
      + unfold tq. apply (tunnel_quantity_inside A T L Z C 0 HA VL p d (k - 1) x); auto; try lia.
        * apply (ahead_back A x d (k - 1) p HA Hx Ep).
        * intros i Hi. rewrite (ahead_add A x d (k - 1) (- i) p HA Ep). apply Hc. lia.
      + apply CU. split; [exact Hx|]. exists d. split; [exact Tx|]. split; [exact Tq|]. exists k. auto.
  Qed.

  Lemma layout_transport_rule p d : (forall p, inside A p -> 0 <= C p < 2 ^ Z.of_nat (colour_bits g)) -> inside A p ->
    transport_rule g a (fun p => colour (tile_at g p)) (fun p => colour_ux (tile_at g p)) (fun p => colour_uy (tile_at g p)) p d.
  Proof.
    intros HC Hp q En. assert (Hq : inside A q) by (eapply ahead_inside; exact En).
    assert (P2 : 0 <= 0 < 2 ^ Z.of_nat (colour_bits g)) by (specialize (HC p Hp); lia).
    assert (V0 : forall r, inside A r -> value a (colour (tile_at g r)) = C r /\
      value a (qu (fun p => colour_ux (tile_at g p)) (fun p => colour_uy (tile_at g p)) d r) = tq d r).
    { intros r Hr. destruct (layout_colours g W T L C colour_x colour_y a0 r Hr) as (V1 & V2 & V3).
      split; [apply V1; auto|]. unfold qu, tq, axis_dirs.
      destruct (is_horizontal d); [apply V2|apply V3]; apply tunnel_quantity_range; auto. }
    destruct (V0 p Hp) as [-> ->]. destruct (V0 q Hq) as [-> ->]. apply layout_transport; assumption.
  Qed.
End CompleteColours.
