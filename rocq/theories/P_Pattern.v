(** What the clauses of optimisations.py forbid, on the layout of a solution. *)
From Coq Require Import String ZArith List Bool Lia.
From Verif Require Import Spec_Cnf Spec_Tile Spec_Layout Spec_Pattern M_Json M_Tile M_Util M_Card M_Template M_Grid M_Balancer M_Optimise
  P_Cnf P_Util P_Card P_Tile P_Layout P_List P_Template P_Walk P_Grid P_GridSound.
Import ListNotations.
Open Scope Z_scope.

(** ** Falsified clauses *)
Lemma satc_true a c : satc a c = true <-> ~ (satc a c = false).
Proof. destruct (satc a c); intuition congruence. Qed.
Lemma satc_f_cons a l c : satc a (l :: c) = false <-> evl a l = false /\ satc a c = false.
Proof. rewrite satc_cons. apply orb_false_iff. Qed.
Lemma satc_f_app a c d : satc a (c ++ d) = false <-> satc a c = false /\ satc a d = false.
Proof. rewrite satc_app. apply orb_false_iff. Qed.
Lemma satc_f_nil a : satc a [] = false <-> True.
Proof. rewrite satc_nil. tauto. Qed.
Lemma evl_neg_f a l : l <> 0 -> (evl a (- l) = false <-> evl a l = true).
Proof. intros H. rewrite P_Cnf.evl_neg by exact H. destruct (evl a l); cbn; intuition congruence. Qed.
Lemma sat_map_iff {X} a (F : X -> clause) l : sat a (map F l) = true <-> forall x, In x l -> satc a (F x) = true.
Proof.
  rewrite sat_forall. split.
  - intros H x Hx. apply H. apply in_map. exact Hx.
  - intros H c Hc. apply in_map_iff in Hc. destruct Hc as (x & <- & Hx). auto.
Qed.
Lemma satc_f_map {X} a (f : X -> lit) l : satc a (map f l) = false <-> forall x, In x l -> evl a (f x) = false.
Proof.
  induction l as [|x l IH]; cbn [map].
  - rewrite satc_nil. split; [intros _ x []|reflexivity].
  - rewrite satc_f_cons, IH. split.
    + intros [H1 H2] y [<-|Hy]; auto.
    + intros H. split; [apply H; left; reflexivity|intros y Hy; apply H; right; exact Hy].
Qed.

(** ** Spots *)
Lemma spot_d A p d t : neighbour A p d = spot A p d 1 t 0.
Proof. unfold neighbour, ahead, spot. apply (f_equal (place A)). apply pair_equal_spec. split; ring. Qed.
Lemma spot_t A p d t : neighbour A p t = spot A p d 0 t 1.
Proof. unfold neighbour, ahead, spot. apply (f_equal (place A)). apply pair_equal_spec. split; ring. Qed.
Lemma spot_step_d A p d i t j q : wf_area A -> spot A p d i t j = Some q -> neighbour A q d = spot A p d (i + 1) t j.
Proof. intros HA H. unfold neighbour, ahead, spot in *. rewrite (place_shift A _ q _ _ HA H). cbn [fst snd]. f_equal. f_equal; ring. Qed.
Lemma spot_step_t A p d i t j q : wf_area A -> spot A p d i t j = Some q -> neighbour A q t = spot A p d i t (j + 1).
Proof. intros HA H. unfold neighbour, ahead, spot in *. rewrite (place_shift A _ q _ _ HA H). cbn [fst snd]. f_equal. f_equal; ring. Qed.
Lemma spot_inside A p d i t j q : spot A p d i t j = Some q -> inside A q.
Proof. apply place_inside. Qed.

Section Pattern.
  Variable g : grid.
  Hypothesis W : wf_grid g.
  Variable a : assignment.
  Notation A := (garea g).
  Notation V p := (view_of a (tile_at g p)).
  Variable T : layout.
  Hypothesis HT : forall p, inside A p -> decoded g a p = Some (T p).
  Hypothesis G : grid_rules g a.
  Hypothesis Lk : forall p d, inside A p -> link_rule g a p d.
  Hypothesis Ur : forall p d, inside A p -> under_rule g a p d.

  Let HA : wf_area A := WA g W.
  Lemma Sw p : inside A p -> shows (V p) (T p).
  Proof. apply (T_shows g a T HT G). Qed.
  Lemma Ok p : inside A p -> vars_ok (tile_at g p).
  Proof. apply tile_at_ok. exact W. Qed.
  Lemma lnk p d q : inside A p -> neighbour A p d = Some q -> vo (V p) d = vi (V q) d.
  Proof. intros Hp E. pose proof (Lk p d Hp) as H. unfold link_rule in H. rewrite E in H. apply H. Qed.
  Lemma nbr_in p d q : neighbour A p d = Some q -> inside A q.
  Proof. apply ahead_inside. Qed.

  Lemma offset_spot p d i t j : offset2 g p d i t j = spot A p d i t j.
  Proof. unfold offset2, offset, spot. rewrite offset_place by apply W. rewrite !dx_step, !dy_step. unfold garea. f_equal. f_equal; ring. Qed.

  (** Reading tiles from views. *)
  Lemma is_belt_at p i o : inside A p -> vi (V p) i = true -> vo (V p) o = true -> vs (V p) = false -> T p = Belt i o.
  Proof.
    intros Hp Hi Ho Hs. pose proof (Sw p Hp) as (H & _ & _ & S1 & _).
    destruct (T p) as [| |i' o'|e []|e h|e k|x y]; try contradiction.
    - destruct H as (_ & H & _). rewrite H in Hi. discriminate.
    - destruct H as (_ & H1 & H2 & _). f_equal; symmetry; [apply H1|apply H2]; assumption.
    - destruct H as (_ & _ & H). rewrite H in Ho. discriminate.
    - destruct H as (_ & H & _). rewrite H in Hi. discriminate.
    - change (vs (V p) = true) in S1. congruence.
  Qed.
  Lemma is_turn_at p i o : inside A p -> vi (V p) i = true -> vo (V p) o = true -> i <> o -> T p = Belt i o.
  Proof.
    intros Hp Hi Ho N. apply is_belt_at; auto. pose proof (Sw p Hp) as (H & _ & _ & S1 & _).
    destruct (vs (V p)) eqn:Hs; [|reflexivity]. destruct (T p) as [| |i' o'|e []|e h|e k|x y]; try contradiction; try discriminate.
    destruct H as (_ & _ & H1 & H2 & _). exfalso. apply N. rewrite (H1 i Hi), (H2 o Ho). reflexivity.
  Qed.
  Lemma belt_at p i o : inside A p -> T p = Belt i o ->
    vi (V p) i = true /\ vo (V p) o = true /\ vs (V p) = false /\ vb (V p) = true.
  Proof.
    intros Hp E. pose proof (Sw p Hp) as H. rewrite E in H. destruct H as ((B & H1 & H2 & _) & _ & _ & S1 & _).
    repeat split; [apply H1; reflexivity|apply H2; reflexivity|exact S1|exact B].
  Qed.
  Lemma is_belt_v p : inside A p -> vb (V p) = true -> vs (V p) = false.
  Proof.
    intros Hp E. pose proof (Sw p Hp) as (_ & B & _ & S1 & _). destruct (T p); congruence.
  Qed.
  Lemma is_empty_at p : inside A p -> (forall d, vi (V p) d = false) -> (forall d, vo (V p) d = false) -> T p = Empty.
  Proof.
    intros Hp Hi Ho. pose proof (Sw p Hp) as (H & _). destruct (T p) as [| |i' o'|e []|e h|e k|x y]; try contradiction; auto.
    - destruct H as (_ & H & _). specialize (Hi i'). rewrite (proj2 (H i') eq_refl) in Hi. discriminate.
    - destruct H as (_ & H & _). specialize (Hi e). rewrite (proj2 (H e) eq_refl) in Hi. discriminate.
    - destruct H as (_ & _ & H). specialize (Ho e). rewrite (proj2 (H e) eq_refl) in Ho. discriminate.
    - destruct H as (_ & _ & _ & _ & [H|H]); [rewrite Hi in H|rewrite Ho in H]; discriminate.
  Qed.
  Lemma empty_at p : inside A p -> T p = Empty -> (forall d, vi (V p) d = false) /\ (forall d, vo (V p) d = false) /\ vs (V p) = false.
  Proof. intros Hp E. pose proof (Sw p Hp) as H. rewrite E in H. destruct H as ((_ & H1 & H2) & _ & _ & H3 & _). auto. Qed.
  Lemma is_ui_at p d : inside A p -> vui (V p) = true -> vi (V p) d = true -> T p = Underground d true.
  Proof.
    intros Hp Hu Hi. pose proof (Sw p Hp) as (H & _ & _ & _ & U1 & _). destruct (T p) as [| |i' o'|e []|e h|e k|x y]; try congruence.
    destruct H as (_ & H & _). rewrite (proj1 (H d) Hi). reflexivity.
  Qed.
  Lemma is_uo_at p d : inside A p -> vuo (V p) = true -> vo (V p) d = true -> T p = Underground d false.
  Proof.
    intros Hp Hu Ho. pose proof (Sw p Hp) as (H & _ & _ & _ & _ & U1 & _). destruct (T p) as [| |i' o'|e []|e h|e k|x y]; try congruence.
    destruct H as (_ & _ & H). rewrite (proj1 (H d) Ho). reflexivity.
  Qed.
  Lemma ui_at p d : inside A p -> T p = Underground d true -> vui (V p) = true /\ vi (V p) d = true.
  Proof. intros Hp E. pose proof (Sw p Hp) as H. rewrite E in H. destruct H as ((H1 & H2 & _) & _). split; [exact H1|apply H2; reflexivity]. Qed.
  Lemma uo_at p d : inside A p -> T p = Underground d false -> vuo (V p) = true /\ vo (V p) d = true.
  Proof. intros Hp E. pose proof (Sw p Hp) as H. rewrite E in H. destruct H as ((H1 & _ & H2) & _). split; [exact H1|apply H2; reflexivity]. Qed.

  Lemma all_f p : satc a (all_direction (tile_at g p)) = false <-> (forall d, vi (V p) d = false) /\ (forall d, vo (V p) d = false).
  Proof.
    unfold all_direction, inputs, outputs. rewrite satc_f_app, !satc_f_map. split.
    - intros [H1 H2]. split; intros d; [apply H1|apply H2]; apply directions_all.
    - intros [H1 H2]. split; intros d _; [apply H1|apply H2].
  Qed.

  Ltac vars := repeat match goal with
    | |- context [evl a (is_belt (tile_at g ?p))] => change (evl a (is_belt (tile_at g p))) with (vb (V p))
    | |- context [evl a (is_empty (tile_at g ?p))] => change (evl a (is_empty (tile_at g p))) with (ve (V p))
    | |- context [evl a (is_splitter (tile_at g ?p))] => change (evl a (is_splitter (tile_at g p))) with (vs (V p))
    | |- context [evl a (is_underground_in (tile_at g ?p))] => change (evl a (is_underground_in (tile_at g p))) with (vui (V p))
    | |- context [evl a (is_underground_out (tile_at g ?p))] => change (evl a (is_underground_out (tile_at g p))) with (vuo (V p))
    | |- context [evl a (is_splitter_head (tile_at g ?p))] => change (evl a (is_splitter_head (tile_at g p))) with (vh (V p))
    | |- context [evl a (input_dir (tile_at g ?p) ?d)] => change (evl a (input_dir (tile_at g p) d)) with (vi (V p) d)
    | |- context [evl a (output_dir (tile_at g ?p) ?d)] => change (evl a (output_dir (tile_at g p) d)) with (vo (V p) d)
    | |- context [evl a (underground (tile_at g ?p) ?d)] => change (evl a (underground (tile_at g p) d)) with (vu (V p) d)
    end.
  Ltac oks := match goal with
    | |- is_belt (tile_at g ?p) <> 0 => apply (ok_b _ (Ok p ltac:(assumption)))
    | |- is_empty (tile_at g ?p) <> 0 => apply (ok_e _ (Ok p ltac:(assumption)))
    | |- is_splitter (tile_at g ?p) <> 0 => apply (ok_s _ (Ok p ltac:(assumption)))
    | |- is_underground_in (tile_at g ?p) <> 0 => apply (ok_ui _ (Ok p ltac:(assumption)))
    | |- is_underground_out (tile_at g ?p) <> 0 => apply (ok_uo _ (Ok p ltac:(assumption)))
    | |- is_splitter_head (tile_at g ?p) <> 0 => apply (ok_h _ (Ok p ltac:(assumption)))
    | |- input_dir (tile_at g ?p) ?d <> 0 => apply (ok_i _ (Ok p ltac:(assumption)))
    | |- output_dir (tile_at g ?p) ?d <> 0 => apply (ok_o _ (Ok p ltac:(assumption)))
    | |- underground (tile_at g ?p) ?d <> 0 => apply (ok_u _ (Ok p ltac:(assumption)))
    end.
  Ltac clauses_f := rewrite ?satc_f_app, ?satc_f_cons, ?satc_f_nil, ?all_f; rewrite ?evl_neg_f by oks; vars.

  (** ** Small loops *)
  Lemma loop_first p d t : perpendicular d t ->
    T p = Belt (opposite t) d -> T (go p d) = Belt d t -> T (go (go p d) t) = Belt t (opposite d) -> T (go p t) = Belt (opposite d) (opposite t) ->
    inside A p -> inside A (go p d) -> inside A (go (go p d) t) -> inside A (go p t) ->
    exists x y, (inside A (x, y) /\ inside A (x, y + 1) /\ inside A (x + 1, y + 1) /\ inside A (x + 1, y)) /\
      ((T (x, y) = Belt LEFT DOWN /\ T (x, y + 1) = Belt DOWN RIGHT /\ T (x + 1, y + 1) = Belt RIGHT UP /\ T (x + 1, y) = Belt UP LEFT) \/
       (T (x, y) = Belt UP RIGHT /\ T (x + 1, y) = Belt RIGHT DOWN /\ T (x + 1, y + 1) = Belt DOWN LEFT /\ T (x, y + 1) = Belt LEFT UP)).
  Proof.
    intros P E1 E2 E3 E4 I1 I2 I3 I4. destruct p as [x y]. unfold go in *. cbn [fst snd] in *.
    destruct P as [-> | ->]; destruct d; cbn [step_x step_y anticlockwise clockwise opposite] in *;
      rewrite ?Z.add_0_r in *;
      [exists x, (y - 1)|exists (x - 1), (y - 1)|exists (x - 1), y|exists x, y|exists x, y|exists x, (y - 1)|exists (x - 1), (y - 1)|exists (x - 1), y];
      rewrite ?Z.sub_add; change (x + -1) with (x - 1) in *; change (y + -1) with (y - 1) in *; tauto.
  Qed.

  Lemma small_loops_exact : sat a (prevent_small_loops g) = true <-> ~ small_loop A T.
  Proof.
    unfold prevent_small_loops. rewrite sat_flat_map.
    assert (X : forall x y, 0 <= x < width (geo g) - 1 -> 0 <= y < height (geo g) - 1 ->
      (sat a (small_loops_at g x y) = true <->
       ~ ((T (x, y) = Belt LEFT DOWN /\ T (x, y + 1) = Belt DOWN RIGHT /\ T (x + 1, y + 1) = Belt RIGHT UP /\ T (x + 1, y) = Belt UP LEFT) \/
          (T (x, y) = Belt UP RIGHT /\ T (x + 1, y) = Belt RIGHT DOWN /\ T (x + 1, y + 1) = Belt DOWN LEFT /\ T (x, y + 1) = Belt LEFT UP)))).
    { intros x y Hx Hy.
      assert (I1 : inside A (x, y)) by (split; cbn; lia). assert (I2 : inside A (x, y + 1)) by (split; cbn; lia).
      assert (I3 : inside A (x + 1, y)) by (split; cbn; lia). assert (I4 : inside A (x + 1, y + 1)) by (split; cbn; lia).
      unfold small_loops_at. rewrite !sat_cons_iff, sat_nil, !satc_true. clauses_f.
      split.
      - intros (H1 & H2 & _) [(E1 & E2 & E3 & E4)|(E1 & E2 & E3 & E4)].
        + apply H1. destruct (belt_at _ _ _ I1 E1) as (? & ? & _). destruct (belt_at _ _ _ I2 E2) as (? & ? & _).
          destruct (belt_at _ _ _ I4 E3) as (? & ? & _). destruct (belt_at _ _ _ I3 E4) as (? & ? & _). tauto.
        + apply H2. destruct (belt_at _ _ _ I1 E1) as (? & ? & _). destruct (belt_at _ _ _ I3 E2) as (? & ? & _).
          destruct (belt_at _ _ _ I4 E3) as (? & ? & _). destruct (belt_at _ _ _ I2 E4) as (? & ? & _). tauto.
      - intros N. split; [|split; [|reflexivity]]; intros H; apply N; [left|right]; repeat split; (apply is_turn_at; [assumption|tauto|tauto|discriminate]). }
    split.
    - intros H (p & d & t & P & (I1 & I2 & I3 & I4) & E1 & E2 & E3 & E4).
      destruct (loop_first p d t P E1 E2 E3 E4 I1 I2 I3 I4) as (x & y & (J1 & J2 & J3 & J4) & E).
      assert (Hx : 0 <= x < width (geo g) - 1) by (destruct J1 as [J1 _], J3 as [J3 _]; cbn in *; lia).
      assert (Hy : 0 <= y < height (geo g) - 1) by (destruct J1 as [_ J1], J3 as [_ J3]; cbn in *; lia).
      specialize (H x (proj2 (range_in _ _) Hx)). rewrite sat_flat_map in H. specialize (H y (proj2 (range_in _ _) Hy)).
      apply (X x y Hx Hy) in H. contradiction.
    - intros N x Hx. rewrite sat_flat_map. intros y Hy. apply range_in in Hx. apply range_in in Hy. apply (X x y Hx Hy).
      intros E. apply N.
      destruct E as [(E1 & E2 & E3 & E4)|(E1 & E2 & E3 & E4)].
      + exists (x, y), DOWN, RIGHT. unfold go. cbn [fst snd step_x step_y opposite]. rewrite !Z.add_0_r.
        split; [left; reflexivity|]. split; [repeat split; cbn; lia|]. tauto.
      + exists (x, y), RIGHT, DOWN. unfold go. cbn [fst snd step_x step_y opposite]. rewrite !Z.add_0_r.
        split; [right; reflexivity|]. split; [repeat split; cbn; lia|]. tauto.
  Qed.

  (** Loops over positions, directions and tangents. *)
  Lemma tangents_in d t : In t (tangents d) <-> perpendicular d t.
  Proof. unfold tangents, perpendicular. rewrite next_ac, prev_c. cbn. intuition. Qed.
  Lemma pdt_sat (F : Z * Z -> dir -> dir -> cnf) (Pat : pos -> dir -> dir -> Prop) :
    (forall p d t, inside A p -> perpendicular d t -> (sat a (F p d t) = true <-> ~ Pat p d t)) ->
    (sat a (flat_map (fun p => flat_map (fun d => flat_map (F p d) (tangents d)) directions) (iterate_tiles (geo g))) = true <->
     forall p d t, inside A p -> perpendicular d t -> ~ Pat p d t).
  Proof.
    intros H. rewrite (tiles_sat g a). split.
    - intros S p d t Hp Hd. apply (H p d t Hp Hd). specialize (S p Hp). rewrite (dirs_sat a) in S. specialize (S d).
      rewrite sat_flat_map in S. apply S. apply tangents_in. exact Hd.
    - intros S p Hp. rewrite (dirs_sat a). intros d. rewrite sat_flat_map. intros t Ht. apply tangents_in in Ht. apply H; auto.
  Qed.
  Lemma not_exists_dir (P : dir -> dir -> Prop) (l k : list dir) :
    (forall i, In i l -> forall o, In o k -> ~ P i o) <-> ~ exists i o, (In i l /\ In o k) /\ P i o.
  Proof. split; [intros H (i & o & (Hi & Ho) & HP); eapply H; eauto|intros H i Hi o Ho HP; apply H; exists i, o; auto]. Qed.

  (** ** Hooks *)
  Lemma hooks_at_exact p d t : inside A p -> perpendicular d t ->
    (sat a (hooks_at g p d t) = true <-> ~ exists i o, belt_hook A T p d t i o).
  Proof.
    intros Hp Pd. unfold hooks_at.
    replace (offset g p (dx d) (dy d)) with (spot A p d 1 t 0) by (rewrite <- offset_spot; unfold offset2; f_equal; ring).
    replace (offset g p (dx t) (dy t)) with (spot A p d 0 t 1) by (rewrite <- offset_spot; unfold offset2; f_equal; ring).
    replace (offset g p (dx d + dx t) (dy d + dy t)) with (spot A p d 1 t 1) by (rewrite <- offset_spot; unfold offset2; f_equal; ring).
    destruct (spot A p d 1 t 0) as [p01|] eqn:E01; [destruct (spot A p d 0 t 1) as [p10|] eqn:E10; [destruct (spot A p d 1 t 1) as [p11|] eqn:E11|]|].
    2-4: split; [intros _ (i & o & q01 & q11 & q10 & N1 & N2 & N3 & _); rewrite (spot_d A p d t) in N1; rewrite (spot_t A p d t) in N3; congruence|intros _; reflexivity].
    assert (I01 : inside A p01) by (eapply spot_inside; exact E01). assert (I10 : inside A p10) by (eapply spot_inside; exact E10). assert (I11 : inside A p11) by (eapply spot_inside; exact E11).
    assert (N1 : neighbour A p d = Some p01) by (rewrite (spot_d A p d t); exact E01).
    assert (N2 : neighbour A p t = Some p10) by (rewrite (spot_t A p d t); exact E10).
    assert (N3 : neighbour A p01 t = Some p11) by (rewrite (spot_step_t A p d 1 t 0 p01 HA E01); exact E11).
    assert (N4 : neighbour A p11 (opposite d) = Some p10) by (apply neighbour_back; [exact HA|exact I10|]; rewrite (spot_step_d A p d 0 t 1 p10 HA E10); exact E11).
    rewrite sat_flat_map.
    assert (X : forall i o, In i [d; t] -> In o [t; reverse d] ->
      (satc a [- is_belt (tile_at g p); - input_dir (tile_at g p) i; - output_dir (tile_at g p) d; - output_dir (tile_at g p01) t; - output_dir (tile_at g p11) (reverse d);
         - is_belt (tile_at g p10); - output_dir (tile_at g p10) o] = true <-> ~ belt_hook A T p d t i o)).
    { intros i o Hi Ho. rewrite satc_true, reverse_opp. clauses_f.
      pose proof (lnk p d p01 Hp N1) as L1. pose proof (lnk p01 t p11 I01 N3) as L2. pose proof (lnk p11 (opposite d) p10 I11 N4) as L3.
      assert (Ndt : d <> t /\ t <> opposite d) by (destruct Pd as [-> | ->], d; split; discriminate).
      split; intros N H; apply N; clear N.
      - destruct H as (q01 & q11 & q10 & M1 & M2 & M3 & _ & _ & B1 & B2 & B3 & B4).
        rewrite N1 in M1. rewrite N2 in M3. rewrite E11 in M2. apply Some_inj in M1, M2, M3. subst q01 q11 q10.
        destruct (belt_at _ _ _ Hp B1) as (? & ? & _ & ?). destruct (belt_at _ _ _ I01 B2) as (? & ? & _). destruct (belt_at _ _ _ I11 B3) as (? & ? & _).
        destruct (belt_at _ _ _ I10 B4) as (? & ? & _ & ?). tauto.
      - destruct H as (Hb & Hvi & Hvo & H1 & H2 & Hb2 & H3 & _). exists p01, p11, p10. repeat (split; [assumption|]).
        split; [cbn in Hi; intuition|]. split; [rewrite reverse_opp in Ho; cbn in Ho; intuition|].
        split; [apply is_belt_at; auto using is_belt_v|]. split; [apply is_turn_at; tauto || congruence|]. split; [apply is_turn_at; tauto || congruence|].
        apply is_belt_at; auto using is_belt_v. congruence. }
    split.
    - intros H (i & o & Hk). pose proof Hk as (q01 & q11 & q10 & _ & _ & _ & Hi & Ho & _).
      assert (Hi' : In i [d; t]) by (cbn; intuition). assert (Ho' : In o [t; reverse d]) by (rewrite reverse_opp; cbn; intuition).
      specialize (H i Hi'). rewrite sat_map_iff in H. specialize (H o Ho'). apply (X i o Hi' Ho') in H. contradiction.
    - intros N i Hi. rewrite sat_map_iff. intros o Ho. apply X; auto. intros Hk. apply N. eauto.
  Qed.
  Lemma hooks_exact : sat a (prevent_belt_hooks g) = true <->
    forall p d t, inside A p -> perpendicular d t -> ~ exists i o, belt_hook A T p d t i o.
  Proof. apply (pdt_sat (hooks_at g) (fun p d t => exists i o, belt_hook A T p d t i o)). exact hooks_at_exact. Qed.

  (** ** Semicircles *)
  Lemma semicircles_at_exact p d t : inside A p -> perpendicular d t ->
    (sat a (semicircles_at g p d t) = true <-> ~ exists i o, semicircle A T p d t i o).
  Proof.
    intros Hp Pd. unfold semicircles_at. rewrite !offset_spot.
    assert (E00 : spot A p d 0 t 0 = Some p).
    { unfold spot. replace (fst p + (0 * step_x d + 0 * step_x t), snd p + (0 * step_y d + 0 * step_y t)) with p by (destruct p; cbn; f_equal; lia). apply place_self. exact Hp. }
    rewrite E00.
    destruct (spot A p d 1 t 0) as [p01|] eqn:E01; [destruct (spot A p d 2 t 0) as [p02|] eqn:E02; [destruct (spot A p d 0 t 1) as [p10|] eqn:E10;
      [destruct (spot A p d 1 t 1) as [p11|] eqn:E11; [destruct (spot A p d 2 t 1) as [p12|] eqn:E12|]|]|]|].
    2-6: split; [intros _ (i & o & q01 & q02 & q10 & q11 & q12 & N1 & N2 & N3 & N4 & N5 & _); rewrite (spot_d A p d t) in N1; rewrite (spot_t A p d t) in N3; congruence|intros _; reflexivity].
    assert (I01 : inside A p01) by (eapply spot_inside; exact E01). assert (I02 : inside A p02) by (eapply spot_inside; exact E02).
    assert (I10 : inside A p10) by (eapply spot_inside; exact E10). assert (I11 : inside A p11) by (eapply spot_inside; exact E11). assert (I12 : inside A p12) by (eapply spot_inside; exact E12).
    assert (N1 : neighbour A p d = Some p01) by (rewrite (spot_d A p d t); exact E01).
    assert (N2 : neighbour A p t = Some p10) by (rewrite (spot_t A p d t); exact E10).
    assert (N3 : neighbour A p10 d = Some p11) by (rewrite (spot_step_d A p d 0 t 1 p10 HA E10); exact E11).
    assert (N4 : neighbour A p11 d = Some p12) by (rewrite (spot_step_d A p d 1 t 1 p11 HA E11); exact E12).
    assert (N5 : neighbour A p12 (opposite t) = Some p02) by (apply neighbour_back; [exact HA|exact I02|]; rewrite (spot_step_t A p d 2 t 0 p02 HA E02); exact E12).
    pose proof (lnk p t p10 Hp N2) as L1. pose proof (lnk p10 d p11 I10 N3) as L2. pose proof (lnk p11 d p12 I11 N4) as L3. pose proof (lnk p12 (opposite t) p02 I12 N5) as L4.
    assert (Ndt : d <> t /\ d <> opposite t /\ opposite t <> t) by (destruct Pd as [-> | ->], d; repeat split; discriminate).
    rewrite sat_flat_map.
    assert (X : forall i o, In i [d; t] -> In o [reverse t; d] ->
      (satc a ([- input_dir (tile_at g p) i] ++ (if dir_eqb t i then [is_splitter (tile_at g p)] else []) ++ all_direction (tile_at g p01) ++
         [- input_dir (tile_at g p02) (reverse t); - output_dir (tile_at g p02) o] ++ (if dir_eqb (reverse t) o then [is_splitter (tile_at g p02)] else []) ++
         [- input_dir (tile_at g p10) t; - input_dir (tile_at g p11) d; is_splitter (tile_at g p11); - input_dir (tile_at g p12) d]) = true <-> ~ semicircle A T p d t i o)).
    { intros i o Hi Ho. rewrite satc_true, reverse_opp in *. clauses_f.
      assert (K1 : satc a (if dir_eqb t i then [is_splitter (tile_at g p)] else []) = false <-> (t = i -> vs (V p) = false)).
      { destruct (dir_eqb_spec t i) as [e|e]; [|rewrite satc_f_nil; tauto]. rewrite satc_f_cons, satc_f_nil. vars. tauto. }
      assert (K2 : satc a (if dir_eqb (opposite t) o then [is_splitter (tile_at g p02)] else []) = false <-> (opposite t = o -> vs (V p02) = false)).
      { destruct (dir_eqb_spec (opposite t) o) as [e|e]; [|rewrite satc_f_nil; tauto]. rewrite satc_f_cons, satc_f_nil. vars. tauto. }
      rewrite K1, K2.
      split; intros N H; apply N; clear N.
      - destruct H as (q01 & q02 & q10 & q11 & q12 & M1 & M2 & M3 & M4 & M5 & _ & _ & B1 & B2 & B3 & B4 & B5 & B6).
        rewrite N1 in M1. rewrite E02 in M2. rewrite N2 in M3. rewrite E11 in M4. rewrite E12 in M5. apply Some_inj in M1, M2, M3, M4, M5. subst q01 q02 q10 q11 q12.
        destruct (belt_at _ _ _ Hp B1) as (? & ? & ? & ?). destruct (belt_at _ _ _ I10 B2) as (? & ? & _). destruct (belt_at _ _ _ I11 B3) as (? & ? & ? & _).
        destruct (belt_at _ _ _ I12 B4) as (? & ? & _). destruct (belt_at _ _ _ I02 B5) as (? & ? & ? & _). destruct (empty_at _ I01 B6) as (? & ? & _). tauto.
      - destruct H as ((H1 & _) & H2 & (H3 & H4) & (H5 & H6 & _) & H7 & H8 & H9 & H10 & H11 & _).
        exists p01, p02, p10, p11, p12. repeat (split; [assumption|]).
        split; [cbn in Hi; intuition|]. split; [cbn in Ho; intuition|].
        split. { destruct (dir_eqb_spec t i) as [e|e]; [apply is_belt_at; auto; congruence|apply is_turn_at; auto; congruence]. }
        split; [apply is_turn_at; intuition congruence|]. split; [apply is_belt_at; auto; congruence|].
        split; [apply is_turn_at; intuition congruence|].
        split. { destruct (dir_eqb_spec (opposite t) o) as [e|e]; [apply is_belt_at; auto; congruence|apply is_turn_at; auto; congruence]. }
        apply is_empty_at; auto. }
    split.
    - intros H (i & o & Hk). pose proof Hk as (q01 & q02 & q10 & q11 & q12 & _ & _ & _ & _ & _ & Hi & Ho & _).
      assert (Hi' : In i [d; t]) by (cbn; intuition). assert (Ho' : In o [reverse t; d]) by (rewrite reverse_opp; cbn; intuition).
      specialize (H i Hi'). rewrite sat_map_iff in H. specialize (H o Ho'). apply (X i o Hi' Ho') in H. contradiction.
    - intros N i Hi. rewrite sat_map_iff. intros o Ho. apply X; auto. intros Hk. apply N. eauto.
  Qed.
  Lemma semicircles_exact : sat a (prevent_semicircles g) = true <->
    forall p d t, inside A p -> perpendicular d t -> ~ exists i o, semicircle A T p d t i o.
  Proof. apply (pdt_sat (semicircles_at g) (fun p d t => exists i o, semicircle A T p d t i o)). exact semicircles_at_exact. Qed.

  (** ** Blocks of four *)
  Definition within (max_x : option Z) (c r : dir) (p : pos) : Prop :=
    match max_x with None => True | Some m => fst p <= m /\ fst p + (step_x r + step_x c) <= m end.
  Lemma for_blocks_sat c r max_x f :
    (sat a (for_blocks g c r max_x f) = true <->
     forall p p01 p10 p11, inside A p -> within max_x c r p -> neighbour A p c = Some p01 -> neighbour A p r = Some p10 -> spot A p c 1 r 1 = Some p11 ->
       sat a (f (tile_at g p) (tile_at g p01) (tile_at g p10) (tile_at g p11)) = true).
  Proof.
    unfold for_blocks, iterate_tile_blocks. rewrite !vec_step.
    replace (Z.abs (step_x c) + Z.abs (step_y c) =? 1) with true by (destruct c; reflexivity).
    replace (Z.abs (step_x r) + Z.abs (step_y r) =? 1) with true by (destruct r; reflexivity).
    cbn [negb Z.ltb Z.compare]. rewrite sat_flat_map.
    change (range 2) with [0; 1]. cbn [map].
    assert (O : forall p i j, get_tile_instance_offset (geo g) (fst p) (snd p) (step_x r * j + step_x c * i) (step_y r * j + step_y c * i) = spot A p c i r j).
    { intros p i j. rewrite <- offset_spot. unfold offset2, offset. rewrite !dx_step, !dy_step. f_equal; ring. }
    assert (E00 : forall p, inside A p -> spot A p c 0 r 0 = Some p).
    { intros p Hp. unfold spot. replace (fst p + (0 * step_x c + 0 * step_x r), snd p + (0 * step_y c + 0 * step_y r)) with p by (destruct p; cbn; f_equal; lia). apply place_self. exact Hp. }
    assert (Sk : forall p, negb (block_skipped None None max_x None (step_x r * (2 - 1) + step_x c * (2 - 1)) (step_y r * (2 - 1) + step_y c * (2 - 1)) (fst p) (snd p)) = true <-> within max_x c r p).
    { intros p. unfold block_skipped, within. destruct max_x as [m|]; [|cbn; tauto]. rewrite negb_true_iff, !orb_false_iff, !Z.ltb_ge. split; [intros [[_ H] _]; lia|intros H; repeat split; lia]. }
    split.
    - intros H p p01 p10 p11 Hp Hw N1 N2 E11. rewrite (spot_d A p c r) in N1. rewrite (spot_t A p c r) in N2.
      specialize (H [[Some p; Some p01]; [Some p10; Some p11]]). cbn [full_block] in H. apply H. apply in_map_iff. exists p. split.
      + rewrite !O, E00, N1, N2, E11 by exact Hp. reflexivity.
      + apply filter_In. split; [apply iterate_tiles_in; exact Hp|apply Sk; exact Hw].
    - intros H b Hb. apply in_map_iff in Hb. destruct Hb as (p & <- & Hp). apply filter_In in Hp. destruct Hp as [Hp Hw]. apply iterate_tiles_in in Hp. apply Sk in Hw.
      rewrite !O, E00 by exact Hp. destruct (spot A p c 1 r 0) as [p01|] eqn:E01; [|reflexivity].
      destruct (spot A p c 0 r 1) as [p10|] eqn:E10; [|reflexivity]. destruct (spot A p c 1 r 1) as [p11|] eqn:E11; [|reflexivity]. cbn [full_block].
      apply (H p p01 p10 p11 Hp Hw); [rewrite (spot_d A p c r); exact E01|rewrite (spot_t A p c r); exact E10|exact E11].
  Qed.

  (** ** Zigzags *)
  Lemma zigzags_exact : sat a (prevent_zigzags g) = true <-> forall p d t, inside A p -> perpendicular d t -> ~ zigzag A T p d t.
  Proof.
    unfold prevent_zigzags. rewrite (dirs_sat a).
    assert (X : forall p d t p01 p10 p11, inside A p -> perpendicular d t -> neighbour A p d = Some p01 -> neighbour A p t = Some p10 -> spot A p d 1 t 1 = Some p11 ->
      (sat a (zigzag_clauses d t (tile_at g p) (tile_at g p01) (tile_at g p10) (tile_at g p11)) = true <-> ~ zigzag A T p d t)).
    { intros p d t p01 p10 p11 Hp Pd N1 N2 E11. unfold zigzag_clauses. rewrite sat_one, satc_true.
      assert (I01 : inside A p01) by (eapply nbr_in; exact N1). assert (I10 : inside A p10) by (eapply nbr_in; exact N2). assert (I11 : inside A p11) by (eapply spot_inside; exact E11).
      assert (N3 : neighbour A p10 d = Some p11) by (rewrite (spot_step_d A p d 0 t 1 p10 HA); [exact E11|rewrite <- (spot_t A p d t); exact N2]).
      pose proof (lnk p t p10 Hp N2) as L1. pose proof (lnk p10 d p11 I10 N3) as L2.
      assert (Ndt : d <> t) by (destruct Pd as [-> | ->], d; discriminate).
      clauses_f. split; intros N H; apply N; clear N.
      - destruct H as (q01 & q10 & q11 & M1 & M2 & M3 & B1 & B2 & B3 & B4). rewrite N1 in M1. rewrite N2 in M2. rewrite E11 in M3. apply Some_inj in M1, M2, M3. subst q01 q10 q11.
        destruct (belt_at _ _ _ Hp B1) as (? & ? & _). destruct (belt_at _ _ _ I10 B2) as (? & ? & _). destruct (belt_at _ _ _ I11 B3) as (? & ? & _). destruct (empty_at _ I01 B4) as (? & ? & _). tauto.
      - destruct H as ((H1 & H2 & _) & (H3 & H4) & H5 & H6 & _). exists p01, p10, p11. repeat (split; [assumption|]).
        split; [apply is_turn_at; auto|]. split; [apply is_turn_at; congruence|]. split; [apply is_turn_at; congruence|]. apply is_empty_at; auto. }
    split.
    - intros H p d t Hp Pd Z. pose proof Z as (p01 & p10 & p11 & N1 & N2 & E11 & _). specialize (H d). rewrite sat_flat_map in H. specialize (H t (proj2 (tangents_in d t) Pd)).
      rewrite for_blocks_sat in H. specialize (H p p01 p10 p11 Hp Logic.I N1 N2 E11). apply (X p d t p01 p10 p11 Hp Pd N1 N2 E11) in H. contradiction.
    - intros N d. rewrite sat_flat_map. intros t Ht. apply tangents_in in Ht. apply for_blocks_sat. intros p p01 p10 p11 Hp _ N1 N2 E11. apply (X p d t p01 p10 p11 Hp Ht N1 N2 E11). apply N; assumption.
  Qed.

  (** ** Splitters after straight belts *)
  Lemma splitter_in p d h q : inside A p -> T p = Splitter d h -> neighbour A p (opposite d) = Some q -> vo (V q) d = true -> vi (V p) d = true.
  Proof.
    intros Hp E N Ho. assert (Hq : inside A q) by (eapply nbr_in; exact N). rewrite <- (lnk q d p Hq); [exact Ho|]. apply neighbour_back in N; [|exact HA|exact Hp]. rewrite opposite_opposite in N. exact N.
  Qed.
  Definition movable (p : pos) (d : dir) : Prop := ~ (d = RIGHT /\ (fst p = 1 \/ fst p = width (geo g) - 2)).
  Lemma glue_exact : sat a (glue_splitters g) = true <-> forall p d, inside A p -> movable p d -> ~ loose_splitter A T p d.
  Proof.
    unfold glue_splitters. rewrite (tiles_sat g a).
    assert (X : forall p d, inside A p -> (sat a (glue_at g p d) = true <-> (movable p d -> ~ loose_splitter A T p d))).
    { intros p d Hp. unfold glue_at, movable.
      destruct (dir_eqb d RIGHT && ((fst p =? 1) || (fst p =? width (geo g) - 2))) eqn:Mv.
      { apply andb_true_iff in Mv. rewrite orb_true_iff, !Z.eqb_eq in Mv. destruct Mv as [Mv1 Mv2]. destruct (dir_eqb_spec d RIGHT); [|discriminate]. split; [intros _ M; exfalso; apply M; auto|reflexivity]. }
      assert (M : ~ (d = RIGHT /\ (fst p = 1 \/ fst p = width (geo g) - 2))).
      { intros [-> M]. rewrite <- !Z.eqb_eq, <- orb_true_iff in M. rewrite M in Mv. discriminate. }
      replace (offset g p (- dx d) (- dy d)) with (neighbour A p (opposite d)) by (symmetry; apply (offset_back g W)).
      replace (offset g p (- dx d + dx (next d)) (- dy d + dy (next d))) with (spot A p d (-1) (anticlockwise d) 1) by (rewrite <- offset_spot; unfold offset2, offset; rewrite next_ac; f_equal; ring).
      destruct (neighbour A p (opposite d)) as [q0|] eqn:N0; [|split; [intros _ _ (q0' & q1' & M0 & M1 & _); congruence|reflexivity]].
      destruct (spot A p d (-1) (anticlockwise d) 1) as [q1|] eqn:N1; [|split; [intros _ _ (q0' & q1' & M0 & M1 & _); congruence|reflexivity]].
      assert (I0 : inside A q0) by (eapply nbr_in; exact N0). assert (I1 : inside A q1) by (eapply spot_inside; exact N1).
      rewrite sat_one, satc_true. unfold not_straight. clauses_f. split.
      - intros N _ (q0' & q1' & M0 & M1 & B1 & B2 & B3). apply N. rewrite N0 in M0. rewrite N1 in M1. apply Some_inj in M0, M1. subst q0' q1'.
        destruct (belt_at _ _ _ I0 B2) as (? & ? & _ & ?). destruct (belt_at _ _ _ I1 B3) as (? & ? & _ & ?).
        assert (vh (V p) = true) by (pose proof (Sw p Hp) as (_ & _ & _ & _ & _ & _ & Hh); rewrite B1 in Hh; exact Hh).
        assert (vi (V p) d = true) by (eapply splitter_in; eauto). tauto.
      - intros N ((H1 & H2 & _) & (H3 & H4 & H5 & _) & (H6 & H7 & H8 & _)). apply N; [exact M|].
        exists q0, q1. split; [exact N0|]. split; [exact N1|].
        split; [|split; apply is_belt_at; auto using is_belt_v].
        pose proof (Sw p Hp) as (Hs & _ & _ & _ & _ & _ & Hh). destruct (T p) as [| |i' o'|u []|u h|u k|x y]; try congruence.
        destruct Hs as (_ & _ & Hs & _). rewrite <- (Hs d H2). congruence. }
    split.
    - intros H p d Hp. specialize (H p Hp). rewrite (dirs_sat a) in H. apply X; [exact Hp|apply H].
    - intros H p Hp. rewrite (dirs_sat a). intros d. apply X; auto.
  Qed.

  (** ** Tunnels and the underground variables *)
  Lemma uin_vu p d : inside A p -> T p = Underground d true -> vu (V p) d = false /\ vu (V p) (opposite d) = false.
  Proof. intros Hp E. destruct (ui_at p d Hp E) as [H1 H2]. destruct (Ur p d Hp) as [[H _] _]. auto. Qed.
  Lemma uout_vu p d : inside A p -> T p = Underground d false -> vu (V p) d = false /\ vu (V p) (opposite d) = false.
  Proof. intros Hp E. destruct (uo_at p d Hp E) as [H1 H2]. destruct (Ur p d Hp) as [[_ H] _]. auto. Qed.
  Lemma vu_clear p d : inside A p -> vu (V p) d = true -> ~ blocks_tunnel (T p) d.
  Proof.
    intros Hp E B. destruct (T p) as [| |i o|e b|e h|e k|x y] eqn:ET; cbn in B; try contradiction.
    assert (X : vu (V p) e = false /\ vu (V p) (opposite e) = false) by (destruct b; [apply uin_vu|apply uout_vu]; assumption).
    assert (d = e \/ d = opposite e) by (destruct d, e; cbn in *; auto; discriminate). destruct H as [-> | ->], X; congruence.
  Qed.
  Lemma ahead_next p d j r : ahead A p d j = Some r -> neighbour A r d = ahead A p d (j + 1).
  Proof. intros H. unfold neighbour. apply ahead_add; [exact HA|exact H]. Qed.

  Lemma bore_vu p d k q : inside A p -> bore A T p d k q -> forall j r, 0 < j < k -> ahead A p d j = Some r -> vu (V r) d = true.
  Proof.
    intros Hp (Hk & E1 & E2 & E3 & Cl) j r Hj. revert r. replace j with (Z.of_nat (Z.to_nat (j - 1)) + 1) by lia.
    assert (Hn : Z.of_nat (Z.to_nat (j - 1)) + 1 < k) by lia. revert Hn. generalize (Z.to_nat (j - 1)). clear j Hj.
    induction n as [|n IH]; intros Hn r Hr.
    - cbn in Hr. destruct (ui_at p d Hp E1) as [U1 U2]. destruct (Ur p d Hp) as (_ & H & _). destruct (H r) as [H1 _]; auto.
    - destruct (Cl (Z.of_nat n + 1)) as (r0 & A0 & _); [lia|]. specialize (IH ltac:(lia) r0 A0).
      assert (I0 : inside A r0) by (eapply ahead_inside; exact A0).
      assert (N0 : neighbour A r0 d = Some r) by (rewrite (ahead_next p d _ r0 A0); replace (Z.of_nat n + 1 + 1) with (Z.of_nat (S n) + 1) by lia; exact Hr).
      destruct (Ur r0 d I0) as (_ & H & _). destruct (H r N0) as [_ H2]. destruct (vu (V r) d) eqn:Er; [reflexivity|]. exfalso.
      destruct (H2 IH eq_refl) as [O1 O2]. destruct (Cl (Z.of_nat (S n) + 1)) as (r' & A' & B'); [lia|]. rewrite Hr in A'. apply Some_inj in A'. subst r'.
      apply B'. rewrite (is_uo_at r d (nbr_in _ _ _ N0) O1 O2). cbn. destruct d; reflexivity.
  Qed.
  Lemma vu_bore p d k q : inside A p -> 2 <= k -> ahead A p d k = Some q -> vu (V p) d = false -> vu (V q) d = false ->
    (forall j, 0 < j < k -> exists r, ahead A p d j = Some r /\ vu (V r) d = true) -> bore A T p d k q.
  Proof.
    intros Hp Hk Eq Vp Vq H. assert (Iq : inside A q) by (eapply ahead_inside; exact Eq). split; [exact Hk|].
    split; [|split; [|split; [exact Eq|]]].
    - destruct (H 1) as (r & Ar & Vr); [lia|]. assert (Ir : inside A r) by (eapply ahead_inside; exact Ar).
      assert (Nb : neighbour A r (opposite d) = Some p) by (apply neighbour_back; [exact HA|exact Hp|exact Ar]).
      destruct (Ur r d Ir) as (_ & _ & H1). destruct (H1 p Nb) as [_ H2]. destruct (H2 Vr Vp). apply is_ui_at; assumption.
    - destruct (H (k - 1)) as (r & Ar & Vr); [lia|]. assert (Ir : inside A r) by (eapply ahead_inside; exact Ar).
      assert (Nb : neighbour A r d = Some q) by (rewrite (ahead_next p d _ r Ar); replace (k - 1 + 1) with k by lia; exact Eq).
      destruct (Ur r d Ir) as (_ & H1 & _). destruct (H1 q Nb) as [_ H2]. destruct (H2 Vr Vq). apply is_uo_at; assumption.
    - intros j Hj. destruct (H j Hj) as (r & Ar & Vr). exists r. split; [exact Ar|]. apply vu_clear; [eapply ahead_inside; exact Ar|exact Vr].
  Qed.

  (** The tiles in a row. *)
  Definition cellat (p : pos) (d : dir) (i : Z) : pos := match ahead A p d i with Some r => r | None => p end.
  Lemma range_from_cons x y : x < y -> range_from x y = x :: range_from (x + 1) y.
  Proof.
    intros H. unfold range_from, range. replace (Z.to_nat (y - x)) with (S (Z.to_nat (y - (x + 1)))) by lia. cbn [seq map]. f_equal; [lia|].
    rewrite <- seq_shift, !map_map. apply map_ext. intros i. lia.
  Qed.
  Lemma range_from_nil x y : y <= x -> range_from x y = [].
  Proof. intros H. unfold range_from, range. replace (Z.to_nat (y - x)) with 0%nat by lia. reflexivity. Qed.
  Lemma range_from_in x y i : In i (range_from x y) <-> x <= i < y.
  Proof.
    unfold range_from. rewrite in_map_iff. split.
    - intros (j & <- & Hj). apply range_in in Hj. lia.
    - intros H. exists (i - x). split; [lia|]. apply range_in. lia.
  Qed.
  Lemma line_tiles p d n : inside A p ->
    (present_tiles g (line_of g p d n) = None /\ exists i, 0 <= i < n /\ ahead A p d i = None) \/
    (present_tiles g (line_of g p d n) = Some (map (fun i => tile_at g (cellat p d i)) (range n)) /\
     forall i, 0 <= i < n -> ahead A p d i = Some (cellat p d i)).
  Proof.
    intros Hp. unfold line_of, present_tiles.
    assert (X : forall l, (omap (fun o => let* q := o in Some (tile_at g q)) (map (fun i => offset g p (dx d * i) (dy d * i)) l) = None /\ exists i, In i l /\ ahead A p d i = None) \/
      (omap (fun o => let* q := o in Some (tile_at g q)) (map (fun i => offset g p (dx d * i) (dy d * i)) l) = Some (map (fun i => tile_at g (cellat p d i)) l) /\
       forall i, In i l -> ahead A p d i = Some (cellat p d i))).
    { induction l as [|i l IH]; [right; split; [reflexivity|intros i []]|]. cbn [map omap].
      replace (offset g p (dx d * i) (dy d * i)) with (ahead A p d i) by (symmetry; apply (offset_ahead g W)).
      destruct (ahead A p d i) as [r|] eqn:Er; [|left; split; [reflexivity|exists i; split; [left; reflexivity|exact Er]]].
      cbn [obind]. destruct IH as [(-> & j & Hj & Ej)|(-> & Hall)].
      - left. split; [reflexivity|]. exists j. split; [right; exact Hj|exact Ej].
      - right. split; [replace (cellat p d i) with r by (unfold cellat; rewrite Er; reflexivity); reflexivity|]. intros j [<-|Hj]; [unfold cellat; rewrite Er; reflexivity|auto]. }
    destruct (X (range n)) as [(E & i & Hi & Ei)|(E & H)]; [left|right]; (split; [exact E|]).
    - exists i. split; [apply range_in; exact Hi|exact Ei].
    - intros i Hi. apply H. apply range_in. exact Hi.
  Qed.

  (** ** Tunnels under nothing *)
  Lemma empty_clause_f p d k q mid : inside A p -> 0 < k -> ahead A p d k = Some q -> (forall j, 0 < j < k -> ahead A p d j = Some (cellat p d j)) ->
    mid = map (fun j => tile_at g (cellat p d j)) (range_from 1 k) -> 2 <= k ->
    (satc a (empty_clause d (tile_at g p) mid (tile_at g q)) = true <-> ~ empty_tunnel A T p d k).
  Proof.
    intros Hp K0 Eq Ej -> Hk. assert (Iq : inside A q) by (eapply ahead_inside; exact Eq). unfold empty_clause. rewrite satc_true, map_map. clauses_f.
    rewrite satc_f_map.
    assert (X : (forall x, In x (range_from 1 k) -> evl a (- is_empty (tile_at g (cellat p d x))) = false) <-> (forall j, 0 < j < k -> T (cellat p d j) = Empty)).
    { split.
      - intros H j Hj. assert (Ij : inside A (cellat p d j)) by (eapply ahead_inside; apply Ej; exact Hj).
        assert (Rj : In j (range_from 1 k)) by (apply range_from_in; lia). specialize (H j Rj). rewrite evl_neg_f in H by oks. revert H. vars. intros H.
        pose proof (Sw _ Ij) as (_ & _ & He & _). destruct (T (cellat p d j)); congruence.
      - intros H j Hj. apply range_from_in in Hj. assert (Ij : inside A (cellat p d j)) by (eapply ahead_inside; apply Ej; lia).
        rewrite evl_neg_f by oks. vars. pose proof (Sw _ Ij) as (_ & _ & He & _). rewrite (H j ltac:(lia)) in He. exact He. }
    rewrite X. split; intros N H; apply N; clear N.
    - destruct H as (q' & _ & E1 & E2 & E3 & H). rewrite Eq in E2. apply Some_inj in E2. subst q'.
      destruct (ui_at _ _ Hp E1). destruct (uo_at _ _ Iq E3). repeat split; auto. intros j Hj. destruct (H j Hj) as (r & Er & ET). rewrite (Ej j Hj) in Er. apply Some_inj in Er. congruence.
    - destruct H as ((H1 & H2 & _) & H3 & H4 & H5 & _). exists q. split; [lia|]. split; [apply is_ui_at; auto|]. split; [exact Eq|]. split; [apply is_uo_at; auto|].
      intros j Hj. exists (cellat p d j). auto.
  Qed.
  Lemma empty_loop_exact p d N n : inside A p -> forall i, N + 2 = i + Z.of_nat n -> 1 <= i -> (forall j, 0 < j < i -> ahead A p d j = Some (cellat p d j)) ->
    (sat a (empty_loop g d p (map (fun j => tile_at g (cellat p d j)) (range_from 1 i)) (range_from i (N + 2))) = true <->
     forall k, i <= k <= N + 1 -> ~ empty_tunnel A T p d k).
  Proof.
    intros Hp. induction n as [|n IH]; intros i En Hi Ej.
    - rewrite (range_from_nil i) by lia. split; [intros _ k Hk; lia|reflexivity].
    - rewrite (range_from_cons i) by lia. cbn [empty_loop].
      replace (offset g p (dx d * i) (dy d * i)) with (ahead A p d i) by (symmetry; apply (offset_ahead g W)).
      destruct (ahead A p d i) as [q|] eqn:Eq.
      + assert (Ec : cellat p d i = q) by (unfold cellat; rewrite Eq; reflexivity).
        assert (Emid : (map (fun j => tile_at g (cellat p d j)) (range_from 1 i) ++ [tile_at g q])%list = map (fun j => tile_at g (cellat p d j)) (range_from 1 (i + 1))).
        { rewrite <- Ec. change [tile_at g (cellat p d i)] with (map (fun j => tile_at g (cellat p d j)) [i]). rewrite <- map_app. f_equal.
          unfold range_from, range. replace (Z.to_nat (i + 1 - 1)) with (Z.to_nat (i - 1) + 1)%nat by lia. rewrite seq_app, !map_app. f_equal. cbn [map seq Nat.add]. f_equal. lia. }
        rewrite sat_app_iff, Emid, (IH (i + 1)); [|lia|lia|intros j Hj; destruct (Z.eq_dec j i) as [->|]; [rewrite Ec; exact Eq|apply Ej; lia]].
        assert (X : sat a (match map (fun j => tile_at g (cellat p d j)) (range_from 1 i) with [] => [] | _ => [empty_clause d (tile_at g p) (map (fun j => tile_at g (cellat p d j)) (range_from 1 i)) (tile_at g q)] end) = true <-> ~ empty_tunnel A T p d i).
        { destruct (Z.eq_dec i 1) as [->|Ne].
          - rewrite (range_from_nil 1 1) by lia. cbn. split; [intros _ (q' & H & _); lia|reflexivity].
          - rewrite (range_from_cons 1 i) at 1 by lia. cbn [map]. rewrite sat_one. apply empty_clause_f; auto; lia. }
        rewrite X. split; [intros [H1 H2] k Hk; destruct (Z.eq_dec k i) as [->|]; [exact H1|apply H2; lia]|intros H; split; [apply H; lia|intros k Hk; apply H; lia]].
      + split; [|reflexivity]. intros _ k Hk (q & H2 & _ & E2 & _ & H). destruct (Z.eq_dec k i) as [->|]; [congruence|]. destruct (H i ltac:(lia)) as (r & Er & _). congruence.
  Qed.
  Lemma empty_exact : sat a (prevent_empty_along_underground g) = true <->
    forall p d k, inside A p -> k <= useful_length g + 1 -> ~ empty_tunnel A T p d k.
  Proof.
    unfold prevent_empty_along_underground. rewrite (dirs_sat a).
    assert (X : forall p d, inside A p -> (sat a (empty_loop g d p [] (range_from 1 (useful_length g + 2))) = true <-> forall k, k <= useful_length g + 1 -> ~ empty_tunnel A T p d k)).
    { intros p d Hp. destruct (Z.leb_spec (-1) (useful_length g)) as [H|H].
      - pose proof (empty_loop_exact p d (useful_length g) (Z.to_nat (useful_length g + 1)) Hp 1) as E. rewrite (range_from_nil 1 1) in E by lia. cbn [map] in E. rewrite E; [|lia|lia|intros j Hj; lia].
        split; intros HH k Hk; [|apply HH; lia]. destruct (Z.leb_spec 1 k); [apply HH; lia|intros (q & Hq & _); lia].
      - rewrite range_from_nil by lia. split; [intros _ k Hk (q & Hq & _); lia|reflexivity]. }
    split.
    - intros H p d k Hp. specialize (H d). rewrite (tiles_sat g a) in H. apply (X p d Hp). apply H. exact Hp.
    - intros H d. apply (tiles_sat g a). intros p Hp. apply (X p d Hp). intros k Hk. apply H; assumption.
  Qed.

  (** ** Tunnels that could be longer *)
  Lemma expand_list (F : nat -> tvars) d m : expand_clauses d (map F (seq 0 (S m + 2))) =
    Some [ (not_straight (F 0%nat) d ++ [underground (F 1%nat) d] ++ map (fun i => - underground (F i) d) (seq 2 m) ++ [underground (F (S (S m))) d])%list;
           ([underground (F 0%nat) d] ++ map (fun i => - underground (F i) d) (seq 1 m) ++ [underground (F (S m)) d] ++ not_straight (F (S (S m))) d)%list ].
  Proof.
    replace (S m + 2)%nat with (S (S (S m))) by lia.
    assert (R : rev (map F (seq 0 (S (S (S m))))) = F (S (S m)) :: F (S m) :: rev (map F (seq 0 (S m)))).
    { rewrite seq_S, map_app, rev_app_distr. cbn [Nat.add map rev app]. f_equal. rewrite seq_S, map_app, rev_app_distr. reflexivity. }
    assert (M1 : removelast (map F (seq 2 (S m))) = map F (seq 2 m)) by (rewrite seq_S, map_app; cbn [map]; apply removelast_last).
    assert (M2 : removelast (removelast (F 1%nat :: map F (seq 2 (S m)))) = map F (seq 1 m)).
    { change (F 1%nat :: map F (seq 2 (S m))) with (map F (seq 1 (S (S m)))). rewrite seq_S, map_app. cbn [map]. rewrite removelast_last, seq_S, map_app. cbn [map]. apply removelast_last. }
    unfold expand_clauses. rewrite R. change (map F (seq 0 (S (S (S m))))) with (F 0%nat :: F 1%nat :: map F (seq 2 (S m))). cbv iota beta zeta.
    rewrite M1, M2, !map_map. reflexivity.
  Qed.
  Lemma cellat_0 p d : inside A p -> cellat p d 0 = p.
  Proof. intros Hp. unfold cellat. rewrite ahead_0 by exact Hp. reflexivity. Qed.
  Lemma line_nat p d n : map (fun i => tile_at g (cellat p d i)) (range (Z.of_nat n)) = map (fun i => tile_at g (cellat p d (Z.of_nat i))) (seq 0 n).
  Proof. unfold range. rewrite Nat2Z.id, map_map. reflexivity. Qed.

  Lemma expand_list_exact p d m cs : inside A p -> (1 <= m)%nat -> (forall i, 0 <= i < Z.of_nat (S m) + 2 -> ahead A p d i = Some (cellat p d i)) ->
    expand_clauses d (map (fun i => tile_at g (cellat p d i)) (range (Z.of_nat (S m) + 2))) = Some cs ->
    (sat a cs = true <-> ~ late_entrance A T p d (Z.of_nat (S m)) /\ ~ early_exit A T p d (Z.of_nat (S m))).
  Proof.
    intros Hp Hm Al E. replace (Z.of_nat (S m) + 2) with (Z.of_nat (S m + 2)) in E by lia. rewrite line_nat, expand_list in E. apply Some_inj in E. subst cs.
    assert (In_ : forall i, 0 <= i < Z.of_nat (S m) + 2 -> inside A (cellat p d i)) by (intros i Hi; eapply ahead_inside; apply Al; exact Hi).
    assert (Sh : forall i j, 0 <= i -> 0 <= i + j < Z.of_nat (S m) + 2 -> 0 <= j -> ahead A (cellat p d i) d j = Some (cellat p d (i + j))).
    { intros i j Hi Hij Hj. rewrite (ahead_add A p d i j _ HA (Al i ltac:(lia))). apply Al. lia. }
    rewrite !sat_cons_iff, sat_nil, !satc_true. rewrite !satc_f_app, !satc_f_map, !satc_f_cons, !satc_f_nil. unfold not_straight. rewrite !satc_f_cons, !satc_f_nil.
    assert (J0 : inside A (cellat p d (Z.of_nat 0))) by (apply In_; lia). assert (Jl : inside A (cellat p d (Z.of_nat (S (S m))))) by (apply In_; lia).
    rewrite !evl_neg_f by oks. vars. change (Z.of_nat 0) with 0 in *. rewrite (cellat_0 p d Hp) in *.
    assert (M : forall s, (1 <= s <= 2)%nat -> (forall x, In x (seq s m) -> evl a (- underground (tile_at g (cellat p d (Z.of_nat x))) d) = false) <->
      (forall j, Z.of_nat s <= j < Z.of_nat (s + m) -> vu (V (cellat p d j)) d = true)).
    { intros s Hs. split.
      - intros H j Hj. specialize (H (Z.to_nat j)). rewrite Z2Nat.id in H by lia. assert (Ij : inside A (cellat p d j)) by (apply In_; lia).
        rewrite evl_neg_f in H by oks. apply H. apply in_seq. lia.
      - intros H x Hx. apply in_seq in Hx. assert (Ij : inside A (cellat p d (Z.of_nat x))) by (apply In_; lia). rewrite evl_neg_f by oks. apply H. lia. }
    rewrite (M 2%nat), (M 1%nat) by lia. clear M.
    assert (C1 : ((vi (V p) d = true /\ vo (V p) d = true /\ vb (V p) = true /\ True) /\ (vu (V (cellat p d (Z.of_nat 1))) d = false /\ True) /\
                  (forall j, Z.of_nat 2 <= j < Z.of_nat (2 + m) -> vu (V (cellat p d j)) d = true) /\ vu (V (cellat p d (Z.of_nat (S (S m))))) d = false /\ True) <-> late_entrance A T p d (Z.of_nat (S m))).
    { change (Z.of_nat 1) with 1. split.
      - intros ((H1 & H2 & H3 & _) & (H4 & _) & H5 & H6 & _). exists (cellat p d 1), (cellat p d (Z.of_nat (S (S m)))).
        split; [apply Al; lia|]. split; [apply is_belt_at; auto using is_belt_v|]. apply vu_bore; auto.
        + apply In_; lia.
        + lia.
        + rewrite Sh by lia. do 2 f_equal. lia.
        + intros j Hj. exists (cellat p d (1 + j)). split; [apply Sh; lia|apply H5; lia].
      - intros (p' & q & N & B1 & B2). unfold neighbour in N. rewrite (Al 1 ltac:(lia)) in N. apply Some_inj in N. subst p'.
        assert (I1 : inside A (cellat p d 1)) by (apply In_; lia).
        destruct (belt_at _ _ _ Hp B1) as (? & ? & _ & ?). split; [tauto|]. pose proof B2 as (_ & U1 & U2 & Eq & _).
        rewrite Sh in Eq by lia. apply Some_inj in Eq. replace (1 + Z.of_nat (S m)) with (Z.of_nat (S (S m))) in Eq by lia. subst q.
        split; [split; [apply (uin_vu _ _ I1 U1)|trivial]|]. split; [|split; [apply (uout_vu _ _ Jl U2)|trivial]].
        intros j Hj. apply (bore_vu _ _ _ _ I1 B2 (j - 1)); [lia|]. rewrite Sh by lia. do 2 f_equal. lia. }
    assert (C2 : ((vu (V p) d = false /\ True) /\ (forall j, Z.of_nat 1 <= j < Z.of_nat (1 + m) -> vu (V (cellat p d j)) d = true) /\
                  (vu (V (cellat p d (Z.of_nat (S m)))) d = false /\ True) /\
                  vi (V (cellat p d (Z.of_nat (S (S m))))) d = true /\ vo (V (cellat p d (Z.of_nat (S (S m))))) d = true /\ vb (V (cellat p d (Z.of_nat (S (S m))))) = true /\ True)
              <-> early_exit A T p d (Z.of_nat (S m))).
    { split.
      - intros ((H1 & _) & H2 & (H3 & _) & H4 & H5 & H6 & _). exists (cellat p d (Z.of_nat (S m))), (cellat p d (Z.of_nat (S (S m)))).
        split; [|split; [unfold neighbour; rewrite Sh by lia; do 2 f_equal; lia|apply is_belt_at; auto using is_belt_v]].
        apply vu_bore; auto; [lia|apply Al; lia|]. intros j Hj. exists (cellat p d j). split; [apply Al; lia|apply H2; lia].
      - intros (q & q' & B & N & B1). pose proof B as (_ & U1 & U2 & Eq & _). rewrite (Al (Z.of_nat (S m)) ltac:(lia)) in Eq. apply Some_inj in Eq. subst q.
        unfold neighbour in N. rewrite Sh in N by lia. apply Some_inj in N. replace (Z.of_nat (S m) + 1) with (Z.of_nat (S (S m))) in N by lia. subst q'.
        destruct (belt_at _ _ _ Jl B1) as (? & ? & _ & ?). assert (Im : inside A (cellat p d (Z.of_nat (S m)))) by (apply In_; lia).
        split; [split; [apply (uin_vu _ _ Hp U1)|trivial]|]. split; [|split; [split; [apply (uout_vu _ _ Im U2)|trivial]|tauto]].
        intros j Hj. apply (bore_vu _ _ _ _ Hp B j); [lia|]. apply Al. lia. }
    rewrite <- C1, <- C2. tauto.
  Qed.

  Lemma region_in min_x min_y max_x max_y p : In p (region min_x min_y max_x max_y) <-> in_region min_x min_y max_x max_y p.
  Proof.
    unfold region, in_region. rewrite in_flat_map. split.
    - intros (x & Hx & Hp). apply in_map_iff in Hp. destruct Hp as (y & <- & Hy). apply range_from_in in Hx. apply range_from_in in Hy. cbn [fst snd]. lia.
    - intros [Hx Hy]. exists (fst p). split; [apply range_from_in; lia|]. apply in_map_iff. exists (snd p). split; [destruct p; reflexivity|apply range_from_in; lia].
  Qed.
  Lemma out_of_region_iff min_x min_y max_x max_y x y : out_of_region min_x min_y max_x max_y x y = false <-> in_region min_x min_y max_x max_y (x, y).
  Proof. unfold out_of_region, in_region. rewrite !orb_false_iff, !Z.ltb_ge. cbn [fst snd]. lia. Qed.
  Lemma region_line min_x min_y max_x max_y p d k i : 0 <= i <= k -> in_region min_x min_y max_x max_y p -> in_region min_x min_y max_x max_y (far p d k) ->
    in_region min_x min_y max_x max_y (far p d i).
  Proof. unfold in_region, far. cbn [fst snd]. intros Hi [Hx Hy] [Kx Ky]. destruct d; cbn [step_x step_y] in *; lia. Qed.

  Lemma oflat_sat {X} (f : X -> option cnf) (P : X -> Prop) l :
    (forall x, In x l -> exists c, f x = Some c /\ (sat a c = true <-> P x)) ->
    exists cs, oflat f l = Some cs /\ (sat a cs = true <-> forall x, In x l -> P x).
  Proof.
    intros H. unfold oflat. induction l as [|x l IH].
    - exists []. split; [reflexivity|]. split; [intros _ x []|reflexivity].
    - destruct (H x (or_introl eq_refl)) as (c & Ec & Hc). destruct IH as (cs & Ecs & Hcs); [intros y Hy; apply H; right; exact Hy|].
      cbn [omap]. rewrite Ec. cbn [obind]. destruct (omap f l) as [css|]; [|discriminate]. cbn [obind] in *. apply Some_inj in Ecs. subst cs.
      eexists. split; [reflexivity|]. cbn [concat]. rewrite sat_app_iff, Hc, Hcs. split.
      + intros [H1 H2] y [<-|Hy]; auto.
      + intros HH. split; [apply HH; left; reflexivity|intros y Hy; apply HH; right; exact Hy].
  Qed.

  Lemma expand_exact l min_x min_y mx my : glen g = Some l ->
    let max_x := upper (width (geo g)) mx in let max_y := upper (height (geo g)) my in
    0 <= min_x -> 0 <= min_y -> max_x < width (geo g) -> max_y < height (geo g) ->
    exists cs, expand_underground g min_x min_y mx my = Some cs /\
      (sat a cs = true <-> forall p d k, 2 <= k <= l -> in_region min_x min_y max_x max_y p -> in_region min_x min_y max_x max_y (far p d (k + 1)) ->
         ~ late_entrance A T p d k /\ ~ early_exit A T p d k).
  Proof.
    intros El max_x max_y H1 H2 H3 H4. unfold expand_underground. rewrite El. fold max_x max_y.
    edestruct (oflat_sat (fun ul => oflat (fun p => oflat (fun d =>
        if out_of_region min_x min_y max_x max_y (fst p + dx d * (ul + 1)) (snd p + dy d * (ul + 1)) then Some [] else
        let* ts := present_tiles g (line_of g p d (ul + 2)) in expand_clauses d ts) directions)
        (region min_x min_y max_x max_y))
      (fun k => forall p, In p (region min_x min_y max_x max_y) -> forall d, In d directions -> in_region min_x min_y max_x max_y (far p d (k + 1)) ->
         ~ late_entrance A T p d k /\ ~ early_exit A T p d k)) as (cs & Ecs & Hcs).
    2:{ exists cs. split; [exact Ecs|]. rewrite Hcs. split.
        - intros H p d k Hk Hp Hq. apply H; [apply range_from_in; lia|apply region_in; exact Hp|apply directions_all|exact Hq].
        - intros H k Hk p Hp d _ Hq. apply range_from_in in Hk. apply H; [lia|apply region_in; exact Hp|exact Hq]. }
    intros k Hk. apply range_from_in in Hk. apply oflat_sat. intros p Hp. apply region_in in Hp. apply oflat_sat. intros d _.
    replace (fst p + dx d * (k + 1), snd p + dy d * (k + 1)) with (far p d (k + 1)) by (unfold far; rewrite dx_step, dy_step; f_equal; ring).
    replace (fst p + dx d * (k + 1)) with (fst (far p d (k + 1))) by (unfold far; cbn [fst]; rewrite dx_step; ring).
    replace (snd p + dy d * (k + 1)) with (snd (far p d (k + 1))) by (unfold far; cbn [snd]; rewrite dy_step; ring).
    destruct (out_of_region min_x min_y max_x max_y (fst (far p d (k + 1))) (snd (far p d (k + 1)))) eqn:Eo.
    { exists []. split; [reflexivity|]. split; [|reflexivity]. intros _ Hq. exfalso. rewrite (surjective_pairing (far p d (k + 1))) in Hq. apply out_of_region_iff in Hq. congruence. }
    apply out_of_region_iff in Eo. rewrite <- surjective_pairing in Eo.
    assert (Ip : inside A p) by (unfold in_region in Hp; split; cbn; lia).
    destruct (line_tiles p d (k + 2) Ip) as [(_ & i & Hi & Ei)|(-> & Al)].
    - exfalso. assert (R : in_region min_x min_y max_x max_y (far p d i)) by (apply (region_line _ _ _ _ p d (k + 1)); auto; lia).
      unfold ahead in Ei. fold (far p d i) in Ei. rewrite place_self in Ei; [discriminate|]. unfold in_region in R. split; [change (0 <= fst (far p d i) < width (geo g))|change (0 <= snd (far p d i) < height (geo g))]; lia.
    - cbn [obind]. pose proof (expand_list (fun i => tile_at g (cellat p d (Z.of_nat i))) d (Z.to_nat (k - 1))) as EL. rewrite <- line_nat in EL.
      replace (Z.of_nat (S (Z.to_nat (k - 1)) + 2)) with (k + 2) in EL by lia.
      eexists. split; [exact EL|].
      pose proof (fun cs => expand_list_exact p d (Z.to_nat (k - 1)) cs Ip) as EX. replace (Z.of_nat (S (Z.to_nat (k - 1)))) with k in EX by lia.
      rewrite (EX _ ltac:(lia) Al EL). tauto.
  Qed.

  Lemma expand_infinite_exact min_x min_y mx my : glen g = None ->
    let max_x := upper (width (geo g)) mx in let max_y := upper (height (geo g)) my in
    0 <= min_x -> 0 <= min_y -> max_x < width (geo g) -> max_y < height (geo g) ->
    exists cs, expand_underground g min_x min_y mx my = Some cs /\
      (sat a cs = true <-> forall p d, in_region min_x min_y max_x max_y p -> in_region min_x min_y max_x max_y (far p d 1) ->
         ~ (T p = Belt d d /\ T (far p d 1) = Underground d true) /\ ~ (T p = Underground d false /\ T (far p d 1) = Belt d d)).
  Proof.
    intros El max_x max_y H1 H2 H3 H4. unfold expand_underground. rewrite El. unfold expand_underground_infinite. fold max_x max_y.
    edestruct (oflat_sat (fun p => oflat (fun d =>
        if out_of_region min_x min_y max_x max_y (fst p + dx d * 1) (snd p + dy d * 1) then Some [] else
        let* ts := present_tiles g (line_of g p d 2) in match ts with [t0; t1] => Some (expand_infinite_clauses d t0 t1) | _ => None end) directions)
      (fun p => forall d, In d directions -> in_region min_x min_y max_x max_y (far p d 1) ->
         ~ (T p = Belt d d /\ T (far p d 1) = Underground d true) /\ ~ (T p = Underground d false /\ T (far p d 1) = Belt d d))) as (cs & Ecs & Hcs).
    2:{ exists cs. split; [exact Ecs|]. rewrite Hcs. split.
        - intros H p d Hp Hq. apply H; [apply region_in; exact Hp|apply directions_all|exact Hq].
        - intros H p Hp d _ Hq. apply H; [apply region_in; exact Hp|exact Hq]. }
    intros p Hp. apply region_in in Hp. apply oflat_sat. intros d _.
    replace (fst p + dx d * 1) with (fst (far p d 1)) by (unfold far; cbn [fst]; rewrite dx_step; ring).
    replace (snd p + dy d * 1) with (snd (far p d 1)) by (unfold far; cbn [snd]; rewrite dy_step; ring).
    destruct (out_of_region min_x min_y max_x max_y (fst (far p d 1)) (snd (far p d 1))) eqn:Eo.
    { exists []. split; [reflexivity|]. split; [|reflexivity]. intros _ Hq. exfalso. rewrite (surjective_pairing (far p d 1)) in Hq. apply out_of_region_iff in Hq. congruence. }
    apply out_of_region_iff in Eo. rewrite <- surjective_pairing in Eo.
    assert (Ip : inside A p) by (unfold in_region in Hp; split; cbn; lia).
    assert (Iq : inside A (far p d 1)) by (unfold in_region in Eo; split; [change (0 <= fst (far p d 1) < width (geo g))|change (0 <= snd (far p d 1) < height (geo g))]; lia).
    assert (N : neighbour A p d = Some (far p d 1)) by (unfold neighbour, ahead; fold (far p d 1); apply place_self; exact Iq).
    destruct (line_tiles p d 2 Ip) as [(_ & i & Hi & Ei)|(-> & Al)].
    { exfalso. assert (i = 0 \/ i = 1) as [-> | ->] by lia; [rewrite ahead_0 in Ei by exact Ip; discriminate|unfold neighbour in N; congruence]. }
    cbn [obind]. change (range 2) with [0; 1]. cbn [map]. rewrite (cellat_0 p d Ip).
    replace (cellat p d 1) with (far p d 1) by (unfold cellat; unfold neighbour in N; rewrite N; reflexivity).
    eexists. split; [reflexivity|]. unfold expand_infinite_clauses, not_straight. rewrite !sat_cons_iff, sat_nil, !satc_true. clauses_f.
    pose proof (lnk p d _ Ip N) as L. split.
    - intros (N1 & N2 & _) _. split; intros (B1 & B2).
      + apply N1. destruct (belt_at _ _ _ Ip B1) as (? & ? & _ & ?). destruct (ui_at _ _ Iq B2). tauto.
      + apply N2. destruct (belt_at _ _ _ Iq B2) as (? & ? & _ & ?). destruct (uo_at _ _ Ip B1). tauto.
    - intros H. destruct (H Eo) as [X1 X2]. split; [|split; [|reflexivity]].
      + intros ((? & ? & ? & _) & ? & ? & _). apply X1. split; [apply is_belt_at; auto using is_belt_v|apply is_ui_at; auto].
      + intros ((? & ? & _) & ? & ? & ? & _). apply X2. split; [apply is_uo_at; auto; congruence|apply is_belt_at; auto using is_belt_v].
  Qed.

  (** ** Two tunnels that could be one *)
  Lemma map_const {X Y} (f : X -> Y) b l : (forall x, In x l -> f x = b) -> map f l = repeat b (length l).
  Proof. induction l as [|x l IH]; intros H; [reflexivity|]. cbn. rewrite (H x (or_introl eq_refl)), IH; [reflexivity|intros y Hy; apply H; right; exact Hy]. Qed.
  Definition variation (ul o : Z) (i : nat) : bool := let j := Z.of_nat i in ((1 <=? j) && (j <=? o)) || ((o + 3 <=? j) && (j <=? ul)).
  Lemma variation_list ul o : 1 <= o -> o + 2 <= ul ->
    ([false] ++ repeat true (Z.to_nat o) ++ [false; false] ++ repeat true (Z.to_nat (ul - o - 2)) ++ [false])%list = map (variation ul o) (seq 0 (Z.to_nat (ul + 2))).
  Proof.
    intros H1 H2. replace (Z.to_nat (ul + 2)) with (1 + (Z.to_nat o + (2 + (Z.to_nat (ul - o - 2) + 1))))%nat by lia.
    rewrite !seq_app, !map_app.
    assert (C : forall b s n, (forall i, (s <= i < s + n)%nat -> variation ul o i = b) -> map (variation ul o) (seq s n) = repeat b n).
    { intros b s n H. rewrite (map_const _ b); [rewrite seq_length; reflexivity|]. intros i Hi. apply H. apply in_seq in Hi. exact Hi. }
    assert (V1 : forall i, variation ul o i = true <-> (1 <= Z.of_nat i <= o) \/ (o + 3 <= Z.of_nat i <= ul)).
    { intros i. unfold variation. cbv zeta. rewrite orb_true_iff, !andb_true_iff, !Z.leb_le. lia. }
    assert (V2 : forall i, ~ ((1 <= Z.of_nat i <= o) \/ (o + 3 <= Z.of_nat i <= ul)) -> variation ul o i = false).
    { intros i H. destruct (variation ul o i) eqn:E; [|reflexivity]. apply V1 in E. contradiction. }
    symmetry. repeat apply (f_equal2 (@app bool)); (reflexivity || (apply (C true); intros i Hi; apply V1; lia) || (apply (C false _ 2%nat); intros i Hi; apply V2; lia) || (apply (C false _ 1%nat); intros i Hi; apply V2; lia)).
  Qed.
  Lemma combine_map {X Y Z} (f : X -> Y) (h : X -> Z) l : combine (map f l) (map h l) = map (fun x => (f x, h x)) l.
  Proof. induction l as [|x l IH]; [reflexivity|]. cbn. rewrite IH. reflexivity. Qed.

  Lemma mergeable_exact : sat a (prevent_mergeable_underground g) = true <->
    forall p d k, inside A p -> k <= useful_length g + 1 -> ~ double_tunnel A T p d k.
  Proof.
    unfold prevent_mergeable_underground. rewrite sat_flat_map.
    assert (X : forall ul p d, 4 <= ul -> inside A p -> (sat a (mergeable_at g ul p d) = true <-> ~ double_tunnel A T p d (ul + 1))).
    { intros ul p d Hu Hp. unfold mergeable_at.
      destruct (line_tiles p d (ul + 2) Hp) as [(-> & i & Hi & Ei)|(-> & Al)].
      { split; [|reflexivity]. intros _ (k1 & q & p' & q' & B1 & N & B2). pose proof B1 as (K1 & _ & _ & Eq & C1). pose proof B2 as (K2 & _ & _ & Eq' & C2).
        rewrite (ahead_next p d k1 q Eq) in N.
        assert (AS : forall j, 0 <= j -> ahead A p' d j = ahead A p d (k1 + 1 + j)) by (intros j Hj; apply ahead_add; [exact HA|exact N]).
        destruct (Z_lt_le_dec i k1); [destruct (Z.eq_dec i 0) as [->|]; [rewrite ahead_0 in Ei by exact Hp; discriminate|destruct (C1 i) as (r & Er & _); [lia|congruence]]|].
        destruct (Z.eq_dec i k1) as [->|]; [congruence|]. destruct (Z.eq_dec i (k1 + 1)) as [->|]; [congruence|].
        destruct (Z.eq_dec i (ul + 1)) as [->|]; [rewrite AS in Eq' by lia; replace (k1 + 1 + (ul + 1 - k1 - 1)) with (ul + 1) in Eq' by lia; congruence|].
        destruct (C2 (i - k1 - 1)) as (r & Er & _); [lia|]. rewrite AS in Er by lia. replace (k1 + 1 + (i - k1 - 1)) with i in Er by lia. congruence. }
      assert (In_ : forall i, 0 <= i < ul + 2 -> inside A (cellat p d i)) by (intros i Hi; eapply ahead_inside; apply Al; exact Hi).
      assert (Sh : forall i j, 0 <= i -> 0 <= j -> i + j < ul + 2 -> ahead A (cellat p d i) d j = Some (cellat p d (i + j))).
      { intros i j Hi Hj Hij. rewrite (ahead_add A p d i j _ HA (Al i ltac:(lia))). apply Al. lia. }
      unfold mergeable_variations. destruct (Z.ltb_spec ul 4); [lia|]. rewrite map_map, sat_map_iff.
      assert (Y : forall o, 1 <= o < ul - 2 ->
        (satc a (map (fun tb : tvars * bool => - set_literal (underground (fst tb) d) (snd tb))
           (combine (map (fun i => tile_at g (cellat p d i)) (range (ul + 2))) ([false] ++ repeat true (Z.to_nat o) ++ [false; false] ++ repeat true (Z.to_nat (ul - o - 2)) ++ [false])%list)) = false <->
         forall j, 0 <= j < ul + 2 -> vu (V (cellat p d j)) d = variation ul o (Z.to_nat j))).
      { intros o Ho. rewrite variation_list by lia. unfold range. rewrite map_map, combine_map, map_map, satc_f_map. cbn [fst snd].
        assert (E1 : forall i b, inside A (cellat p d i) -> (evl a (- set_literal (underground (tile_at g (cellat p d i)) d) b) = false <-> vu (V (cellat p d i)) d = b)).
        { intros i b Ii. unfold set_literal. destruct b; [rewrite evl_neg_f by oks; reflexivity|]. rewrite Z.opp_involutive. reflexivity. }
        split.
        - intros H1 j Hj. specialize (H1 (Z.to_nat j)). rewrite Z2Nat.id in H1 by lia. rewrite E1 in H1 by (apply In_; lia). apply H1. apply in_seq. lia.
        - intros H1 x Hx. apply in_seq in Hx. apply E1; [apply In_; lia|]. rewrite H1 by lia. rewrite Nat2Z.id. reflexivity. }
      assert (Tr : forall o j, 0 <= j -> variation ul o (Z.to_nat j) = true <-> (1 <= j <= o) \/ (o + 3 <= j <= ul)).
      { intros o j Hj. unfold variation. cbv zeta. rewrite Z2Nat.id, orb_true_iff, !andb_true_iff, !Z.leb_le by lia. lia. }
      assert (Fa : forall o j, 0 <= j -> ~ ((1 <= j <= o) \/ (o + 3 <= j <= ul)) -> variation ul o (Z.to_nat j) = false).
      { intros o j Hj HN. destruct (variation ul o (Z.to_nat j)) eqn:E; [|reflexivity]. apply Tr in E; [contradiction|exact Hj]. }
      split.
      - intros S1 (k1 & q & p' & q' & B1 & N & B2). pose proof B1 as (K1 & U1 & U2 & Eq & C1). pose proof B2 as (K2 & U3 & U4 & Eq' & C2).
        rewrite (ahead_next p d k1 q Eq) in N. rewrite (Al k1 ltac:(lia)) in Eq. rewrite (Al (k1 + 1) ltac:(lia)) in N. apply Some_inj in Eq, N. subst q p'.
        rewrite Sh in Eq' by lia. apply Some_inj in Eq'. replace (k1 + 1 + (ul + 1 - k1 - 1)) with (ul + 1) in Eq' by lia. subst q'.
        specialize (S1 (k1 - 1)). rewrite satc_true in S1. apply S1; [apply range_from_in; lia|]. apply Y; [lia|]. intros j Hj.
        pose proof (fun r Hr => bore_vu p d k1 _ Hp B1 j r Hr) as G1. pose proof (fun r Hr => bore_vu _ d _ _ (In_ (k1 + 1) ltac:(lia)) B2 (j - k1 - 1) r Hr) as G2.
        destruct (Z.eq_dec j 0) as [->|]; [rewrite Fa by lia; rewrite (cellat_0 p d Hp); apply (uin_vu p d Hp U1)|].
        destruct (Z_lt_le_dec j k1); [rewrite (proj2 (Tr (k1 - 1) j ltac:(lia)) ltac:(lia)); apply G1; [lia|apply Al; lia]|].
        destruct (Z.eq_dec j k1) as [->|]; [rewrite Fa by lia; apply (uout_vu _ _ (In_ k1 ltac:(lia)) U2)|].
        destruct (Z.eq_dec j (k1 + 1)) as [->|]; [rewrite Fa by lia; apply (uin_vu _ _ (In_ (k1 + 1) ltac:(lia)) U3)|].
        destruct (Z.eq_dec j (ul + 1)) as [->|]; [rewrite Fa by lia; apply (uout_vu _ _ (In_ (ul + 1) ltac:(lia)) U4)|].
        rewrite (proj2 (Tr (k1 - 1) j ltac:(lia)) ltac:(lia)). apply G2; [lia|]. rewrite Sh by lia. do 2 f_equal. lia.
      - intros N o Ho. apply range_from_in in Ho. rewrite satc_true. intros Hf. pose proof (proj1 (Y o ltac:(lia)) Hf) as Hg. clear Hf. rename Hg into Hf. apply N.
        exists (o + 1), (cellat p d (o + 1)), (cellat p d (o + 2)), (cellat p d (ul + 1)).
        assert (Vf : forall j, 0 <= j < ul + 2 -> ~ ((1 <= j <= o) \/ (o + 3 <= j <= ul)) -> vu (V (cellat p d j)) d = false) by (intros j Hj Hn; rewrite Hf by exact Hj; apply Fa; lia).
        assert (Vt : forall j, 0 <= j < ul + 2 -> ((1 <= j <= o) \/ (o + 3 <= j <= ul)) -> vu (V (cellat p d j)) d = true) by (intros j Hj Hn; rewrite Hf by exact Hj; apply Tr; lia).
        split; [|split].
        + apply vu_bore; auto; [lia|apply Al; lia|rewrite <- (cellat_0 p d Hp) at 1; apply Vf; lia|apply Vf; lia|].
          intros j Hj. exists (cellat p d j). split; [apply Al; lia|apply Vt; lia].
        + unfold neighbour. rewrite Sh by lia. do 2 f_equal. lia.
        + apply vu_bore; [apply In_; lia|lia|rewrite Sh by lia; do 2 f_equal; lia|apply Vf; lia|apply Vf; lia|].
          intros j Hj. exists (cellat p d (o + 2 + j)). split; [apply Sh; lia|apply Vt; lia]. }
    split.
    - intros H p d k Hp Hk D. assert (5 <= k) by (destruct D as (k1 & q & p' & q' & (K1 & _) & _ & (K2 & _)); lia).
      specialize (H (k - 1) ltac:(apply range_from_in; lia)). rewrite (tiles_sat g a) in H. specialize (H p Hp). rewrite (dirs_sat a) in H. specialize (H d).
      apply X in H; [|lia|exact Hp]. replace (k - 1 + 1) with k in H by lia. contradiction.
    - intros H ul Hu. apply range_from_in in Hu. apply (tiles_sat g a). intros p Hp. apply (dirs_sat a). intros d. apply X; [lia|exact Hp|]. apply H; [exact Hp|lia].
  Qed.

  (** ** Hooks into and out of tunnels *)
  Lemma underground_hook_at_exact p d t : inside A p -> perpendicular d t ->
    (sat a (underground_hook_at g p d t) = true <-> ~ ((exists i, hook_to_entrance A T p d t i) \/ exists o, hook_from_exit A T p d t o)).
  Proof.
    intros Hp Pd. unfold underground_hook_at.
    replace (offset g p (dx d) (dy d)) with (neighbour A p d) by (symmetry; apply (offset_neighbour g W)).
    replace (offset g p (- dx d) (- dy d)) with (neighbour A p (opposite d)) by (symmetry; apply (offset_back g W)).
    replace (offset g p (- dx t) (- dy t)) with (neighbour A p (opposite t)) by (symmetry; apply (offset_back g W)).
    replace (offset g p (- dx t - dx d) (- dy t - dy d)) with (spot A p d (-1) t (-1)) by (rewrite <- offset_spot; unfold offset2; f_equal; ring).
    destruct (neighbour A p d) as [pe|] eqn:Ne; [destruct (neighbour A p (opposite d)) as [pa|] eqn:Na; [destruct (spot A p d (-1) t (-1)) as [pb|] eqn:Eb; [destruct (neighbour A p (opposite t)) as [pc|] eqn:Nc|]|]|].
    2-5: split; [intros _ [(i & qe & qa & qb & qc & M1 & M2 & M3 & M4 & _)|(i & qe & qa & qb & qc & M1 & M2 & M3 & M4 & _)]; congruence|intros _; reflexivity].
    assert (Ie : inside A pe) by (eapply nbr_in; exact Ne). assert (Ia : inside A pa) by (eapply nbr_in; exact Na).
    assert (Ib : inside A pb) by (eapply spot_inside; exact Eb). assert (Ic : inside A pc) by (eapply nbr_in; exact Nc).
    assert (Sa : spot A p d (-1) t 0 = Some pa).
    { rewrite <- Na. unfold neighbour, ahead, spot. apply (f_equal (place A)). apply pair_equal_spec. destruct d; cbn [step_x step_y opposite]; split; ring. }
    assert (Sc : spot A p d 0 t (-1) = Some pc).
    { rewrite <- Nc. unfold neighbour, ahead, spot. apply (f_equal (place A)). apply pair_equal_spec. destruct t; cbn [step_x step_y opposite]; split; ring. }
    assert (Nap : neighbour A pa d = Some p) by (pose proof (neighbour_back A p (opposite d) pa HA Hp Na) as X; rewrite opposite_opposite in X; exact X).
    assert (Nba : neighbour A pb t = Some pa) by (rewrite (spot_step_t A p d (-1) t (-1) pb HA Eb); exact Sa).
    assert (Nbc : neighbour A pb d = Some pc) by (rewrite (spot_step_d A p d (-1) t (-1) pb HA Eb); exact Sc).
    assert (Ncb : neighbour A pc (opposite d) = Some pb) by (apply neighbour_back; auto).
    assert (Nab : neighbour A pa (opposite t) = Some pb) by (apply neighbour_back; auto).
    pose proof (lnk pa d p Ia Nap) as L1. pose proof (lnk pb t pa Ib Nba) as L2. pose proof (lnk pc (opposite d) pb Ic Ncb) as L3.
    pose proof (lnk p (opposite d) pa Hp Na) as R1. pose proof (lnk pa (opposite t) pb Ia Nab) as R2. pose proof (lnk pb d pc Ib Nbc) as R3.
    assert (Nd : t <> d /\ opposite d <> t /\ opposite d <> opposite t /\ opposite t <> d) by (destruct Pd as [-> | ->], d; repeat split; discriminate).
    destruct (Ur p d Hp) as (_ & UF & _). specialize (UF pe Ne). destruct UF as [UF1 UF2].
    assert (Nep : neighbour A pe (opposite d) = Some p) by (apply neighbour_back; auto).
    destruct (Ur pe d Ie) as (_ & _ & UB). specialize (UB p Nep). destruct UB as [UB1 UB2].
    assert (Npe : neighbour A p (opposite (opposite d)) = Some pe) by (rewrite opposite_opposite; exact Ne).
    destruct (Ur p (opposite d) Hp) as (_ & _ & UC). specialize (UC pe Npe). destruct UC as [UC1 UC2].
    destruct (Ur pe (opposite d) Ie) as (_ & UD & _). specialize (UD p Nep). destruct UD as [UD1 UD2].
    rewrite sat_app_iff, !sat_map_iff.
    assert (X1 : forall i, In i [reverse d; t] ->
      (satc a (all_direction (tile_at g pe) ++ [- underground (tile_at g pe) d; underground (tile_at g p) d; - input_dir (tile_at g pa) t;
               - input_dir (tile_at g pb) (reverse d); - input_dir (tile_at g pc) i; is_splitter (tile_at g pc)]) = true <-> ~ hook_to_entrance A T p d t i)).
    { intros i Hi. rewrite satc_true, reverse_opp in *. clauses_f. split; intros N H; apply N; clear N.
      - destruct H as (qe & qa & qb & qc & M1 & M2 & M3 & M4 & _ & B1 & B2 & B3 & B4 & B5).
        rewrite Ne in M1. rewrite Na in M2. rewrite Eb in M3. rewrite Nc in M4. apply Some_inj in M1, M2, M3, M4. subst qe qa qb qc.
        destruct (belt_at _ _ _ Ic B1) as (? & ? & ? & ?). destruct (belt_at _ _ _ Ib B2) as (? & ? & _). destruct (belt_at _ _ _ Ia B3) as (? & ? & _).
        destruct (ui_at _ _ Hp B4). destruct (uin_vu _ _ Hp B4). destruct (empty_at _ Ie B5) as (? & ? & _). tauto.
      - destruct H as ((H1 & H2) & H3 & H4 & H5 & H6 & H7 & H8 & _). destruct (UB2 H3 H4) as [U1 U2].
        exists pe, pa, pb, pc. repeat (split; [assumption|]). split; [cbn in Hi; intuition|].
        split; [apply is_belt_at; auto; congruence|]. split; [apply is_turn_at; intuition congruence|]. split; [apply is_turn_at; intuition congruence|].
        split; [apply is_ui_at; auto|apply is_empty_at; auto]. }
    assert (X2 : forall o, In o [d; reverse t] ->
      (satc a (all_direction (tile_at g pe) ++ [- underground (tile_at g pe) (reverse d); underground (tile_at g p) (reverse d); - output_dir (tile_at g pa) (reverse t);
               - output_dir (tile_at g pb) d; - output_dir (tile_at g pc) o; is_splitter (tile_at g pc)]) = true <-> ~ hook_from_exit A T p d t o)).
    { intros o Ho. rewrite satc_true, !reverse_opp in *. clauses_f. split; intros N H; apply N; clear N.
      - destruct H as (qe & qa & qb & qc & M1 & M2 & M3 & M4 & _ & B1 & B2 & B3 & B4 & B5).
        rewrite Ne in M1. rewrite Na in M2. rewrite Eb in M3. rewrite Nc in M4. apply Some_inj in M1, M2, M3, M4. subst qe qa qb qc.
        destruct (belt_at _ _ _ Ia B2) as (? & ? & _). destruct (belt_at _ _ _ Ib B3) as (? & ? & _). destruct (belt_at _ _ _ Ic B4) as (? & ? & ? & ?).
        destruct (uo_at _ _ Hp B1). destruct (uout_vu _ _ Hp B1) as [V1 _]. destruct (empty_at _ Ie B5) as (? & ? & _). tauto.
      - destruct H as ((H1 & H2) & H3 & H4 & H5 & H6 & H7 & H8 & _). destruct (UD2 H3 H4) as [U1 U2].
        exists pe, pa, pb, pc. repeat (split; [assumption|]). split; [cbn in Ho; intuition|].
        split; [apply is_uo_at; auto|]. split; [apply is_turn_at; intuition congruence|]. split; [apply is_turn_at; intuition congruence|].
        split; [apply is_belt_at; auto; congruence|apply is_empty_at; auto]. }
    split.
    - intros [H1 H2] [(i & H)|(o & H)].
      + assert (Hi : In i [reverse d; t]) by (destruct H as (? & ? & ? & ? & _ & _ & _ & _ & Hi & _); rewrite reverse_opp; cbn; intuition). apply (X1 i Hi); auto.
      + assert (Ho : In o [d; reverse t]) by (destruct H as (? & ? & ? & ? & _ & _ & _ & _ & Ho & _); rewrite reverse_opp; cbn; intuition). apply (X2 o Ho); auto.
    - intros N. split; [intros i Hi; apply (X1 i Hi)|intros o Ho; apply (X2 o Ho)]; intros H; apply N; eauto.
  Qed.
  Lemma underground_hook_exact : sat a (prevent_underground_hook g) = true <->
    forall p d t, inside A p -> perpendicular d t -> ~ ((exists i, hook_to_entrance A T p d t i) \/ exists o, hook_from_exit A T p d t o).
  Proof. apply (pdt_sat (underground_hook_at g) (fun p d t => (exists i, hook_to_entrance A T p d t i) \/ exists o, hook_from_exit A T p d t o)). exact underground_hook_at_exact. Qed.
End Pattern.

(** prevent_spirals adds no clause. *)
Lemma spirals_none g f : spiral_clauses g f = [].
Proof.
  unfold spiral_clauses.
  assert (X : forall {X} (F : X -> cnf) l, (forall x, F x = []) -> flat_map F l = []).
  { intros X F l H. induction l as [|x l IH]; [reflexivity|]. cbn. rewrite H. exact IH. }
  apply X. intros d. apply X. intros t. unfold iterate_tile_blocks. rewrite !vec_step.
  replace (Z.abs (step_x t) + Z.abs (step_y t) =? 1) with true by (destruct t; reflexivity).
  replace (Z.abs (step_x d) + Z.abs (step_y d) =? 1) with true by (destruct d; reflexivity). cbn [negb Z.ltb Z.compare].
  change (range 3) with [0; 1; 2]. cbn [map].
  induction (filter _ (iterate_tiles (geo g))) as [|p l IH]; [reflexivity|]. cbn [map flat_map without_first existsb orb]. exact IH.
Qed.
