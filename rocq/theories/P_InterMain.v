(** The clauses of interchange.py as a whole. *)
From Coq Require Import String ZArith List Bool Lia.
From Verif Require T_Mirror.
From Verif Require Import Spec_Cnf Spec_Tile Spec_Layout Spec_Pattern M_Network Spec_Network Spec_Balancer Spec_Flow Spec_Interchange
  M_Json M_Tile M_Util M_Card M_Template M_Grid M_Oracle M_Balancer M_Optimise M_Interchange
  P_Cnf P_Util P_Card P_Tile P_Layout P_List P_Template P_Walk P_Grid P_GridSound P_GridComplete P_Transport T_Grid P_GridOk P_Gen P_Balancer P_Trace P_Uniq P_NetShape P_Pow2 P_Pow2Total P_Alloc P_Edge2 P_Flux P_Cut P_Cut2.
From Verif Require P_Pattern P_Interchange T_Pattern P_Block.
Import ListNotations.
Open Scope Z_scope.

(** ** Generators that allocate nothing, followed by one that does *)
Lemma pures_sat : forall os f top cs t, seq_gen (map pure os ++ [f]) top = Some (cs, t) ->
  exists rest tc, f top = Some (tc, t) /\ cs = (rest ++ tc)%list /\ forall a, sat a rest = true <-> forall o, In o os -> exists c, o = Some c /\ sat a c = true.
Proof.
  induction os as [|o os IH]; intros f top cs t E; cbn [map app] in E; rewrite seq_gen_cons in E.
  - destruct (f top) as [[tc t1]|]; [|discriminate]. cbn [seq_gen] in E. apply Some_inj in E. rewrite app_nil_r in E. injection E as -> ->. exists [], cs. split; [reflexivity|]. split; [reflexivity|]. intros a. split; [intros _ o []|reflexivity].
  - destruct o as [c|]; [|discriminate]. unfold pure at 1 in E. cbn [obind] in E. destruct (seq_gen (map pure os ++ [f]) top) as [[c2 t2]|] eqn:E2; [|discriminate].
    apply Some_inj in E. injection E as <- <-. destruct (IH f top c2 t2 E2) as (rest & tc & Ef & -> & S). exists (c ++ rest)%list, tc. split; [exact Ef|]. split; [apply app_assoc|]. intros a. rewrite sat_app_iff, S. split.
    + intros (H1 & H2). intros o [<-|Ho]; [eauto|auto].
    + intros H1. destruct (H1 (Some c) (or_introl eq_refl)) as (c' & Ec & Sc). apply Some_inj in Ec. subst c'. split; [exact Sc|]. intros o Ho; apply H1; right; exact Ho.
Qed.
Lemma pures_some : forall os f top tc t, (forall o, In o os -> exists c : cnf, o = Some c) -> f top = Some (tc, t) -> exists cs, seq_gen (map pure os ++ [f]) top = Some (cs, t).
Proof.
  induction os as [|o os IH]; intros f top tc t H Ef; cbn [map app]; rewrite seq_gen_cons.
  - rewrite Ef. cbn [seq_gen]. eauto.
  - destruct (H o (or_introl eq_refl)) as (c & ->). unfold pure at 1. cbn [obind]. destruct (IH f top tc t (fun x Hx => H x (or_intror Hx)) Ef) as (cs & ->). eauto.
Qed.

(** What main asks for, but the transport through the edges. *)
Definition wishes (g : grid) (alternating rot : bool) : list (option cnf) :=
  ([Some (map (fun p => [- is_splitter (tile_at g p)]) (iterate_tiles (geo g)));
    Some (flat_map (end_directions g) (range (height (geo g))));
    oflat (fun y => set_colour g 0 y 0) (range (height (geo g) / 2));
    oflat (fun y => set_colour g 0 y 1) (range_from (height (geo g) / 2) (height (geo g)));
    output_colours g alternating;
    Some (block_underground_through_edges g (EBool true));
    Some (block_belts_through_edges g (EPair false true));
    Some (prevent_bad_undergrounding g);
    prevent_bad_colouring g;
    Some (prevent_intersection g);
    enforce_maximum_underground_length g] ++
   (if rot then [require_rotational_symmetry g; expand_underground g 0 0 None None; Some (prevent_small_loops g); Some (prevent_empty_along_underground g); Some (prevent_belt_hooks g);
                 Some (prevent_mergeable_underground g); Some (prevent_semicircles g); Some (prevent_underground_hook g)]
    else [Some (apply_generic_optimisations g)]) ++
   [prevent_passing g; Some (prevent_awkward_underground_entry g)])%list.
Definition granted (a : assignment) (o : option cnf) : Prop := exists c, o = Some c /\ sat a c = true.

Section Main.
  Variables (E : card_encoder) (w h ul : Z) (alternating rot : bool).
  Notation g := (interchange_grid w h ul).
  Notation A := (garea g).

  Lemma clauses_split g' cs top : interchange_clauses E w h ul alternating rot = Some (g', cs, top) ->
    (1 <= w /\ 1 <= h /\ h mod 2 = 0) /\ g' = g /\
    exists rest tc, require_correct_transport_through_edges E g (grid_top g) = Some (tc, top) /\ cs = (rest ++ tc)%list /\
      forall a, sat a rest = true <-> solves_init g a /\ forall o, In o (wishes g alternating rot) -> granted a o.
  Proof.
    unfold interchange_clauses. intros H. destruct (Z.ltb_spec h 1); [discriminate|]. destruct (Z.eqb_spec (h mod 2) 1); [discriminate|]. destruct (Z.ltb_spec w 1); [discriminate|].
    split; [pose proof (Z.mod_pos_bound h 2 ltac:(lia)); lia|].
    destruct (init_clauses g) as [init|] eqn:Ei; [|discriminate]. cbn [obind] in H.
    match type of H with context [seq_gen ?l _] => replace l with (map pure (wishes g alternating rot) ++ [require_correct_transport_through_edges E g])%list in H end.
    2: { unfold wishes, optimise. destruct rot; reflexivity. }
    destruct (seq_gen _ (grid_top g)) as [[c t]|] eqn:Es; [|discriminate]. cbn [obind] in H. apply Some_inj in H.
    assert (g = g') by congruence. assert ((init ++ c)%list = cs) by congruence. assert (t = top) by congruence. subst g' cs t. clear H. split; [reflexivity|].
    destruct (pures_sat _ _ _ _ _ Es) as (rest & tc & Et & -> & St). exists (init ++ rest)%list, tc. split; [exact Et|]. split; [apply app_assoc|]. intros a. rewrite sat_app_iff, St. unfold solves_init, granted. split.
    - intros (S1 & S2). split; [eauto|]. assumption.
    - intros ((i & Ei' & S1) & S2). split; [|assumption]. assert (i = init) by congruence. subst i. exact S1.
  Qed.
  Lemma clauses_some tc top : 1 <= w -> 1 <= h -> h mod 2 = 0 -> 0 <= ul -> (forall o, In o (wishes g alternating rot) -> exists c, o = Some c) ->
    require_correct_transport_through_edges E g (grid_top g) = Some (tc, top) ->
    exists cs, interchange_clauses E w h ul alternating rot = Some (g, cs, top).
  Proof.
    intros Hw Hh He Hu Ho Ht. unfold interchange_clauses. destruct (Z.ltb_spec h 1); [lia|]. destruct (Z.eqb_spec (h mod 2) 1); [lia|]. destruct (Z.ltb_spec w 1); [lia|].
    assert (W : wf_grid g) by (repeat split; cbn; lia).
    destruct (init_sat g W (fun _ => false)) as (init & Ei & _). rewrite Ei. cbn [obind].
    match goal with |- context [seq_gen ?l _] => replace l with (map pure (wishes g alternating rot) ++ [require_correct_transport_through_edges E g])%list end.
    2: { unfold wishes, optimise. destruct rot; reflexivity. }
    destruct (pures_some _ _ _ _ _ Ho Ht) as (c & Ec).
    match type of Ec with ?l = _ => match goal with |- context [seq_gen ?m ?t] => change (seq_gen m t) with l end end. rewrite Ec. cbn [obind]. eauto.
  Qed.
End Main.

(** ** What the wishes say about a layout *)
Section Solved.
  Variables (w h ul : Z) (alternating rot : bool).
  Hypothesis Hw : 1 <= w.
  Hypothesis Hh : 1 <= h.
  Hypothesis Even : h mod 2 = 0.
  Hypothesis Hu : 0 <= ul.
  Notation g := (interchange_grid w h ul).
  Notation A := (rectangle w h).
  Notation V a p := (view_of a (tile_at g p)).

  Lemma ic_wf : wf_grid g.
  Proof. repeat split; cbn; lia. Qed.
  Lemma ic_wfa : wf_area A.
  Proof. split; cbn; lia. Qed.
  Lemma ic_half : h = 2 * (h / 2) /\ 1 <= h / 2.
  Proof. pose proof (Z.div_mod h 2 ltac:(lia)). lia. Qed.
  Lemma ic_cover : edges_cover g (EBool true).
  Proof. cbn. tauto. Qed.

  (** The ends and the colours of the ends. *)
  Record ends (a : assignment) : Prop := {
    en_plain : forall p, inside A p -> vs (V a p) = false;
    en_ins : forall y, 0 <= y < h -> vi (V a (0, y)) RIGHT = true;
    en_outs : forall y, 0 <= y < h -> vo (V a (w - 1, y)) RIGHT = true;
    en_closed : sat a (block_belts_through_edges g (EPair false true)) = true;
    en_in : forall y, 0 <= y < h -> hue g a (0, y) = if y <? h / 2 then 0 else 1;
    en_out : forall k, 0 <= k < h / 2 ->
      (hue g a (w - 1, 2 * k) = 0 /\ hue g a (w - 1, 2 * k + 1) = 1) \/ alternating = false /\ (hue g a (w - 1, 2 * k) = 1 /\ hue g a (w - 1, 2 * k + 1) = 0) }.

  Lemma ic_hue (a : assignment) (p : pos) : inside A p -> length (colour (tile_at g p)) = 1%nat /\ Forall nonzero (colour (tile_at g p)).
  Proof. intros Hp. split; [apply fresh_length|]. apply (P_Block.colour_ok g ic_wf p Hp). Qed.
  Lemma hue_set (a : assignment) (p : pos) c : inside A p -> 0 <= c < 2 -> exists cs, set_number c (colour (tile_at g p)) = Some cs /\ (sat a cs = true <-> hue g a p = c).
  Proof.
    intros Hp Hc. destruct (ic_hue a p Hp) as [L N]. destruct (proj2 (set_number_some c (colour (tile_at g p)))) as (cs & Ec).
    { unfold len. rewrite L. change (2 ^ Z.of_nat 1) with 2. lia. }
    exists cs. split; [exact Ec|]. apply (set_number_sat c _ cs a N ltac:(lia) Ec).
  Qed.
  Lemma hues_set (a : assignment) x lo hi c : 0 <= x < w -> 0 <= lo -> hi <= h -> 0 <= c < 2 ->
    forall l, (forall y, In y l <-> lo <= y < hi) -> exists cs, oflat (fun y => set_colour g x y c) l = Some cs /\ (sat a cs = true <-> forall y, lo <= y < hi -> hue g a (x, y) = c).
  Proof.
    intros Hx Hlo Hhi Hc l Hl.
    assert (X : forall y, In y l -> exists cs, set_colour g x y c = Some cs /\ (sat a cs = true <-> hue g a (x, y) = c)).
    { intros y Hy. apply Hl in Hy. assert (Hp : inside A (x, y)) by (split; cbn; lia). unfold set_colour. cbn [gcolours interchange_grid].
      replace ((0 <=? c) && (c <? 2) && in_grid g x y) with true; [apply hue_set; assumption|].
      symmetry. unfold in_grid. cbn [geo interchange_grid width height]. rewrite !andb_true_iff, !Z.leb_le, !Z.ltb_lt. lia. }
    destruct (oflat_some (fun y => set_colour g x y c) l) as (cs & Ec); [intros y Hy; destruct (X y Hy) as (c0 & E0 & _); eauto|]. exists cs. split; [exact Ec|].
    rewrite (sat_oflat a _ _ _ Ec). split.
    - intros H y Hy. apply Hl in Hy. destruct (H y Hy) as (c0 & E0 & S0). destruct (X y Hy) as (c1 & E1 & S1). apply S1. assert (c0 = c1) by congruence. subst. exact S0.
    - intros H y Hy. destruct (X y Hy) as (c1 & E1 & S1). exists c1. split; [exact E1|]. apply S1, H, Hl, Hy.
  Qed.
  Lemma output_set (a : assignment) : exists cs, output_colours g alternating = Some cs /\ (sat a cs = true <-> forall k, 0 <= k < h / 2 ->
      (hue g a (w - 1, 2 * k) = 0 /\ hue g a (w - 1, 2 * k + 1) = 1) \/ alternating = false /\ (hue g a (w - 1, 2 * k) = 1 /\ hue g a (w - 1, 2 * k + 1) = 0)).
  Proof.
    pose proof ic_half as [He Hhalf]. unfold output_colours. cbn [geo interchange_grid width height]. destruct alternating.
    - assert (X : forall y, In y (range h) -> exists cs, set_number (y mod 2) (colour (tile_at g (w - 1, y))) = Some cs /\ (sat a cs = true <-> hue g a (w - 1, y) = y mod 2)).
      { intros y Hy. apply range_in in Hy. apply hue_set; [split; cbn; lia|apply Z.mod_pos_bound; lia]. }
      destruct (oflat_some (fun y => set_number (y mod 2) (colour (tile_at g (w - 1, y)))) (range h)) as (cs & Ec); [intros y Hy; destruct (X y Hy) as (c0 & E0 & _); eauto|].
      exists cs. split; [exact Ec|]. rewrite (sat_oflat a _ _ _ Ec). split.
      + intros H k Hk. left. assert (Y : forall y, 0 <= y < h -> hue g a (w - 1, y) = y mod 2).
        { intros y Hy. apply range_in in Hy. destruct (H y Hy) as (c0 & E0 & S0). destruct (X y Hy) as (c1 & E1 & S1). apply S1. assert (c0 = c1) by congruence. subst. exact S0. }
        rewrite !Y by lia. rewrite Z.mul_comm, Z.mod_mul by lia. rewrite Z.add_comm, Z.mod_add by lia. split; reflexivity.
      + intros H y Hy. destruct (X y Hy) as (c1 & E1 & S1). exists c1. split; [exact E1|]. apply S1. apply range_in in Hy. pose proof (Z.div_mod y 2 ltac:(lia)) as D. pose proof (Z.mod_pos_bound y 2 ltac:(lia)).
        assert (Hk : 0 <= y / 2 < h / 2) by lia. destruct (H (y / 2) Hk) as [[H1 H2]|[H1 _]]; [|discriminate]. destruct (Z.eq_dec (y mod 2) 0) as [E0|E0].
        * rewrite E0. etransitivity; [|exact H1]. do 2 f_equal. lia.
        * replace (y mod 2) with 1 by lia. etransitivity; [|exact H2]. do 2 f_equal. lia.
    - assert (X : forall k, In k (range (h / 2)) -> exists cs, set_numbers 0 1 (colour (tile_at g (w - 1, 2 * k))) (colour (tile_at g (w - 1, 2 * k + 1))) = Some cs /\
        (sat a cs = true <-> (hue g a (w - 1, 2 * k) = 0 /\ hue g a (w - 1, 2 * k + 1) = 1) \/ (hue g a (w - 1, 2 * k) = 1 /\ hue g a (w - 1, 2 * k + 1) = 0))).
      { intros k Hk. apply range_in in Hk. destruct (ic_hue a (w - 1, 2 * k)) as [L1 N1]; [split; cbn [fst snd aw ah rectangle]; lia|]. destruct (ic_hue a (w - 1, 2 * k + 1)) as [L2 N2]; [split; cbn [fst snd aw ah rectangle]; lia|].
        destruct (proj2 (set_numbers_some 0 1 (colour (tile_at g (w - 1, 2 * k))) (colour (tile_at g (w - 1, 2 * k + 1))))) as (cs & Ec).
        { unfold len. rewrite L1, L2. change (2 ^ Z.of_nat 1) with 2. lia. }
        exists cs. split; [exact Ec|]. apply (set_numbers_spec 0 1 _ _ cs ltac:(lia) ltac:(lia) N1 N2 Ec). }
      destruct (oflat_some (fun k => set_numbers 0 1 (colour (tile_at g (w - 1, 2 * k))) (colour (tile_at g (w - 1, 2 * k + 1)))) (range (h / 2))) as (cs & Ec); [intros y Hy; destruct (X y Hy) as (c0 & E0 & _); eauto|].
      exists cs. split; [exact Ec|]. rewrite (sat_oflat a _ _ _ Ec). split.
      + intros H k Hk. apply range_in in Hk. destruct (H k Hk) as (c0 & E0 & S0). destruct (X k Hk) as (c1 & E1 & S1). assert (c0 = c1) by congruence. subst c1. apply S1 in S0. tauto.
      + intros H k Hk. destruct (X k Hk) as (c1 & E1 & S1). exists c1. split; [exact E1|]. apply S1. apply range_in in Hk. destruct (H k Hk); tauto.
  Qed.
  Lemma plain_set (a : assignment) : sat a (map (fun p => [- is_splitter (tile_at g p)]) (iterate_tiles (geo g))) = true <-> forall p, inside A p -> vs (V a p) = false.
  Proof.
    rewrite sat_forall. split.
    - intros H p Hp. assert (Hi : In [- is_splitter (tile_at g p)] (map (fun p => [- is_splitter (tile_at g p)]) (iterate_tiles (geo g)))).
      { apply (in_map (fun p => [- is_splitter (tile_at g p)])). apply iterate_tiles_in. exact Hp. }
      specialize (H _ Hi). apply satc_one in H. apply evl_neg_iff in H; [exact H|]. apply (tile_at_ok g p ic_wf Hp).
    - intros H c Hc. apply in_map_iff in Hc. destruct Hc as (p & <- & Hp). apply iterate_tiles_in in Hp. apply satc_one. apply evl_neg_iff; [apply (tile_at_ok g p ic_wf Hp)|]. apply H. exact Hp.
  Qed.
  Lemma directions_set (a : assignment) : sat a (flat_map (end_directions g) (range h)) = true <->
    (forall y, 0 <= y < h -> vi (V a (0, y)) RIGHT = true) /\ forall y, 0 <= y < h -> vo (V a (w - 1, y)) RIGHT = true.
  Proof.
    rewrite sat_flat_map. unfold end_directions. cbn [geo interchange_grid width height]. split.
    - intros H. split; intros y Hy; apply range_in in Hy; specialize (H y Hy); rewrite sat_cons_iff, sat_one in H; destruct H as [H1 H2]; apply satc_one in H1; apply satc_one in H2; [exact H1|exact H2].
    - intros [H1 H2] y Hy. apply range_in in Hy. rewrite sat_cons_iff, sat_one. split; apply satc_one; [apply H1; exact Hy|apply H2; exact Hy].
  Qed.

  (** A solution of the grid whose layout is [T]. *)
  Section Solution.
    Variables (a : assignment) (T : layout).
    Hypothesis Sv : solves g (EBool true) a.
    Hypothesis Sc : solves_colouring g a.
    Hypothesis R : reads g a T.
    Let W := ic_wf.
    Let G : grid_rules g a := T_Pattern.sol_rules g (EBool true) a W Sv.
    Let Lk : forall p d, inside A p -> link_rule g a p d := T_Pattern.sol_links g (EBool true) a W Sv.
    Let Ur : forall p d, inside A p -> under_rule g a p d := T_Pattern.sol_under g (EBool true) a W Sv.
    Lemma sol_edge : edge_under_rule g a (EBool true).
    Proof. pose proof Sv as (_ & _ & _ & H & _). apply (block_underground_sat g W a). exact H. Qed.

    Lemma far_in (p : pos) d k q : ahead A p d k = Some q -> inside A q /\ q = far p d k.
    Proof.
      unfold ahead, far, place. cbn [wrapx wrapy rectangle]. destruct (insideb A _) eqn:Ei; [|discriminate]. intros Eq. apply Some_inj in Eq. apply insideb_iff in Ei. split; [rewrite <- Eq; exact Ei|symmetry; exact Eq].
    Qed.
    Lemma far_bound (p : pos) d k : inside A p -> inside A (far p d k) -> k <= Z.max w h - 1.
    Proof. intros [P1 P2] [Q1 Q2]. unfold far in *. cbn [fst snd aw ah rectangle] in *. destruct d; cbn [step_x step_y] in *; lia. Qed.
    Lemma far_far (p : pos) d i j : far (far p d i) d j = far p d (i + j).
    Proof. unfold far. cbn [fst snd]. f_equal; lia. Qed.
    Lemma useful_bound k : k <= T_Pattern.useful g + 1 <-> k <= ul + 1 /\ k <= Z.max w h - 1.
    Proof. unfold T_Pattern.useful. cbn [glen interchange_grid geo width height]. lia. Qed.

    Lemma empty_wish : sat a (prevent_empty_along_underground g) = true <-> forall p d k, inside A p -> k <= ul + 1 -> ~ empty_tunnel A T p d k.
    Proof.
      rewrite (T_Pattern.C70_empty_tunnels g (EBool true) a T W Sv R). split; intros H p d k Hp Hk.
      - intros Em. apply (H p d k Hp); [|exact Em]. apply useful_bound. split; [exact Hk|]. destruct Em as (q & _ & _ & Eq & _). destruct (far_in _ _ _ _ Eq) as [Hq ->]. apply (far_bound p d k Hp Hq).
      - apply (H p d k Hp). apply useful_bound in Hk. lia.
    Qed.
    Lemma double_wish : sat a (prevent_mergeable_underground g) = true <-> forall p d k, inside A p -> k <= ul + 1 -> ~ double_tunnel A T p d k.
    Proof.
      rewrite (T_Pattern.C70_double_tunnels g (EBool true) a T W Sv R). split; intros H p d k Hp Hk.
      - intros Em. apply (H p d k Hp); [|exact Em]. apply useful_bound. split; [exact Hk|]. destruct Em as (k1 & q & p' & q' & (_ & _ & _ & E1 & _) & E2 & (_ & _ & _ & E3 & _)).
        destruct (far_in _ _ _ _ E1) as [_ ->]. destruct (far_in _ _ _ _ E2) as [_ ->]. destruct (far_in _ _ _ _ E3) as [Hq ->]. rewrite !far_far in Hq. pose proof (far_bound p d _ Hp Hq). lia.
      - apply (H p d k Hp). apply useful_bound in Hk. lia.
    Qed.
    Lemma expand_wish : exists cs, expand_underground g 0 0 None None = Some cs /\
      (sat a cs = true <-> forall p d k, inside A p -> 2 <= k <= ul -> ~ late_entrance A T p d k /\ ~ early_exit A T p d k).
    Proof.
      destruct (T_Pattern.C70_short_tunnels g (EBool true) a T W Sv R ul 0 0 None None eq_refl) as (cs & Ec & Ss); try (cbn; lia).
      exists cs. split; [exact Ec|]. rewrite Ss. clear Ss. change (width (geo g)) with w. change (height (geo g)) with h.
      assert (Q : forall p, in_region 0 0 (w - 1) (h - 1) p <-> inside A p) by (intros p; unfold in_region, inside; cbn [aw ah rectangle]; lia). split.
      - intros H p d k Hp Hk. split; intros X.
        + assert (Hq : inside A (far p d (k + 1))).
          { destruct X as (p' & q & E1 & _ & _ & _ & _ & E2 & _). destruct (far_in _ _ _ _ E1) as [_ ->]. destruct (far_in _ _ _ _ E2) as [Hq ->]. rewrite far_far in Hq. rewrite (Z.add_comm k 1). exact Hq. }
          exact (proj1 (H p d k Hk (proj2 (Q p) Hp) (proj2 (Q _) Hq)) X).
        + assert (Hq : inside A (far p d (k + 1))).
          { destruct X as (q & q' & (_ & _ & _ & E1 & _) & E2 & _). destruct (far_in _ _ _ _ E1) as [_ ->]. destruct (far_in _ _ _ _ E2) as [Hq ->]. rewrite far_far in Hq. exact Hq. }
          exact (proj2 (H p d k Hk (proj2 (Q p) Hp) (proj2 (Q _) Hq)) X).
      - intros H p d k Hk Hp _. apply H; [apply Q; exact Hp|exact Hk].
    Qed.

    (** All wishes but those on the ends, without splitters. *)
    Definition layout_wishes : list (option cnf) :=
      ((if rot then [require_rotational_symmetry g; expand_underground g 0 0 None None; Some (prevent_small_loops g); Some (prevent_empty_along_underground g); Some (prevent_belt_hooks g);
                 Some (prevent_mergeable_underground g); Some (prevent_semicircles g); Some (prevent_underground_hook g)]
        else [Some (apply_generic_optimisations g)]) ++
       [prevent_passing g; Some (prevent_awkward_underground_entry g)])%list.
    Lemma granted_some (c : cnf) : granted a (Some c) <-> sat a c = true.
    Proof. unfold granted. split; [intros (c' & E & H)|eauto]. assert (c = c') by congruence. subst. exact H. Qed.
    Lemma granted_exact o P : (exists cs, o = Some cs /\ (sat a cs = true <-> P)) -> (granted a o <-> P).
    Proof. intros (cs & -> & H). rewrite granted_some. exact H. Qed.

    Hypothesis Plain : forall p, inside A p -> vs (V a p) = false.
    Lemma layout_wishes_exact : (forall o, In o layout_wishes -> granted a o) <-> tidy w h ul rot T (hue g a).
    Proof.
      pose proof (granted_exact _ _ (P_Interchange.passing_exact g W a T R G Plain eq_refl)) as X1.
      pose proof (P_Interchange.awkward_exact g W eq_refl eq_refl a T R G Lk Ur Plain eq_refl) as X2.
      pose proof (granted_exact _ _ (P_Interchange.symmetry_exact g W eq_refl eq_refl a T R G Ur sol_edge Plain eq_refl)) as X3.
      pose proof (T_Pattern.C56_small_loops g (EBool true) a T W Sv R) as X4. pose proof empty_wish as X5. pose proof (T_Pattern.C56_hooks g (EBool true) a T W Sv R) as X6.
      pose proof double_wish as X7. pose proof (T_Pattern.C56_semicircles g (EBool true) a T W Sv R) as X8. pose proof (T_Pattern.C70_underground_hooks g (EBool true) a T W Sv R) as X9.
      pose proof (granted_exact _ _ expand_wish) as X10. pose proof (T_Pattern.C56_zigzags g (EBool true) a T W Sv R) as X11.
      assert (X1' : granted a (prevent_passing g) <-> forall p d, inside A p -> ~ passing w h T (hue g a) p d).
      { rewrite X1. unfold passing, P_Interchange.paired. change (garea g) with A.
        split; intros H p d Hp (q & r & s & K); apply (H p d Hp); exists q, r, s; tauto. }
      clear X1. change (garea g) with A in *. change (width (geo g)) with w in *. change (height (geo g)) with h in *.
      unfold layout_wishes. rewrite <- Forall_forall. destruct rot.
      - cbn [app]. rewrite !Forall_cons_iff, !granted_some, X1', X2, X3, X4, X5, X6, X7, X8, X9, X10. split.
        + intros (K1 & K2 & K3 & K4 & K5 & K6 & K7 & K8 & K9 & K10 & _). constructor; try assumption. split; assumption.
        + intros [K3 K4 K5 K6 K7 K8 [K1 K2] K9 K10]. repeat (split; [assumption|]). apply Forall_nil.
      - cbn [app]. rewrite !Forall_cons_iff, !granted_some, X1', X2. unfold apply_generic_optimisations. rewrite !sat_app_iff, X4, X5, X6, X7, X8, X9, X11.
        pose proof (P_Interchange.glue_idle g W a T R G Lk Plain) as I1. pose proof (P_Interchange.parallel_idle g W a Plain) as I2. pose proof (P_Interchange.partial_idle g W a T R G Plain) as I3. split.
        + intros ((K1 & K2 & _ & K3 & K4 & K5 & K6 & K7 & _) & K8 & K9 & _). constructor; try assumption.
        + intros [K3 K4 K5 K6 K7 K8 K1 K9 K10]. split; [repeat (split; [assumption|]); assumption|]. split; [assumption|]. split; [assumption|]. apply Forall_nil.
    Qed.
  End Solution.

  Lemma wishes_solved (a : assignment) : solves_init g a /\ (forall o, In o (wishes g alternating rot) -> granted a o) <->
    solves g (EBool true) a /\ solves_colouring g a /\ ends a /\ forall o, In o layout_wishes -> granted a o.
  Proof.
    pose proof ic_half as [He Hhalf].
    destruct (hues_set a 0 0 (h / 2) 0 ltac:(lia) ltac:(lia) ltac:(lia) ltac:(lia) (range (h / 2)) (range_in (h / 2))) as (c1 & E1 & X1).
    destruct (hues_set a 0 (h / 2) h 1 ltac:(lia) ltac:(lia) ltac:(lia) ltac:(lia) (range_from (h / 2) h) (P_Pattern.range_from_in (h / 2) h)) as (c2 & E2 & X2).
    destruct (output_set a) as (c3 & E3 & X3). pose proof (plain_set a) as X4. pose proof (directions_set a) as X5.
    unfold wishes. fold layout_wishes. change (height (geo g)) with h. rewrite E1, E2, E3. rewrite <- Forall_forall. cbn [app].
    rewrite !Forall_cons_iff, !granted_some, X1, X2, X3, X4, X5, Forall_forall. unfold solves, solves_length, solves_colouring. fold (granted a (enforce_maximum_underground_length g)). fold (granted a (prevent_bad_colouring g)).
    split.
    - intros (K0 & K1 & (K2 & K3) & K4 & K5 & K6 & K7 & K8 & K9 & K10 & K11 & K12 & K13). split; [tauto|]. split; [exact K10|]. split; [|exact K13]. constructor; try assumption.
      intros y Hy. destruct (Z.ltb_spec y (h / 2)); [apply K4|apply K5]; lia.
    - intros ((K0 & K11 & K9 & K7 & K12) & K10 & [K1 K2 K3 K8 K4 K6] & K13). repeat (split; [first [assumption|split; assumption|idtac]|]); try assumption.
      + intros y Hy. rewrite K4 by lia. destruct (Z.ltb_spec y (h / 2)); lia.
      + intros y Hy. rewrite K4 by lia. destruct (Z.ltb_spec y (h / 2)); lia.
  Qed.
  Lemma wishes_exist (a : assignment) T : solves g (EBool true) a -> solves_colouring g a -> reads g a T -> ends a -> tidy w h ul rot T (hue g a) ->
    solves_init g a /\ forall o, In o (wishes g alternating rot) -> granted a o.
  Proof. intros Sv Sc R En Td. apply wishes_solved. split; [exact Sv|]. split; [exact Sc|]. split; [exact En|]. apply (layout_wishes_exact a T Sv R (en_plain a En)). exact Td. Qed.

  (** ** The ends of the layout *)
  Section Ends.
    Variables (a : assignment) (T : layout).
    Hypothesis Sv : solves g (EBool true) a.
    Hypothesis Sc : solves_colouring g a.
    Hypothesis R : reads g a T.
    Let W := ic_wf.
    Let G : grid_rules g a := T_Pattern.sol_rules g (EBool true) a W Sv.
    Let Sh (p : pos) (Hp : inside A p) : shows (V a p) (T p) := T_shows g a T R G p Hp.
    Lemma sol_valid : valid_layout A T ul.
    Proof. apply (C49_solutions_are_valid_layouts g (EBool true) a T W ic_cover Sv R). Qed.
    Lemma plain_tiles : (forall p, inside A p -> vs (V a p) = false) <-> forall p, inside A p -> ~ is_splitter_tile (T p).
    Proof.
      split; intros H p Hp; specialize (H p Hp); pose proof (Sh p Hp) as (_ & _ & _ & Sp & _).
      - intros Q. destruct (T p); cbn [is_splitter_tile] in Q; try contradiction. congruence.
      - rewrite Sp. destruct (T p); try reflexivity. exfalso. apply H. exact Logic.I.
    Qed.
    Lemma sol_colours : (forall p, inside A p -> 0 <= hue g a p < 2) /\ forall p q, inside A p -> carried A T ul p q -> hue g a p = hue g a q.
    Proof. exact (C51_colour_transported g (EBool true) a T 2 ul W ic_cover Sv Sc R eq_refl). Qed.

    Lemma edge_none d (p : pos) : inside A p -> (neighbour A p d = None <-> match d with RIGHT => fst p = w - 1 | LEFT => fst p = 0 | UP => snd p = 0 | DOWN => snd p = h - 1 end).
    Proof.
      intros Hp. split.
      - intros N. apply (neighbour_none A p d ic_wfa Hp) in N. destruct N as [_ N]. cbn [aw ah rectangle] in N. exact N.
      - intros N. unfold neighbour, ahead, place. cbn [wrapx wrapy rectangle]. destruct (insideb A _) eqn:Ei; [|reflexivity]. apply insideb_iff in Ei. exfalso.
        destruct Hp as [P1 P2], Ei as [Q1 Q2]. destruct p as [x y]. cbn [fst snd aw ah rectangle] in *. destruct d; cbn [step_x step_y] in *; lia.
    Qed.
    Lemma no_both (p : pos) d d' : inside A p -> ~ is_splitter_tile (T p) -> takes (T p) d -> takes (T p) d' -> d = d'.
    Proof. intros _ N K1 K2. destruct (T p) as [| |i o|f []|f hd|f k|x y]; cbn in *; try contradiction; try congruence. Qed.
    Lemma no_both_out (p : pos) d d' : inside A p -> ~ is_splitter_tile (T p) -> pushes (T p) d -> pushes (T p) d' -> d = d'.
    Proof. intros _ N K1 K2. destruct (T p) as [| |i o|f []|f hd|f k|x y]; cbn in *; try contradiction; try congruence. Qed.
    Lemma no_turning_back (p : pos) d : inside A p -> ~ is_splitter_tile (T p) -> takes (T p) d -> pushes (T p) (opposite d) -> False.
    Proof.
      intros Hp N K1 K2. pose proof sol_valid as (B & _). specialize (B p Hp). destruct (T p) as [| |i o|f []|f hd|f k|x y]; cbn in *; try contradiction; try (apply N; exact Logic.I). subst. congruence.
    Qed.

    Lemma ends_interchange : ends a -> interchange w h ul alternating T /\ two_colours w h ul T (hue g a).
    Proof.
      intros [Pl Ins Outs Cl Hin Hout]. pose proof ic_half as [He Hhalf].
      pose proof (proj1 plain_tiles Pl) as NS. destruct sol_colours as [C1 C2].
      pose proof (proj1 (C50_block_belts g a (EPair false true) T W (proj1 Sv) R) Cl) as Closed.
      assert (F : forall y, 0 <= y < h -> takes (T (0, y)) RIGHT).
      { intros y Hy. apply (shows_takes _ _ RIGHT (Sh (0, y) ltac:(split; cbn; lia))). apply Ins. exact Hy. }
      assert (Lst : forall y, 0 <= y < h -> pushes (T (w - 1, y)) RIGHT).
      { intros y Hy. apply (shows_pushes _ _ RIGHT (Sh (w - 1, y) ltac:(split; cbn; lia))). apply Outs. exact Hy. }
      assert (In0 : inlets A T (rows 0 0 h)).
      { split; [apply rows_NoDup|]. intros p. rewrite rows_in by lia. split.
        - intros [E0 Hy]. destruct p as [x y]. cbn [fst snd] in *. subst x. assert (Hp : inside A (0, y)) by (split; cbn; lia). split; [reflexivity|]. split; [exact Hp|]. exists RIGHT. split; [apply F; lia|]. apply (edge_none LEFT (0, y) Hp). reflexivity.
        - intros (_ & Hp & d & K & N). destruct p as [x y]. pose proof Hp as [P1 P2]. cbn [fst snd aw ah rectangle] in *. apply (edge_none _ _ Hp) in N. cbn [fst snd] in N. destruct d; cbn [opposite] in N.
          + lia.
          + exfalso. destruct (Closed (x, y) DOWN Hp) as (Q1 & Q2 & _); [cbn; split; [reflexivity|exact N]|]. first [exact (Q1 K)|exact (Q2 K)].
          + exfalso. subst x. apply (no_turning_back (w - 1, y) LEFT Hp (NS _ Hp) K). apply Lst. exact P2.
          + exfalso. destruct (Closed (x, y) UP Hp) as (Q1 & Q2 & _); [cbn; split; [reflexivity|exact N]|]. first [exact (Q1 K)|exact (Q2 K)]. }
      assert (Out0 : outlets A T (rows (w - 1) 0 h)).
      { split; [apply rows_NoDup|]. intros p. rewrite rows_in by lia. split.
        - intros [E0 Hy]. destruct p as [x y]. cbn [fst snd] in *. subst x. assert (Hp : inside A (w - 1, y)) by (split; cbn; lia). split; [reflexivity|]. split; [exact Hp|]. split; [apply NS; exact Hp|]. exists RIGHT. split; [apply Lst; lia|]. apply (edge_none RIGHT (w - 1, y) Hp). reflexivity.
        - intros (_ & Hp & _ & d & K & N). destruct p as [x y]. pose proof Hp as [P1 P2]. cbn [fst snd aw ah rectangle] in *. apply (edge_none _ _ Hp) in N. cbn [fst snd] in N. destruct d.
          + lia.
          + exfalso. destruct (Closed (x, y) UP Hp) as (Q1 & Q2 & _); [cbn; split; [reflexivity|exact N]|]. first [exact (Q1 K)|exact (Q2 K)].
          + exfalso. subst x. apply (no_turning_back (0, y) RIGHT Hp (NS _ Hp) (F y P2)). exact K.
          + exfalso. destruct (Closed (x, y) DOWN Hp) as (Q1 & Q2 & _); [cbn; split; [reflexivity|exact N]|]. first [exact (Q1 K)|exact (Q2 K)]. }
      assert (J : forall y, 0 <= y < h -> exists y', 0 <= y' < h /\ joined A T ul (Enter (0, y')) (Leave (w - 1, y)) /\ hue g a (0, y') = hue g a (w - 1, y)).
      { intros y Hy. assert (Rc : reaches A T (Leave (w - 1, y)) (w - 1, y)) by (apply Out0, rows_in; [lia|]; cbn [fst snd]; lia).
        destruct (outlet_joined A T ul ic_wfa sol_valid _ Rc) as (s & Js). pose proof Js as (q & r & B & C & Rr). destruct s as [p|p].
        - pose proof B as (-> & Hp & _). assert (Bp : begins A T (Enter p) p) by exact B. apply In0 in Bp. apply rows_in in Bp; [|lia]. destruct p as [x y']. cbn [fst snd] in Bp. destruct Bp as [-> Hy']. exists y'. split; [lia|]. split; [exact Js|].
          destruct Rr as [-> _]. apply C2; assumption.
        - exfalso. destruct B as (Hp & d & hd & Et & _). apply (NS p Hp). rewrite Et. exact Logic.I. }
      split.
      - constructor; try assumption; [exact sol_valid|]. intros k Hk. destruct (J (2 * k) ltac:(lia)) as (y & Hy & J1 & K1). destruct (J (2 * k + 1) ltac:(lia)) as (y' & Hy' & J2 & K2). exists y, y'. split; [exact J1|]. split; [exact J2|].
        rewrite (Hin y Hy) in K1. rewrite (Hin y' Hy') in K2. specialize (Hout k Hk). destruct (Z.ltb_spec y (h / 2)), (Z.ltb_spec y' (h / 2)); intuition lia.
      - split; [intros p Hp; specialize (C1 p Hp); lia|]. split; [|exact Hin]. intros p q C. destruct (insideb A p) eqn:Ei; [apply insideb_iff in Ei; apply C2; assumption|].
        assert (~ inside A p) by (intros X; apply insideb_iff in X; congruence). inversion C; subst; [reflexivity| |]; exfalso.
        + match goal with H : hands_on _ _ _ _ |- _ => destruct H; tauto end.
        + match goal with H : sends_under _ _ _ _ _ |- _ => destruct H; tauto end.
    Qed.

    Lemma interchange_ends : interchange w h ul alternating T -> two_colours w h ul T (hue g a) -> ends a.
    Proof.
      intros [VL NS F Lst In0 Out0 Mix] (C1 & C2 & C3). pose proof ic_half as [He Hhalf]. pose proof sol_colours as [C4 C5]. constructor.
      - apply plain_tiles. exact NS.
      - intros y Hy. assert (Hp : inside A (0, y)) by (split; cbn; lia). apply (shows_takes_inv _ _ RIGHT (Sh _ Hp) (F y Hy) (NS _ Hp)).
      - intros y Hy. assert (Hp : inside A (w - 1, y)) by (split; cbn; lia). apply (shows_pushes_inv _ _ RIGHT (Sh _ Hp) (Lst y Hy) (NS _ Hp)).
      - apply (C50_block_belts g a (EPair false true) T W (proj1 Sv) R). intros p d Hp He'. assert (Nd : neighbour A p d = None).
        { apply (edge_none d p Hp). destruct d; cbn in He'; destruct He' as [Q1 Q2]; try discriminate; exact Q2. }
        assert (Vd : d = UP \/ d = DOWN) by (destruct d; cbn in He'; destruct He' as [Q1 Q2]; try discriminate; tauto).
        assert (K1 : ~ takes (T p) (opposite d)).
        { intros K. assert (B : begins A T (Enter p) p). { split; [reflexivity|]. split; [exact Hp|]. exists (opposite d). rewrite opposite_opposite. split; assumption. }
          apply In0, rows_in in B; [|lia]. destruct B as [B1 B2]. destruct p as [x y]. cbn [fst snd] in *. subst x. pose proof (no_both _ _ _ Hp (NS _ Hp) K (F y ltac:(lia))). destruct Vd; subst d; discriminate. }
        assert (K2 : ~ pushes (T p) d).
        { intros K. assert (B : reaches A T (Leave p) p). { split; [reflexivity|]. split; [exact Hp|]. split; [apply NS; exact Hp|]. exists d. split; assumption. }
          apply Out0, rows_in in B; [|lia]. destruct B as [B1 B2]. destruct p as [x y]. cbn [fst snd] in *. subst x. pose proof (no_both_out _ _ _ Hp (NS _ Hp) K (Lst y ltac:(lia))). destruct Vd; subst d; discriminate. }
        split; [exact K1|]. split; [exact K2|]. destruct VL as (_ & _ & _ & _ & _ & _ & Ent & Ex). split; intros Et.
        + destruct (Ent p d Hp Et) as (q & _ & k & Hk & Eq & _). destruct (far_in _ _ _ _ Eq) as [Hq ->]. apply (edge_none d p Hp) in Nd. destruct Hp as [P1 P2], Hq as [Q1 Q2]. unfold far in *. cbn [fst snd aw ah rectangle] in *. destruct Vd; subst d; cbn [step_x step_y] in *; lia.
        + destruct (Ex p _ Hp Et) as (q & Hq & _ & k & Hk & Eq & _). destruct (far_in _ _ _ _ Eq) as [_ Ep]. apply (edge_none d p Hp) in Nd. destruct q as [qx qy], p as [x y]. unfold far in Ep. destruct Hp as [P1 P2], Hq as [Q1 Q2]. cbn [fst snd aw ah rectangle] in *.
          injection Ep as E1 E2. destruct Vd; subst d; cbn [opposite step_x step_y] in *; lia.
      - exact C3.
      - intros k Hk. destruct (Mix k Hk) as (y & y' & (q & r & B1 & J1 & R1) & (q' & r' & B2 & J2 & R2) & D). destruct B1 as (-> & Hq & _), B2 as (-> & Hq' & _), R1 as (-> & _), R2 as (-> & _).
        rewrite <- (C2 _ _ J1), <- (C2 _ _ J2). rewrite !C3 by lia. destruct (Z.ltb_spec y (h / 2)), (Z.ltb_spec y' (h / 2)); intuition lia.
    Qed.
  End Ends.
End Solved.
