(** The clauses of make_block.py describe blocks exactly. *)
From Coq Require Import String ZArith List Bool Lia.
From Verif Require Import Spec_Cnf Spec_Tile Spec_Layout Spec_Pattern Spec_Loop M_Json M_Tile M_Util M_Card M_Template M_Grid M_Balancer M_Optimise M_Block
  P_Cnf P_Util P_Util3 P_Card P_Tile P_Layout P_List P_Template P_Walk P_Grid P_GridSound P_GridComplete P_Transport P_Trace T_Grid P_Pattern P_Block.
From Verif Require P_NetArith.
Import ListNotations.
Open Scope Z_scope.

(** The bound on tunnels that is in force. *)
Definition block_length (o : block_options) : Z :=
  if bo_single o then bo_length o else if bo_length o =? 0 then 0 else 4.
Definition block_area (o : block_options) : area :=
  {| aw := bo_width o; ah := bo_height o; wrapx := bo_tile o; wrapy := bo_tile o |}.
(** Arguments that are accepted, apart from --no-parallel. *)
Definition sensible (o : block_options) : Prop :=
  0 < bo_width o /\ 0 < bo_height o /\ 0 <= bo_length o /\ bo_allow_empty o && bo_single o = false.

Lemma block_wf o : sensible o -> wf_grid (block_grid o).
Proof.
  intros (Hw & Hh & Hl & _). unfold wf_grid, wf_geometry, block_grid. cbn [geo width height gtop gcolours glen]. split; [split; assumption|]. split; [lia|].
  destruct (bo_single o); split; try lia.
Qed.
Definition block_edges (o : block_options) : edges := EBool (negb (bo_tile o)).
Lemma block_edges_match o : edges_match (block_grid o) (block_edges o).
Proof. unfold edges_match, block_edges, block_grid. cbn. destruct (bo_tile o); reflexivity. Qed.

Lemma oflat_each {X} (f : X -> option cnf) l cs : oflat f l = Some cs -> forall x, In x l -> exists c, f x = Some c.
Proof.
  unfold oflat. destruct (omap f l) as [xss|] eqn:E; [|discriminate]. intros _. revert xss E. induction l as [|y l IH]; intros xss E x; [intros []|].
  cbn [omap] in E. destruct (f y) as [c|] eqn:Ey; [|discriminate]. destruct (omap f l) as [r|]; [|discriminate].
  intros [<-|Hx]; [eauto|]. exact (IH r eq_refl x Hx).
Qed.
Lemma parallel_trivial g cs a : prevent_parallel g = Some cs -> sat a cs = true.
Proof.
  unfold prevent_parallel. intros E. rewrite (sat_oflat a _ _ _ E). intros p Hp. destruct (oflat_each _ _ _ E p Hp) as [c Ec]. exists c. split; [exact Ec|].
  rewrite (sat_oflat a _ _ _ Ec). intros d Hd. destruct (oflat_each _ _ _ Ec d Hd) as [c' Ec']. exists c'. split; [exact Ec'|].
  destruct (get_tile_instance_offset (geo g) (fst p) (snd p) (dx (next d)) (dy (next d))); [discriminate|]. apply Some_inj in Ec'. subst c'. reflexivity.
Qed.

Definition block_rules (o : block_options) (a : assignment) : Prop :=
  let g := block_grid o in
  grid_rules g a /\
  (forall p d, inside (garea g) p -> link_rule g a p d) /\
  (forall p d, inside (garea g) p -> under_rule g a p d) /\
  (bo_tile o = false -> edge_belt_rule g a (EBool true) /\ edge_under_rule g a (EBool true)) /\
  sat a (prevent_small_loops g) = true /\
  ((if bo_single o then bo_length o else 4) <> 0 -> length_rule g a /\ sat a (prevent_empty_along_underground g) = true) /\
  (forall p, inside (garea g) p -> sat a (block_tile o (tile_at g p)) = true).

Lemma block_inv o g cs : make_block o = Some (g, cs) -> sensible o /\ g = block_grid o /\
  (bo_no_parallel o = true -> exists c, prevent_parallel (block_grid o) = Some c) /\
  (bo_single o = true -> exists c, ensure_loop_length (block_grid o) = Some c) /\
  forall a, sat a cs = true <-> block_rules o a /\ (bo_single o = true -> exists lc, ensure_loop_length (block_grid o) = Some lc /\ sat a lc = true).
Proof.
  unfold make_block. destruct (bo_allow_empty o && bo_single o) eqn:E1; [discriminate|]. destruct (Z.ltb_spec (bo_length o) 0) as [|E2]; [discriminate|].
  destruct ((0 <? bo_width o) && (0 <? bo_height o)) eqn:E3; [|discriminate]. cbn [negb].
  apply andb_true_iff in E3. destruct E3 as [E3 E4]. apply Z.ltb_lt in E3. apply Z.ltb_lt in E4.
  assert (SO : sensible o) by (repeat split; assumption). pose proof (block_wf o SO) as W. set (G := block_grid o) in *.
  destruct (init_sat G W (fun _ => false)) as (ic & Ei & _). rewrite Ei. cbn [obind].
  assert (Eg : glen G = Some (if bo_single o then bo_length o else 4)) by reflexivity. rewrite Eg.
  set (l := if bo_single o then bo_length o else 4) in *.
  assert (TN : exists tc, (if 0 <? l then let* c := enforce_maximum_underground_length G in Some (c ++ prevent_empty_along_underground G)%list else Some []) = Some tc /\
     forall a, sat a tc = true <-> (l <> 0 -> length_rule G a /\ sat a (prevent_empty_along_underground G) = true)).
  { assert (Hl : 0 <= l) by (unfold l; destruct (bo_single o); lia). destruct (Z.ltb_spec 0 l) as [H|H].
    - destruct (enforce_maximum_underground_length G) as [c|] eqn:Ec.
      + cbn [obind]. eexists. split; [reflexivity|]. intros a. rewrite sat_app_iff, (length_sat G W a c Ec). split; [auto|intros X; apply X; lia].
      + exfalso. unfold enforce_maximum_underground_length in Ec. rewrite Eg in Ec. destruct (Z.leb_spec 1 l); [discriminate|lia].
    - exists []. split; [reflexivity|]. intros a. split; [intros _ X; lia|reflexivity]. }
  destruct TN as (tc & Et & St). rewrite Et. cbn [obind].
  destruct (if bo_no_parallel o then prevent_parallel G else Some []) as [pc|] eqn:Ep; [|discriminate]. cbn [obind].
  destruct (if bo_single o then ensure_loop_length G else Some []) as [lc|] eqn:El; [|discriminate]. cbn [obind].
  intros E. apply Some_inj in E. apply pair_equal_spec in E. destruct E as [<- <-]. split; [exact SO|]. split; [reflexivity|].
  split; [intros X; rewrite X in Ep; eauto|]. split; [intros X; rewrite X in El; eauto|].
  intros a. rewrite !sat_app_iff, St.
  assert (Si : sat a ic = true <-> grid_rules G a) by (destruct (init_sat G W a) as (ic' & Ei' & Si); rewrite Ei in Ei'; apply Some_inj in Ei'; subst ic'; exact Si).
  rewrite Si, (intersection_sat G W a), (undergrounding_sat G W a).
  assert (Sp : sat a pc = true) by (destruct (bo_no_parallel o); [exact (parallel_trivial G pc a Ep)|apply Some_inj in Ep; subst pc; reflexivity]).
  assert (Sb : sat a (if bo_tile o then [] else block_belts_through_edges G (EBool true) ++ block_underground_through_edges G (EBool true))%list = true <->
    (bo_tile o = false -> edge_belt_rule G a (EBool true) /\ edge_under_rule G a (EBool true))).
  { destruct (bo_tile o); [split; [discriminate|reflexivity]|]. rewrite sat_app_iff, (block_belts_sat G W a), (block_underground_sat G W a). tauto. }
  rewrite Sb.
  assert (Sl : sat a lc = true <-> (bo_single o = true -> exists c, ensure_loop_length G = Some c /\ sat a c = true)).
  { destruct (bo_single o).
    - split; [intros H _; eauto|]. intros H. destruct (H eq_refl) as (c & Ec & Sc). rewrite El in Ec. apply Some_inj in Ec. subst c. exact Sc.
    - apply Some_inj in El. subst lc. split; [discriminate|reflexivity]. }
  rewrite Sl. rewrite (tiles_sat G a). unfold block_rules. fold G. fold l. tauto.
Qed.

Section Exact.
  Variable o : block_options.
  Hypothesis SO : sensible o.
  Notation g := (block_grid o).
  Notation A := (block_area o).
  Let W : wf_grid g := block_wf o SO.
  Let HA : wf_area A := WA g W.
  Notation n := (bo_width o * bo_height o).

  Lemma garea_block : garea g = A.
  Proof. reflexivity. Qed.

  Lemma wraps_neighbour p d : bo_tile o = true -> inside A p -> exists q, neighbour A p d = Some q.
  Proof.
    intros Et Hp. destruct (neighbour A p d) as [q|] eqn:E; [eauto|]. exfalso. destruct (neighbour_none A p d HA Hp E) as [Wr _].
    destruct d; cbn in Wr; congruence.
  Qed.

  Lemma block_tile_sat a T p : shows (view_of a (tile_at g p)) (T p) -> inside A p ->
    (sat a (block_tile o (tile_at g p)) = true <->
     (bo_allow_empty o = false -> T p <> Empty) /\ (bo_length o = 0 -> forall d, vu (view_of a (tile_at g p)) d = false) /\ ~ is_splitter_tile (T p)).
  Proof.
    intros Sh Hp. pose proof (tile_at_ok g p W Hp) as Op. unfold block_tile. rewrite !sat_app_iff.
    assert (S1 : sat a (if bo_allow_empty o then [] else [all_direction (tile_at g p)]) = true <-> (bo_allow_empty o = false -> T p <> Empty)).
    { destruct (bo_allow_empty o); [split; [discriminate|reflexivity]|]. rewrite sat_one. unfold all_direction, inputs, outputs. rewrite satc_app_iff, !satc_dirs.
      assert (X : (exists d, vi (view_of a (tile_at g p)) d = true) \/ (exists d, vo (view_of a (tile_at g p)) d = true) <-> T p <> Empty).
      { destruct Sh as [Sh _]. destruct (T p) as [| |i o'|f []|f h|f k|x y]; try contradiction.
        - destruct Sh as (_ & I1 & O1). split; [intros [[d C]|[d C]]; [rewrite I1 in C|rewrite O1 in C]; discriminate|congruence].
        - destruct Sh as (_ & I1 & _). split; [discriminate|]. intros _. left. exists i. apply I1. reflexivity.
        - destruct Sh as (_ & I1 & _). split; [discriminate|]. intros _. left. exists f. apply I1. reflexivity.
        - destruct Sh as (_ & _ & O1). split; [discriminate|]. intros _. right. exists f. apply O1. reflexivity.
        - destruct Sh as (_ & _ & _ & _ & [I1|O1]); (split; [discriminate|]); intros _; [left|right]; eauto. }
      cbn [view_of vi vo] in X. rewrite X. tauto. }
    assert (S2 : sat a (if bo_length o =? 0 then set_all_false (map (underground (tile_at g p)) directions) else []) = true <-> (bo_length o = 0 -> forall d, vu (view_of a (tile_at g p)) d = false)).
    { destruct (Z.eqb_spec (bo_length o) 0) as [E|N]; [|split; [contradiction|reflexivity]]. rewrite sat_false_dirs by apply Op. cbn [view_of vu]. tauto. }
    assert (S3 : sat a [[- is_splitter (tile_at g p)]] = true <-> ~ is_splitter_tile (T p)).
    { rewrite sat_one, satc_neg_one by apply Op. destruct Sh as (_ & _ & _ & Sh & _). change (evl a (is_splitter (tile_at g p))) with (vs (view_of a (tile_at g p))). rewrite Sh.
      destruct (T p); cbn; intuition congruence. }
    rewrite S1, S2, S3. reflexivity.
  Qed.

  Lemma no_tunnels T L : valid_layout A T L -> L <= 0 -> forall p d e, inside A p -> T p <> Underground d e.
  Proof.
    intros VL HL p d e Hp E. pose proof VL as (_ & _ & _ & _ & _ & _ & VE & VX). destruct e.
    - destruct (VE p d Hp E) as (q & _ & k & Hk & _). lia.
    - destruct (VX p d Hp E) as (q & _ & _ & k & Hk & _). lia.
  Qed.

  Lemma empty_tunnel_short T L p d k : valid_layout A T L -> inside A p -> empty_tunnel A T p d k ->
    k <= L + 1 /\ k <= Z.max (bo_width o) (bo_height o) - 1.
  Proof.
    intros VL Hp (q & Hk & Tp & Eq & Tq & Hc). split.
    - pose proof VL as (_ & _ & _ & _ & _ & _ & VE & _). destruct (VE p d Hp Tp) as (q' & Tq' & k' & Hk' & Ek' & Hc').
      destruct (Z.lt_trichotomy k k') as [C|[->|C]]; [lia|lia|]. destruct (Hc k' ltac:(lia)) as (r & Er & Tr). rewrite Ek' in Er. injection Er as <-. congruence.
    - assert (Full : forall s, 0 < s -> ahead A p d s = Some p -> k <= s - 1).
      { intros s Hs Es. destruct (Z.lt_trichotomy k s) as [C|[->|C]]; [lia|congruence|]. destruct (Hc s ltac:(lia)) as (r & Er & Tr). rewrite Es in Er. injection Er as <-. congruence. }
      pose proof HA as [Hw Hh]. cbn [aw ah block_area] in Hw, Hh.
      destruct (bo_tile o) eqn:Et.
      + assert (X : ahead A p d (if is_horizontal d then bo_width o else bo_height o) = Some p).
        { assert (PS : forall u v, ahead A p d (if is_horizontal d then bo_width o else bo_height o) = place A (fst p + u * bo_width o, snd p + v * bo_height o) -> (u = 1 \/ u = -1 \/ u = 0) -> ahead A p d (if is_horizontal d then bo_width o else bo_height o) = Some p).
          { intros u v -> _. unfold place. cbn [block_area wrapx wrapy aw ah fst snd]. rewrite Et. cbn [fst snd]. rewrite !Z_mod_plus_full. pose proof (place_self A p Hp) as P. unfold place in P. cbn [block_area wrapx wrapy aw ah] in P. rewrite Et in P. exact P. }
          destruct d; [change (is_horizontal RIGHT) with true in *|change (is_horizontal UP) with false in *|change (is_horizontal LEFT) with true in *|change (is_horizontal DOWN) with false in *]; cbv iota in *.
          - apply (PS 1 0); [|auto]. unfold ahead. cbn [step_x step_y]. f_equal. apply pair_equal_spec. split; ring.
          - apply (PS 0 (-1)); [|auto]. unfold ahead. cbn [step_x step_y]. f_equal. apply pair_equal_spec. split; ring.
          - apply (PS (-1) 0); [|auto]. unfold ahead. cbn [step_x step_y]. f_equal. apply pair_equal_spec. split; ring.
          - apply (PS 0 1); [|auto]. unfold ahead. cbn [step_x step_y]. f_equal. apply pair_equal_spec. split; ring. }
        destruct (is_horizontal d); apply Full in X; lia.
      + unfold ahead, place in Eq. cbn [block_area wrapx wrapy aw ah fst snd] in Eq. rewrite Et in Eq. cbn [fst snd] in Eq. unfold insideb in Eq. cbn [block_area aw ah fst snd] in Eq.
        destruct ((0 <=? fst p + k * step_x d) && (fst p + k * step_x d <? bo_width o) && ((0 <=? snd p + k * step_y d) && (snd p + k * step_y d <? bo_height o))) eqn:Eb; [|discriminate].
        rewrite !andb_true_iff, !Z.leb_le, !Z.ltb_lt in Eb. destruct Hp as [Hx Hy]. cbn [block_area aw ah] in Hx, Hy. destruct d; cbn [step_x step_y] in Eb; lia.
  Qed.

  (** ** From solutions to blocks *)
  Lemma block_sound a T : block_rules o a -> reads g a T -> block A T (block_length o) (bo_allow_empty o).
  Proof.
    intros (G & LK & UR & ER & SL & TN & TT) R.
    assert (Tl : forall p, inside A p -> (bo_allow_empty o = false -> T p <> Empty) /\ (bo_length o = 0 -> forall d, vu (view_of a (tile_at g p)) d = false) /\ ~ is_splitter_tile (T p)).
    { intros p Hp. apply (block_tile_sat a T p (T_shows g a T R G p Hp) Hp). apply TT. exact Hp. }
    assert (LR : length_rule g a).
    { destruct (Z.eq_dec (if bo_single o then bo_length o else 4) 0) as [E|N]; [|apply TN; exact N].
      unfold length_rule. cbn [glen block_grid]. rewrite E. intros p d Hp H. destruct (H 0 ltac:(lia)) as (q & Eq & Uq). rewrite (ahead_0 _ p d Hp) in Eq. injection Eq as <-.
      destruct (bo_single o); [|discriminate]. destruct (Tl p Hp) as (_ & N & _). rewrite (N E) in Uq. discriminate. }
    assert (EU : edge_under_rule g a (block_edges o)).
    { unfold block_edges. destruct (bo_tile o) eqn:Et; [|apply ER; reflexivity]. cbn [negb]. intros p d _ H. unfold at_edge in H. cbn [expand_edges] in H. exfalso. destruct d; destruct H; discriminate. }
    pose proof (sound_entrances g W a T R G UR LR _ (edges_match_cover _ _ (block_edges_match o)) EU) as PE.
    pose proof (sound_exits g W a T R G UR LR _ (edges_match_cover _ _ (block_edges_match o)) EU) as PX.
    assert (NU : bo_length o = 0 -> forall p d e, inside A p -> T p <> Underground d e).
    { intros E0. assert (N1 : forall p d, inside A p -> T p <> Underground d true).
      { intros p d Hp E. destruct (PE p d Hp E) as (q & _ & k & Hk & _ & Hc). destruct (Hc 1 ltac:(lia)) as (r & Er & _).
        destruct (UR p d Hp) as (_ & R2 & _). destruct (R2 r Er) as [R3 _]. pose proof (T_shows g a T R G p Hp) as Sp. rewrite E in Sp. destruct Sp as ((S1 & S2 & _) & _).
        assert (Hr : inside A r) by (eapply ahead_inside; exact Er). destruct (Tl r Hr) as (_ & N & _). specialize (N E0 d). rewrite (R3 S1 (proj2 (S2 d) eq_refl)) in N. discriminate. }
      intros p d [] Hp E; [exact (N1 p d Hp E)|]. destruct (PX p d Hp E) as (q & Hq & Tq & _). exact (N1 q d Hq Tq). }
    assert (VL : valid_layout A T (block_length o)).
    { repeat match goal with |- valid_layout _ _ _ => unfold valid_layout | |- _ /\ _ => split end.
      - exact (sound_belt_tiles g a T R G).
      - exact (sound_splitters g a T R G).
      - exact (sound_outputs g a T R G LK).
      - exact (sound_inputs g W a T R G LK).
      - exact (sound_side g W a T R G LK).
      - exact (sound_used g W a T R G LK).
      - unfold block_length. change (max_hidden g) with (if bo_single o then bo_length o else 4) in PE. destruct (bo_single o); [exact PE|].
        destruct (Z.eqb_spec (bo_length o) 0) as [E0|]; [|exact PE]. intros p d Hp E. exfalso. exact (NU E0 p d true Hp E).
      - unfold block_length. change (max_hidden g) with (if bo_single o then bo_length o else 4) in PX. destruct (bo_single o); [exact PX|].
        destruct (Z.eqb_spec (bo_length o) 0) as [E0|]; [|exact PX]. intros p d Hp E. exfalso. exact (NU E0 p d false Hp E). }
    split; [exact VL|]. split; [|split; [|split; [|split]]].
    - intros p d Hp En. destruct (bo_tile o) eqn:Et; [exfalso; destruct (wraps_neighbour p d Et Hp); congruence|].
      destruct (ER eq_refl) as [EB _].
      assert (AE : at_edge g (EBool true) p d).
      { pose proof (blocked_edge g W (block_edges o) (edges_match_cover _ _ (block_edges_match o)) p d Hp En) as X. unfold block_edges in X. rewrite Et in X. exact X. }
      destruct (EB p d Hp AE) as ((E1 & E2) & _). pose proof (T_shows g a T R G p Hp) as Sp. destruct (Tl p Hp) as (_ & _ & Ns). split.
      + intros C. rewrite (shows_takes_inv _ _ _ Sp C Ns) in E1. discriminate.
      + intros C. rewrite (shows_pushes_inv _ _ _ Sp C Ns) in E2. discriminate.
    - intros p Hp. apply Tl. exact Hp.
    - intros E p Hp. apply Tl; assumption.
    - apply (small_loops_exact g W a T R G). exact SL.
    - intros p d k Hp E. destruct (Z.eq_dec (bo_length o) 0) as [E0|N0]; [destruct E as (q & _ & Tp & _); exact (NU E0 p d true Hp Tp)|].
      destruct (empty_tunnel_short T (block_length o) p d k VL Hp E) as [K1 K2].
      destruct (Z.eq_dec (if bo_single o then bo_length o else 4) 0) as [E1|N1].
      + unfold block_length in K1. destruct (bo_single o); [lia|discriminate].
      + destruct (TN N1) as [_ SE]. apply (proj1 (empty_exact g W a T R G) SE p d k Hp); [|exact E].
        unfold useful_length. cbn [block_grid glen geo width height]. unfold block_length in K1. destruct (bo_single o); [lia|]. destruct (bo_length o =? 0); lia.
  Qed.

  (** ** From blocks to solutions *)
  Lemma block_complete T C Cx Cy a0 : block A T (block_length o) (bo_allow_empty o) ->
    (forall c p, gcolours g = Some c -> inside A p -> 0 <= C p < c /\ 0 <= Cx p < c /\ 0 <= Cy p < c) ->
    let a := layout_assignment g T (block_length o) C Cx Cy a0 in block_rules o a /\ reads g a T.
  Proof.
    intros (VL & SE & NS & NE & SL & ET) HC a.
    assert (G : grid_rules g a) by (apply layout_grid_rules; [exact W|exact VL|exact HC]).
    assert (R : reads g a T) by (intros p Hp; apply (decode_layout g W T _ C Cx Cy a0 VL p Hp)).
    split; [|exact R]. split; [exact G|]. split; [intros p d Hp; apply layout_link_rule; auto|]. split; [intros p d Hp; apply layout_under_rule; auto|].
    assert (EU : edge_under_rule g a (block_edges o)) by (apply layout_edge_under_rule; [exact W|exact VL|apply edges_match_closed, block_edges_match]).
    split; [|split; [|split]].
    - intros Et. unfold block_edges in EU. rewrite Et in EU. split; [|exact EU].
      intros p d Hp AE. assert (AE' : at_edge g (block_edges o) p d) by (unfold block_edges; rewrite Et; exact AE).
      pose proof (at_edge_none g (block_edges o) p d (edges_match_closed _ _ (block_edges_match o)) Hp AE') as En.
      destruct (SE p d Hp En) as [S1 S2]. pose proof (layout_shows g W T _ C Cx Cy a0 VL p Hp) as Sp. fold a in Sp.
      assert (Bf : forall b : bool, ~ b = true -> b = false) by (intros []; congruence).
      pose proof VL as (_ & _ & _ & _ & _ & _ & VE & VX).
      assert (N1 : T p <> Underground d true).
      { intros E. destruct (VE p d Hp E) as (q & _ & k & Hk & _ & Hc). destruct (Hc 1 ltac:(lia)) as (r & Er & _). unfold neighbour in En. rewrite garea_block in En. congruence. }
      assert (N2 : T p <> Underground (opposite d) false).
      { intros E. destruct (VX p _ Hp E) as (q & Hq & _ & k & Hk & Ek & Hc). destruct (Hc (k - 1) ltac:(lia)) as (r & Er & _).
        assert (B : neighbour A p d = Some r).
        { unfold neighbour. replace d with (opposite (opposite d)) by (destruct d; reflexivity). rewrite ahead_opposite, (ahead_add A q (opposite d) k (- (1)) p HA Ek).
          replace (k + - (1)) with (k - 1) by lia. exact Er. }
        rewrite garea_block in En. congruence. }
      split; [split|split].
      + apply Bf. intros C'. apply S1. exact (shows_takes _ _ _ Sp C').
      + apply Bf. intros C'. apply S2. exact (shows_pushes _ _ _ Sp C').
      + intros Vi. pose proof (shows_takes _ _ _ Sp Vi) as Tk. pose proof (NS p Hp) as Ns. destruct Sp as [Sp _].
        destruct (T p) as [| |i o'|f []|f h|f k|x y]; cbn in Tk; try contradiction.
        * destruct Sp as (_ & _ & O1 & _). exists o'. apply O1. reflexivity.
        * subst f. contradiction.
      + intros Vo. pose proof (shows_pushes _ _ _ Sp Vo) as Tk. pose proof (NS p Hp) as Ns. destruct Sp as [Sp _].
        destruct (T p) as [| |i o'|f []|f h|f k|x y]; cbn in Tk; try contradiction.
        * destruct Sp as (_ & I1 & _ & _). exists i. apply I1. reflexivity.
        * subst f. contradiction.
    - apply (small_loops_exact g W a T R G). exact SL.
    - intros Hl. split.
      + apply layout_length_rule; [exact W|exact VL|]. intros l El. apply Some_inj in El. unfold block_length. destruct (bo_single o); [lia|]. destruct (bo_length o =? 0); lia.
      + apply (empty_exact g W a T R G). intros p d k Hp _. apply ET. exact Hp.
    - intros p Hp. apply (block_tile_sat a T p (layout_shows g W T _ C Cx Cy a0 VL p Hp) Hp). split; [intros E; apply NE; assumption|]. split; [|apply NS; exact Hp].
      intros E0 d. destruct (view_layout g W T (block_length o) C Cx Cy a0 p Hp) as (_ & _ & _ & _ & _ & _ & _ & _ & _ & _ & Vu). unfold a. rewrite Vu.
      destruct (f_under (garea g) T (block_length o) p d) eqn:U; [|reflexivity]. exfalso.
      destruct (f_under_inside (garea g) T (block_length o) HA VL p d Hp U) as (j & k & e & x & _ & _ & He & _ & _ & Te & _).
      apply (no_tunnels T (block_length o) VL) in Te; [exact Te| |exact He]. unfold block_length. rewrite E0. destruct (bo_single o); cbn; lia.
  Qed.

  (** ** Single loops *)
  Lemma block_successor T L ae p : block A T L ae -> ae = false -> inside A p -> exists q, inside A q /\ follows A T L p q.
  Proof.
    intros (VL & SE & NS & NE & _) E Hp. pose proof VL as (VB & _ & _ & _ & _ & _ & VE & _).
    assert (P : forall d, pushes (T p) d -> exists q, inside A q /\ follows A T L p q).
    { intros d Pd. destruct (neighbour A p d) as [q|] eqn:En.
      - exists q. split; [eapply ahead_inside; exact En|]. left. split; [exact Hp|]. split; [apply NS; exact Hp|]. eauto.
      - destruct (SE p d Hp En) as [_ C]. contradiction. }
    specialize (VB p Hp). destruct (T p) as [| |i o'|f []|f h|f k|x y] eqn:Tp; try contradiction.
    - exfalso. exact (NE E p Hp Tp).
    - apply (P o'). reflexivity.
    - destruct (VE p f Hp Tp) as (q & Tq & K). exists q. assert (S : sends_under A T L p q) by (split; [exact Hp|]; exists f; auto).
      split; [apply (follows_inside A T L p q); right; exact S|right; exact S].
    - apply (P f). reflexivity.
    - exfalso. apply (NS p Hp). rewrite Tp. exact Logic.I.
  Qed.

  Lemma corner_filled T L p : block A T L false -> bo_tile o = false -> follows A T L p corner -> exists d, pushes (T p) d /\ go p d = (0, 0).
  Proof.
    intros (VL & SE & NS & NE & _) Et [(Hp & Ns & d & Pd & En)|(Hp & d & Tp & Tq & k & Hk & Ek & Hc)].
    - exists d. split; [exact Pd|]. unfold neighbour, ahead, place in En. cbn [block_area wrapx wrapy] in En. rewrite Et in En.
      destruct (insideb _ _); [|discriminate]. apply Some_inj in En. unfold corner in En. rewrite <- En. unfold go. apply pair_equal_spec. cbn [fst snd]. split; ring.
    - exfalso. pose proof (o_inside A HA) as Ho.
      assert (X : d = LEFT \/ d = UP).
      { unfold ahead, place in Ek. cbn [block_area wrapx wrapy] in Ek. rewrite Et in Ek. destruct (insideb _ _); [|discriminate]. apply Some_inj in Ek. unfold corner in Ek.
        apply pair_equal_spec in Ek. cbn [fst snd] in Ek. destruct Ek as [E1 E2]. destruct Hp as [Hx Hy]. destruct d; cbn [step_x step_y] in *; auto; lia. }
      assert (N : neighbour A corner d = None).
      { unfold neighbour, ahead, place, corner, insideb. cbn [block_area wrapx wrapy aw ah fst snd]. rewrite Et.
        destruct X as [-> | ->]; cbn [step_x step_y fst snd]; [reflexivity|]. change (0 <=? 0 + 1 * -1) with false. rewrite andb_false_r. reflexivity. }
      destruct (SE _ d Ho N) as [_ C]. apply C. rewrite Tq. reflexivity.
  Qed.

  Lemma single_bits : bo_single o = true -> 2 <= n -> (0 < colour_bits g)%nat.
  Proof. intros E H. unfold colour_bits. cbn [block_grid gcolours]. rewrite E. apply P_NetArith.some_bits. lia. Qed.
  Lemma single_colours : bo_single o = true -> gcolours g = Some n.
  Proof. intros E. cbn [block_grid gcolours]. rewrite E. reflexivity. Qed.
  Lemma single_span : bo_single o = true -> (n = 2 ^ Z.of_nat (colour_bits g) <-> exists k, 0 <= k /\ n = 2 ^ k).
  Proof.
    intros E. assert (Hn : 0 < n) by (destruct HA; apply Z.mul_pos_pos; assumption).
    assert (Eb : Z.of_nat (colour_bits g) = bit_length (n - 1)).
    { unfold colour_bits. rewrite (single_colours E). apply Z2Nat.id. apply P_NetArith.bit_length_bound. lia. }
    destruct (P_NetArith.bit_length_bound (n - 1) ltac:(lia)) as (B1 & B2 & B3). rewrite Eb. split; [intros H; exists (bit_length (n - 1)); auto|].
    intros (k & Hk & Ek). specialize (B3 k Hk ltac:(lia)). assert (2 ^ bit_length (n - 1) <= 2 ^ k) by (apply Z.pow_le_mono_r; lia). lia.
  Qed.

  Lemma single_sound a T lc : bo_single o = true -> 2 <= n -> block_rules o a -> reads g a T -> ensure_loop_length g = Some lc -> sat a lc = true ->
    single_loop A T (block_length o) /\
    ((exists k, 0 <= k /\ n = 2 ^ k) \/ forall p, follows A T (block_length o) p corner -> exists d, pushes (T p) d /\ go p d = (0, 0)).
  Proof.
    intros Es Hn BR R El Sl. pose proof (block_sound a T BR R) as B. pose proof BR as (G & LK & UR & _).
    destruct (loop_sat g W a n (single_colours Es) (single_bits Es Hn)) as (lc' & El' & Sl'). rewrite El in El'. apply Some_inj in El'. subst lc'.
    pose proof (proj1 Sl' Sl) as SX. clear Sl. rename SX into Sl. assert (SR : forall p, inside (garea g) p -> start_rule g a p) by (intros p Hp; apply (Sl p Hp)).
    assert (LR : forall p d, inside (garea g) p -> loop_rule g a n p d) by (intros p d Hp; apply (Sl p Hp)).
    assert (Ea : bo_allow_empty o = false) by (pose proof SO as (_ & _ & _ & E); rewrite Es, andb_true_r in E; exact E). split.
    - apply (count_loop A HA (follows A T (block_length o)) (hue g a)).
      + exact (hue_range g a G n (single_colours Es)).
      + apply (SR corner (o_inside A HA)). reflexivity.
      + intros p Hp. exact (block_successor T _ _ p B Ea Hp).
      + intros p q Hp Hq F. exact (follows_counts g W a T R G UR n (single_colours Es) SR LR _ p q F).
    - destruct (Z.eq_dec n (2 ^ Z.of_nat (colour_bits g))) as [E|N]; [left; apply (single_span Es); exact E|].
      right. intros p F. apply (corner_entry g W a T R G UR n (single_colours Es) SR LR _ p F).
      pose proof (span_fits g W n (single_colours Es)). lia.
  Qed.

  Lemma single_complete T : bo_single o = true -> 2 <= n -> block A T (block_length o) false -> single_loop A T (block_length o) ->
    ((exists k, 0 <= k /\ n = 2 ^ k) \/ forall p, follows A T (block_length o) p corner -> exists d, pushes (T p) d /\ go p d = (0, 0)) ->
    exists a lc, block_rules o a /\ reads g a T /\ ensure_loop_length g = Some lc /\ sat a lc = true.
  Proof.
    intros Es Hn B SL HE. pose proof B as (VL & _ & NS & _).
    assert (Ea : bo_allow_empty o = false) by (pose proof SO as (_ & _ & _ & E); rewrite Es, andb_true_r in E; exact E).
    destruct (loop_numbering A HA T _ SL) as (C & Cr & C0 & Cf).
    assert (HE' : n = 2 ^ Z.of_nat (colour_bits g) \/ forall p, follows A T (block_length o) p corner -> exists d, pushes (T p) d /\ go p d = (0, 0)).
    { destruct HE as [E|E]; [left; apply (single_span Es); exact E|right; exact E]. }
    set (a := layout_assignment g T (block_length o) C (below_x g T (block_length o) C) (below_y g T (block_length o) C) (fun _ => false)).
    destruct (block_complete T C (below_x g T (block_length o) C) (below_y g T (block_length o) C) (fun _ => false)) as [BR R].
    - rewrite Ea. exact B.
    - intros c p Ec Hp. rewrite (single_colours Es) in Ec. apply Some_inj in Ec. subst c. split; [apply Cr; exact Hp|].
      split; [exact (bq_range g W T _ C VL n (single_colours Es) Cr C0 Cf HE' RIGHT p Hp)|exact (bq_range g W T _ C VL n (single_colours Es) Cr C0 Cf HE' UP p Hp)].
    - fold a in BR, R. exists a. destruct (loop_sat g W a n (single_colours Es) (single_bits Es Hn)) as (lc & El & Sl). exists lc.
      split; [exact BR|]. split; [exact R|]. split; [exact El|]. apply Sl. intros p Hp. split.
      + exact (layout_start_rule g W T _ C (fun _ => false) VL n (single_colours Es) Cr C0 Cf HE' p Hp).
      + intros d. exact (layout_loop_rule g W T _ C (fun _ => false) VL NS n (single_colours Es) Cr C0 Cf HE' p d Hp).
  Qed.

  (** A single cell holds no block that is not empty. *)
  Lemma one_cell T L : bo_tile o = false -> n = 1 -> ~ block A T L false.
  Proof.
    intros Et Hn B. pose proof HA as [Hw Hh]. cbn [aw ah block_area] in Hw, Hh. assert (E1 : bo_width o = 1) by nia. assert (E2 : bo_height o = 1) by nia.
    pose proof (o_inside A HA) as Ho. destruct (block_successor T L false corner B eq_refl Ho) as (q & Hq & F). 
    assert (N : forall d, neighbour A corner d = None).
    { intros d. unfold neighbour, ahead, place, corner, insideb. cbn [block_area wrapx wrapy aw ah fst snd]. rewrite Et, E1, E2. destruct d; reflexivity. }
    destruct F as [(_ & _ & d & _ & En)|(_ & d & _ & _ & k & Hk & _ & Hc)]; [rewrite N in En; discriminate|].
    destruct (Hc 1 ltac:(lia)) as (r & Er & _). specialize (N d). unfold neighbour in N. congruence.
  Qed.
End Exact.
