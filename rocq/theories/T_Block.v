(** * Theorems about make_block.py (C58, C72 to C75) *)
From Coq Require Import String ZArith List Bool Lia.
From Verif Require Import Spec_Cnf Spec_Tile Spec_Layout Spec_Pattern Spec_Loop M_Json M_Tile M_Util M_Card M_Template M_Grid M_Balancer M_Optimise M_Block M_Solve
  P_Cnf P_Util P_Util3 P_Card P_Tile P_Layout P_List P_Template P_Walk P_Grid P_GridSound P_GridComplete P_Transport P_Trace P_Solve T_Template T_Grid P_Pattern P_Block P_Block2 T_Enumerate.
From Verif Require P_Allocate.
Import ListNotations.
Open Scope Z_scope.

(** The corner of the loop: with a number of cells that is not a power of two
    the cell (0, 0) must be entered from its neighbour on the right or below. *)
Definition corner_entered (A : area) (T : layout) : Prop :=
  (exists k, 0 <= k /\ aw A * ah A = 2 ^ k) \/
  exists p d, inside A p /\ pushes (T p) d /\ go p d = (0, 0).

(** What the clauses describe. *)
Definition described (o : block_options) (T : layout) : Prop :=
  block (block_area o) T (block_length o) (bo_allow_empty o) /\
  (bo_single o = true -> single_loop (block_area o) T (block_length o) /\ corner_entered (block_area o) T).

Lemma corner_follows A T L : wf_area A -> valid_layout A T L -> (forall p, inside A p -> ~ is_splitter_tile (T p)) -> single_loop A T L ->
  ((exists p d, inside A p /\ pushes (T p) d /\ go p d = (0, 0)) <->
   (forall p, follows A T L p corner -> exists d, pushes (T p) d /\ go p d = (0, 0))).
Proof.
  intros HA VL NS SL. split.
  - intros (p & d & Hp & Pd & Gd) p' F. enough (p' = p) by (subst p'; eauto). apply (step_inj A T L HA VL p' p corner F). left. split; [exact Hp|]. split; [apply NS; exact Hp|].
    exists d. split; [exact Pd|]. unfold neighbour, ahead. replace (fst p + 1 * step_x d, snd p + 1 * step_y d) with (go p d) by (unfold go; apply pair_equal_spec; split; ring).
    rewrite Gd. apply (place_self A (0, 0)). apply (o_inside A HA).
  - intros H. destruct SL as (cell & Ci & Cs & Cj & Cf). pose proof (n_pos A HA) as Hn. destruct (Cs corner (o_inside A HA)) as (i & Hi & Ei).
    assert (F : follows A T L (cell ((i - 1) mod (aw A * ah A))) corner).
    { pose proof (Z.mod_pos_bound (i - 1) _ Hn) as B. specialize (Cf _ B). rewrite Zplus_mod_idemp_l in Cf. replace (i - 1 + 1) with i in Cf by lia. rewrite (Z.mod_small i) in Cf by exact Hi. rewrite Ei in Cf. exact Cf. }
    destruct (H _ F) as (d & Pd & Gd). exists (cell ((i - 1) mod (aw A * ah A))), d. split; [apply Ci; apply Z.mod_pos_bound; exact Hn|]. auto.
Qed.

(** ** When make_block accepts its arguments *)
Lemma loop_length_one g : colour_bits g = 0%nat -> (exists p d q, In p (row_major g) /\ get_tile_instance_offset (geo g) (fst p) (snd p) (dx d) (dy d) = Some q) -> ensure_loop_length g = None.
Proof.
  intros Hb (p & d & q & Hp & Eq). destruct (ensure_loop_length g) as [cs|] eqn:E; [exfalso|reflexivity]. unfold ensure_loop_length in E. destruct (gcolours g) as [n|]; [|discriminate].
  destruct (oflat_each _ _ _ E p Hp) as [c Ec]. destruct (oflat (loop_step g n p) directions) as [c'|] eqn:Ed; [|discriminate].
  destruct (oflat_each _ _ _ Ed d (directions_all d)) as [c'' Es]. unfold loop_step in Es. rewrite Eq in Es.
  assert (En : increment_number (colour (tile_at g p)) (tunnel_colour g d q) = None).
  { destruct (increment_number (colour (tile_at g p)) (tunnel_colour g d q)) eqn:Ei; [|reflexivity]. exfalso.
    destruct (proj1 (increment_number_some (colour (tile_at g p)) (tunnel_colour g d q)) (ex_intro _ _ Ei)) as [_ N]. apply N.
    unfold colour, tile_at, tile_vars. rewrite Hb. reflexivity. }
  rewrite En in Es. destruct (if (fst p + dx d =? 0) && (snd p + dy d =? 0) then set_number (n - 1) (colour (tile_at g p)) else increment_number (colour (tile_at g p)) (colour (tile_at g q))); discriminate.
Qed.

Lemma closed_one_cell o p d : bo_tile o = false -> bo_width o = 1 -> bo_height o = 1 -> inside (block_area o) p -> neighbour (block_area o) p d = None.
Proof.
  intros Et E1 E2 [Hx Hy]. destruct p as [x y]. cbn [block_area aw ah fst snd] in Hx, Hy. assert (x = 0) by lia. assert (y = 0) by lia. subst.
  unfold neighbour, ahead, place, insideb. cbn [block_area wrapx wrapy aw ah fst snd]. rewrite Et, E1, E2. destruct d; reflexivity.
Qed.

(** ** C74 *)
(** make_block accepts its arguments exactly if the sizes are positive, the
    length is not negative, empty tiles are not combined with a single loop,
    --no-parallel is given only for a single closed cell, and a single loop on
    a torus has at least two cells: in all other cases it raises. *)
Theorem C74_accepted o : (exists gc, make_block o = Some gc) <->
  0 < bo_width o /\ 0 < bo_height o /\ 0 <= bo_length o /\ bo_allow_empty o && bo_single o = false /\
  (bo_no_parallel o = true -> bo_width o = 1 /\ bo_height o = 1 /\ bo_tile o = false) /\
  (bo_single o = true -> bo_tile o = true -> 2 <= bo_width o * bo_height o).
Proof.
  split.
  - intros [[g cs] E]. destruct (block_inv o g cs E) as (SO & -> & NP & LO & _). pose proof (block_wf o SO) as W. pose proof SO as (Hw & Hh & Hl & He).
    pose proof (WA _ W) as HA. split; [exact Hw|]. split; [exact Hh|]. split; [exact Hl|]. split; [exact He|]. split.
    + intros En. destruct (NP En) as [c Ec]. unfold prevent_parallel in Ec.
      assert (X : forall p, inside (block_area o) p -> neighbour (block_area o) p UP = None /\ neighbour (block_area o) p LEFT = None).
      { intros p Hp. assert (Ip : In p (cells (width (geo (block_grid o))) (height (geo (block_grid o))))).
        { unfold cells. apply in_flat_map. destruct p as [x y]. destruct Hp as [Hx Hy]. exists x. split; [apply range_in; exact Hx|]. apply in_map. apply range_in. exact Hy. }
        destruct (oflat_each _ _ _ Ec p Ip) as [c' Ec']. pose proof (oflat_each _ _ _ Ec') as K.
        assert (Y : forall d, In d [RIGHT; UP] -> neighbour (block_area o) p (next d) = None).
        { intros d Hd. destruct (K d Hd) as [c'' Ed]. rewrite (offset_neighbour (block_grid o) W) in Ed. destruct (neighbour (garea (block_grid o)) p (next d)) eqn:En'; [discriminate|]. exact En'. }
        split; [apply (Y RIGHT)|apply (Y UP)]; cbn; auto. }
      assert (Il : inside (block_area o) (bo_width o - 1, bo_height o - 1)) by (split; cbn; lia). destruct (X _ Il) as [N1 N2].
      destruct (neighbour_none (block_area o) _ UP HA Il N1) as [W1 D1]. destruct (neighbour_none (block_area o) _ LEFT HA Il N2) as [W2 D2].
      cbn in W1, W2, D1, D2. split; [lia|]. split; [lia|]. exact W1.
    + intros Es Et. destruct (Z.leb_spec 2 (bo_width o * bo_height o)) as [|H]; [assumption|exfalso]. destruct (LO Es) as [lc El].
      assert (En : ensure_loop_length (block_grid o) = None); [|congruence]. apply loop_length_one.
      * unfold colour_bits. cbn [block_grid gcolours]. rewrite Es. assert (bo_width o * bo_height o = 1) by (assert (0 < bo_width o * bo_height o) by (apply Z.mul_pos_pos; assumption); lia). rewrite H0. reflexivity.
      * destruct (wraps_neighbour o SO corner RIGHT Et (o_inside _ HA)) as [q Eq]. exists corner, RIGHT, q. split; [apply (row_major_in (block_grid o)); apply (o_inside _ HA)|].
        rewrite (offset_neighbour (block_grid o) W). exact Eq.
  - intros (Hw & Hh & Hl & He & HP & HS). assert (SO : sensible o) by (repeat split; assumption). pose proof (block_wf o SO) as W. pose proof (WA _ W) as HA.
    unfold make_block. rewrite He. destruct (Z.ltb_spec (bo_length o) 0); [lia|]. destruct (Z.ltb_spec 0 (bo_width o)); [|lia]. destruct (Z.ltb_spec 0 (bo_height o)); [|lia]. cbn [andb negb].
    destruct (init_sat _ W (fun _ => false)) as (ic & Ei & _). rewrite Ei. cbn [obind].
    assert (TN : exists tc, match glen (block_grid o) with Some l => if 0 <? l then let* c := enforce_maximum_underground_length (block_grid o) in Some (c ++ prevent_empty_along_underground (block_grid o))%list else Some [] | None => Some [] end = Some tc).
    { cbn [block_grid glen]. destruct (Z.ltb_spec 0 (if bo_single o then bo_length o else 4)) as [K|K]; [|eauto]. unfold enforce_maximum_underground_length. cbn [block_grid glen].
      destruct (Z.leb_spec 1 (if bo_single o then bo_length o else 4)); [|lia]. cbn [negb obind]. eauto. }
    destruct TN as [tc ->]. cbn [obind].
    assert (PP : exists pc, (if bo_no_parallel o then prevent_parallel (block_grid o) else Some []) = Some pc).
    { destruct (bo_no_parallel o); [|eauto]. destruct (HP eq_refl) as (E1 & E2 & E3). unfold prevent_parallel. apply oflat_some. intros p Hp.
      apply oflat_some. intros d _. rewrite (offset_neighbour (block_grid o) W).
      assert (Ip : inside (block_area o) p).
      { unfold cells in Hp. apply in_flat_map in Hp. destruct Hp as (x & Hx & Hp). apply in_map_iff in Hp. destruct Hp as (y & <- & Hy). apply range_in in Hx. apply range_in in Hy. split; assumption. }
      replace (neighbour (garea (block_grid o)) p (next d)) with (@None pos) by (symmetry; exact (closed_one_cell o p (next d) E3 E1 E2 Ip)). eauto. }
    destruct PP as [pc ->]. cbn [obind].
    assert (LL : exists lc, (if bo_single o then ensure_loop_length (block_grid o) else Some []) = Some lc).
    { destruct (bo_single o) eqn:Es; [|eauto].
      destruct (Z.leb_spec 2 (bo_width o * bo_height o)) as [H2|H2].
      - destruct (loop_sat (block_grid o) W (fun _ => false) (bo_width o * bo_height o) (single_colours o Es) (single_bits o Es H2)) as (lc & El & _). eauto.
      - assert (Et : bo_tile o = false) by (destruct (bo_tile o); [specialize (HS eq_refl eq_refl); lia|reflexivity]).
        assert (E1 : bo_width o = 1) by nia. assert (E2 : bo_height o = 1) by nia.
        unfold ensure_loop_length. rewrite (single_colours o Es). apply oflat_some. intros p Hp. apply (row_major_in (block_grid o)) in Hp.
        destruct (oflat_some (loop_step (block_grid o) (bo_width o * bo_height o) p) directions) as [c ->]; [|cbn [obind]; eauto].
        intros d _. unfold loop_step. rewrite (offset_neighbour (block_grid o) W).
        replace (neighbour (garea (block_grid o)) p d) with (@None pos) by (symmetry; exact (closed_one_cell o p d Et E1 E2 Hp)). eauto. }
    destruct LL as [lc ->]. cbn [obind]. eauto.
Qed.

(** So --no-parallel is of no use: on every block of more than one cell, and on
    every tileable one, it raises. *)
Corollary C74_no_parallel_refuted o : bo_no_parallel o = true -> 1 < bo_width o \/ 1 < bo_height o \/ bo_tile o = true -> make_block o = None.
Proof.
  intros En H. destruct (make_block o) as [gc|] eqn:E; [exfalso|reflexivity]. destruct (proj1 (C74_accepted o) (ex_intro _ _ E)) as (_ & _ & _ & _ & HP & _).
  destruct (HP En) as (H1 & H2 & H3). destruct H as [H|[H|H]]; [lia|lia|congruence].
Qed.

(** ** C72 and C73 *)
(** The clauses describe exactly the sealed valid layouts without splitters
    (and without empty tiles unless they are allowed), without two-by-two loops
    and without tunnels under empty tiles only; with --single-loop, exactly
    those among them that form a single loop, if its corner is entered from
    inside or the number of cells is a power of two. *)
Theorem C72_described_exactly o g cs T : make_block o = Some (g, cs) ->
  ((exists a, sat a cs = true /\ reads g a T) <-> described o T).
Proof.
  intros E. destruct (block_inv o g cs E) as (SO & -> & _ & LO & SX). pose proof (block_wf o SO) as W. pose proof (WA _ W) as HA.
  change (garea (block_grid o)) with (block_area o) in HA.
  destruct (proj1 (C74_accepted o) (ex_intro _ _ E)) as (Hw & Hh & _ & He & _ & HS).
  assert (Hn : 0 < bo_width o * bo_height o) by (apply Z.mul_pos_pos; assumption).
  assert (Ea : bo_single o = true -> bo_allow_empty o = false) by (intros Es; rewrite Es, andb_true_r in He; exact He).
  assert (Closed1 : bo_single o = true -> ~ 2 <= bo_width o * bo_height o -> ~ block (block_area o) T (block_length o) (bo_allow_empty o)).
  { intros Es Hn1. rewrite (Ea Es). apply (one_cell o SO T); [|lia]. destruct (bo_tile o); [exfalso; auto|reflexivity]. }
  split.
  - intros (a & Sa & R). apply SX in Sa. destruct Sa as [BR SL]. pose proof (block_sound o SO a T BR R) as B. split; [exact B|]. intros Es.
    destruct (Z_le_dec 2 (bo_width o * bo_height o)) as [H2|H2]; [|exfalso; exact (Closed1 Es H2 B)].
    destruct (SL Es) as (lc & El & Sl). destruct (single_sound o SO a T lc Es H2 BR R El Sl) as [L1 L2]. split; [exact L1|].
    destruct L2 as [K|K]; [left; exact K|right]. pose proof B as (VL & _ & NS & _). apply (corner_follows _ T _ HA VL NS L1). exact K.
  - intros [B SL]. destruct (bo_single o) eqn:Es.
    + destruct (Z_le_dec 2 (bo_width o * bo_height o)) as [H2|H2]; [|exfalso; exact (Closed1 eq_refl H2 B)].
      destruct (SL eq_refl) as [L1 L2]. pose proof B as (VL & _ & NS & _). rewrite (Ea eq_refl) in B.
      destruct (single_complete o SO T Es H2 B L1) as (a & lc & BR & R & El & Sl).
      { destruct L2 as [K|K]; [left; exact K|right]. apply (corner_follows _ T _ HA VL NS L1). exact K. }
      exists a. split; [|exact R]. apply SX. split; [exact BR|]. intros _. eauto.
    + destruct (block_complete o SO T (fun _ => 0) (fun _ => 0) (fun _ => 0) (fun _ => false) B) as [BR R].
      { intros c p Ec _. cbn [block_grid gcolours] in Ec. rewrite Es in Ec. apply Some_inj in Ec. subst c. lia. }
      eexists. split; [|exact R]. apply SX. split; [exact BR|discriminate].
Qed.

(** ** C58 *)
(** With --single-loop every solution is one closed loop through all cells. *)
Theorem C58_single_loop o g cs a T : make_block o = Some (g, cs) -> bo_single o = true ->
  sat a cs = true -> reads g a T -> single_loop (block_area o) T (bo_length o).
Proof.
  intros E Es Sa R. destruct (proj1 (C72_described_exactly o g cs T E) (ex_intro _ a (conj Sa R))) as [_ H]. destruct (H Es) as [H1 _].
  unfold block_length in H1. rewrite Es in H1. exact H1.
Qed.

(** On a closed rectangle nothing is lost: every layout that is a block and a
    single loop is found. *)
Theorem C73_closed_loops_found o g cs T : make_block o = Some (g, cs) -> bo_single o = true -> bo_tile o = false ->
  block (block_area o) T (bo_length o) false -> single_loop (block_area o) T (bo_length o) ->
  exists a, sat a cs = true /\ reads g a T.
Proof.
  intros E Es Et B SL. destruct (block_inv o g cs E) as (SO & _). pose proof (WA _ (block_wf o SO)) as HA. change (garea (block_grid o)) with (block_area o) in HA.
  assert (Ea : bo_allow_empty o = false) by (pose proof SO as (_ & _ & _ & He); rewrite Es, andb_true_r in He; exact He).
  assert (EL : block_length o = bo_length o) by (unfold block_length; rewrite Es; reflexivity).
  apply (C72_described_exactly o g cs T E). unfold described. rewrite EL, Ea. split; [exact B|]. intros _. split; [exact SL|]. right.
  pose proof B as (VL & _ & NS & _). apply (corner_follows _ T _ HA VL NS SL). intros p F. exact (corner_filled o SO T (bo_length o) p B Et F).
Qed.

(** On a torus loops are lost: the ring of belts through a single row is a block
    and a single loop, but it enters the corner across the border, and it is
    found only if its length is a power of two. *)
Definition row_options (w l : Z) : block_options :=
  {| bo_width := w; bo_height := 1; bo_tile := true; bo_allow_empty := false; bo_length := l; bo_no_parallel := false; bo_single := true |}.
Definition row_ring : layout := fun _ => Belt RIGHT RIGHT.

Lemma row_ring_block w l : 0 < w -> 0 <= l -> block (block_area (row_options w l)) row_ring l false /\ single_loop (block_area (row_options w l)) row_ring l.
Proof.
  intros Hw Hl. split.
  - split; [|split; [|split; [|split; [|split]]]].
    + unfold valid_layout. repeat match goal with |- _ /\ _ => split end.
      * intros p _. cbn. discriminate.
      * intros p d h _ E. discriminate.
      * intros p d q _ P _ _. exact P.
      * intros p d q _ P _ _. exact P.
      * intros p d h q i o _ E. discriminate.
      * intros p d h _ E. discriminate.
      * intros p d _ E. discriminate.
      * intros p d _ E. discriminate.
    + intros p d Hp En. exfalso. assert (SO : sensible (row_options w l)) by (repeat split; cbn; lia).
      destruct (wraps_neighbour _ SO p d eq_refl Hp) as [q Eq]. congruence.
    + intros p _ [].
    + intros _ p _. discriminate.
    + intros (p & d & t & Hdt & _ & E & _). injection E as E1 E2. subst d. assert (t = LEFT) by (destruct t; cbn in E1; congruence). subst t. cbn in Hdt. destruct Hdt; discriminate.
    + intros p d k _ (q & _ & E & _). discriminate.
  - exists (fun i => (i, 0)). cbv zeta. cbn [block_area aw ah row_options bo_width bo_height]. rewrite Z.mul_1_r. split; [|split; [|split]].
    + intros i Hi. split; cbn; lia.
    + intros [x y] [Hx Hy]. cbn in Hx, Hy. exists x. split; [lia|]. f_equal. lia.
    + intros i j _ _ [=]. assumption.
    + intros i Hi. left. split; [split; cbn; lia|]. split; [intros []|]. exists RIGHT. split; [reflexivity|].
      unfold neighbour, ahead, place, insideb. cbn [block_area row_options wrapx wrapy bo_tile bo_width bo_height aw ah fst snd step_x step_y].
      replace (i + 1 * 1) with (i + 1) by ring. replace ((0 + 1 * 0) mod 1) with 0 by reflexivity.
      pose proof (Z.mod_pos_bound (i + 1) w Hw) as B. destruct (Z.leb_spec 0 ((i + 1) mod w)); [|lia]. destruct (Z.ltb_spec ((i + 1) mod w) w); [|lia]. reflexivity.
Qed.

Theorem C73_torus_loop_lost_refuted w l g cs : 2 <= w -> make_block (row_options w l) = Some (g, cs) ->
  block (block_area (row_options w l)) row_ring l false /\ single_loop (block_area (row_options w l)) row_ring l /\
  ((exists a, sat a cs = true /\ reads g a row_ring) <-> exists k, 0 <= k /\ w = 2 ^ k).
Proof.
  intros Hw E. destruct (block_inv _ g cs E) as (SO & _). pose proof SO as (_ & _ & Hl & _). cbn in Hl.
  destruct (row_ring_block w l ltac:(lia) Hl) as [B SL]. split; [exact B|]. split; [exact SL|]. rewrite (C72_described_exactly _ g cs row_ring E). unfold described.
  split.
  - intros [_ H]. destruct (H eq_refl) as [_ [K|(p & d & Hp & Pd & Gd)]].
    + cbn [block_area aw ah row_options bo_width bo_height] in K. rewrite Z.mul_1_r in K. exact K.
    + exfalso. cbn in Pd. subst d. unfold go in Gd. destruct p as [x y]. destruct Hp as [Hx Hy]. cbn [fst snd step_x step_y block_area aw ah row_options bo_width bo_height] in *.
      injection Gd as G1 G2. lia.
  - intros K. split; [exact B|]. intros _. split; [exact SL|]. left. cbn [block_area aw ah row_options bo_width bo_height]. rewrite Z.mul_1_r. exact K.
Qed.
Example C73_torus_three : exists g cs, make_block (row_options 3 4) = Some (g, cs) /\ ~ exists a, sat a cs = true /\ reads g a row_ring.
Proof.
  destruct (proj2 (C74_accepted (row_options 3 4))) as [[g cs] E]; [cbn; repeat split; try lia; discriminate|]. exists g, cs. split; [exact E|].
  intros H. destruct (C73_torus_loop_lost_refuted 3 4 g cs ltac:(lia) E) as (_ & _ & X). apply X in H. destruct H as (k & Hk & Ek).
  assert (k = 0 \/ k = 1 \/ 2 <= k) as [-> |[-> | H]] by lia; [discriminate|discriminate|]. assert (2 ^ 2 <= 2 ^ k) by (apply Z.pow_le_mono_r; lia). lia.
Qed.
(** Of four cells, a power of two, the ring is found. *)
Example C73_torus_four : exists g cs a, make_block (row_options 4 4) = Some (g, cs) /\ sat a cs = true /\ reads g a row_ring.
Proof.
  destruct (proj2 (C74_accepted (row_options 4 4))) as [[g cs] E]; [cbn; repeat split; try lia; discriminate|]. exists g, cs.
  destruct (C73_torus_loop_lost_refuted 4 4 g cs ltac:(lia) E) as (_ & _ & X). destruct (proj2 X) as (a & Sa & R); [exists 2; split; [lia|reflexivity]|]. eauto.
Qed.

(** ** The length of tunnels without --single-loop *)
(** The length given is not used, unless it is 0: the clauses are those of
    length 4 ... *)
Definition with_length (o : block_options) (l : Z) : block_options :=
  {| bo_width := bo_width o; bo_height := bo_height o; bo_tile := bo_tile o; bo_allow_empty := bo_allow_empty o; bo_length := l; bo_no_parallel := bo_no_parallel o; bo_single := bo_single o |}.
Lemma length_ignored o l : bo_single o = false -> 1 <= l -> 1 <= bo_length o -> make_block (with_length o l) = make_block o.
Proof.
  intros Es Hl Ho. unfold make_block, with_length. cbn [bo_width bo_height bo_tile bo_allow_empty bo_length bo_no_parallel bo_single]. rewrite Es, andb_false_r.
  destruct (Z.ltb_spec l 0); [lia|]. destruct (Z.ltb_spec (bo_length o) 0); [lia|].
  assert (Eg : block_grid {| bo_width := bo_width o; bo_height := bo_height o; bo_tile := bo_tile o; bo_allow_empty := bo_allow_empty o; bo_length := l; bo_no_parallel := bo_no_parallel o; bo_single := false |} = block_grid o) by (unfold block_grid; cbn; rewrite Es; reflexivity).
  rewrite Eg. assert (Et : forall t, block_tile {| bo_width := bo_width o; bo_height := bo_height o; bo_tile := bo_tile o; bo_allow_empty := bo_allow_empty o; bo_length := l; bo_no_parallel := bo_no_parallel o; bo_single := false |} t = block_tile o t).
  { intros t. unfold block_tile. cbn [bo_length bo_allow_empty]. destruct (Z.eqb_spec l 0); [lia|]. destruct (Z.eqb_spec (bo_length o) 0); [lia|]. reflexivity. }
  rewrite (flat_map_ext _ _ (fun p => Et (tile_at (block_grid o) p))). reflexivity.
Qed.
(** ... so that blocks contain tunnels that are too long: on a torus of six
    cells the limit 1 admits a tunnel under four belts. *)
Definition six_options (l : Z) : block_options :=
  {| bo_width := 6; bo_height := 1; bo_tile := true; bo_allow_empty := false; bo_length := l; bo_no_parallel := false; bo_single := false |}.
Definition six_layout : layout := fun p => if fst p =? 0 then Underground RIGHT false else if fst p =? 1 then Underground RIGHT true else Belt UP UP.

Lemma six_cells p : inside (block_area (six_options 1)) p -> In p [(0, 0); (1, 0); (2, 0); (3, 0); (4, 0); (5, 0)].
Proof.
  destruct p as [x y]. intros [Hx Hy]. change (0 <= x < 6) in Hx. change (0 <= y < 1) in Hy. assert (y = 0) by lia. subst y.
  assert (x = 0 \/ x = 1 \/ x = 2 \/ x = 3 \/ x = 4 \/ x = 5) as H by lia. cbn. intuition (subst; auto 10).
Qed.
Ltac six H := apply six_cells in H; cbn [In] in H; repeat match type of H with _ \/ _ => destruct H as [H|H] | False => contradiction end; subst.

Lemma six_block : block (block_area (six_options 1)) six_layout 4 false.
Proof.
  assert (TU : tunnel (block_area (six_options 1)) six_layout 4 (1, 0) RIGHT (0, 0)).
  { exists 5. split; [lia|]. split; [reflexivity|]. intros j Hj. assert (j = 1 \/ j = 2 \/ j = 3 \/ j = 4) as [-> |[-> |[-> | ->]]] by lia; eexists; (split; [reflexivity|cbn; discriminate || tauto]). }
  split; [|split; [|split; [|split; [|split]]]].
  - unfold valid_layout. repeat match goal with |- _ /\ _ => split end.
    + intros p Hp. six Hp; cbn; try exact Logic.I; discriminate.
    + intros p d h Hp E. six Hp; discriminate.
    + intros p d q Hp P _ En. six Hp; cbn in P; try contradiction; subst d; vm_compute in En; apply Some_inj in En; subst q; reflexivity.
    + intros p d q Hp P _ En. six Hp; cbn in P; try contradiction; subst d; vm_compute in En; apply Some_inj in En; subst q; reflexivity.
    + intros p d h q i o Hp E. six Hp; discriminate.
    + intros p d h Hp E. six Hp; discriminate.
    + intros p d Hp E. six Hp; try discriminate. cbn in E. injection E as <-. exists (0, 0). split; [reflexivity|exact TU].
    + intros p d Hp E. six Hp; try discriminate. cbn in E. injection E as <-. exists (1, 0). split; [split; cbn; lia|]. split; [reflexivity|exact TU].
  - intros p d Hp En. exfalso. assert (SO : sensible (six_options 1)) by (repeat split; cbn; lia). destruct (wraps_neighbour _ SO p d eq_refl Hp). congruence.
  - intros p Hp. six Hp; intros [].
  - intros _ p Hp. six Hp; discriminate.
  - intros (p & d & t & Hdt & (Hp & Hq & _) & E & E2 & _). six Hp; cbn in E; try discriminate; injection E as E1 <-; destruct t; cbn in E1; discriminate || (cbn in Hdt; try contradiction; try discriminate).
  - intros p d k Hp (q & Hk & E & Eq & Tq & Hc). six Hp; try discriminate. cbn in E. injection E as <-. destruct (Hc 1 ltac:(lia)) as (r & Er & Tr). vm_compute in Er. apply Some_inj in Er. subst r. discriminate.
Qed.
Theorem C72_length_refuted : exists g cs a, make_block (six_options 1) = Some (g, cs) /\ sat a cs = true /\ reads g a six_layout /\
  ~ valid_layout (block_area (six_options 1)) six_layout 1.
Proof.
  destruct (proj2 (C74_accepted (six_options 1))) as [[g cs] E]; [cbn; repeat split; try lia; discriminate|]. exists g, cs.
  destruct (proj2 (C72_described_exactly _ g cs six_layout E)) as (a & Sa & R); [split; [exact six_block|discriminate]|]. exists a. split; [exact E|]. split; [exact Sa|]. split; [exact R|].
  intros (_ & _ & _ & _ & _ & _ & VE & _). destruct (VE (1, 0) RIGHT) as (q & Tq & k & Hk & Ek & _); [split; cbn; lia|reflexivity|].
  assert (k = 2) by lia. subst k. vm_compute in Ek. apply Some_inj in Ek. subst q. discriminate.
Qed.

(** A closed example: the ring around a 3 x 2 rectangle. *)
Definition ring_options : block_options :=
  {| bo_width := 3; bo_height := 2; bo_tile := false; bo_allow_empty := false; bo_length := 4; bo_no_parallel := false; bo_single := true |}.
Definition ring_layout : layout := fun p => match p with
  | (0, 0) => Belt UP RIGHT | (1, 0) => Belt RIGHT RIGHT | (2, 0) => Belt RIGHT DOWN
  | (2, 1) => Belt DOWN LEFT | (1, 1) => Belt LEFT LEFT | (0, 1) => Belt LEFT UP | _ => Empty end.
Definition ring_cells : list pos := [(0, 0); (1, 0); (2, 0); (2, 1); (1, 1); (0, 1)].
Lemma ring_in p : inside (block_area ring_options) p -> In p ring_cells.
Proof.
  destruct p as [x y]. intros [Hx Hy]. change (0 <= x < 3) in Hx. change (0 <= y < 2) in Hy.
  assert (x = 0 \/ x = 1 \/ x = 2) as [-> |[-> | ->]] by lia; assert (y = 0 \/ y = 1) as [-> | ->] by lia; cbn; auto 10.
Qed.
Ltac ring_case H := apply ring_in in H; cbn [In ring_cells] in H; repeat match type of H with _ \/ _ => destruct H as [H|H] | False => contradiction end; subst.
Lemma ring_block : block (block_area ring_options) ring_layout 4 false.
Proof.
  split; [|split; [|split; [|split; [|split]]]].
  - unfold valid_layout. repeat match goal with |- _ /\ _ => split end.
    + intros p Hp. ring_case Hp; cbn; discriminate.
    + intros p d h Hp E. ring_case Hp; discriminate.
    + intros p d q Hp P _ En. ring_case Hp; cbn in P; subst d; vm_compute in En; apply Some_inj in En; subst q; reflexivity.
    + intros p d q Hp P _ En. ring_case Hp; cbn in P; subst d; vm_compute in En; apply Some_inj in En; subst q; reflexivity.
    + intros p d h q i o Hp E. ring_case Hp; discriminate.
    + intros p d h Hp E. ring_case Hp; discriminate.
    + intros p d Hp E. ring_case Hp; discriminate.
    + intros p d Hp E. ring_case Hp; discriminate.
  - intros p d Hp En. ring_case Hp; destruct d; vm_compute in En; try discriminate En; split; cbn; discriminate.
  - intros p Hp. ring_case Hp; intros [].
  - intros _ p Hp. ring_case Hp; discriminate.
  - intros (p & d & t & Hdt & (Hp & Hq & _) & E & E2 & E3 & _).
    ring_case Hp; cbn in E; injection E as E1 <-; (destruct t; cbn in E1; try discriminate E1); try (destruct Hdt; discriminate); cbn in E2; discriminate E2.
  - intros p d k Hp (q & _ & E & _). ring_case Hp; discriminate.
Qed.
Lemma ring_loop : single_loop (block_area ring_options) ring_layout 4.
Proof.
  exists (fun i => nth (Z.to_nat i) ring_cells (0, 0)). cbv zeta. change (aw (block_area ring_options) * ah (block_area ring_options)) with 6.
  assert (X : forall i, 0 <= i < 6 -> i = 0 \/ i = 1 \/ i = 2 \/ i = 3 \/ i = 4 \/ i = 5) by (intros; lia).
  split; [|split; [|split]].
  - intros i Hi. destruct (X i Hi) as [-> |[-> |[-> |[-> |[-> | ->]]]]]; (split; split; vm_compute; congruence).
  - intros p Hp. ring_case Hp; [exists 0|exists 1|exists 2|exists 3|exists 4|exists 5]; (split; [lia|reflexivity]).
  - intros i j Hi Hj. destruct (X i Hi) as [-> |[-> |[-> |[-> |[-> | ->]]]]]; destruct (X j Hj) as [-> |[-> |[-> |[-> |[-> | ->]]]]]; cbn; intros E; try reflexivity; discriminate E.
  - intros i Hi. left. destruct (X i Hi) as [-> |[-> |[-> |[-> |[-> | ->]]]]]; (split; [split; split; vm_compute; congruence|]; split; [intros []|]; eexists; split; reflexivity).
Qed.
Example C58_example : exists g cs a, make_block ring_options = Some (g, cs) /\ sat a cs = true /\ reads g a ring_layout /\
  single_loop (block_area ring_options) ring_layout 4.
Proof.
  destruct (proj2 (C74_accepted ring_options)) as [[g cs] E]; [cbn; repeat split; try lia; discriminate|]. exists g, cs.
  destruct (C73_closed_loops_found _ g cs ring_layout E eq_refl eq_refl ring_block ring_loop) as (a & Sa & R). exists a. split; [exact E|]. split; [exact Sa|]. split; [exact R|].
  exact (C58_single_loop _ g cs a ring_layout E eq_refl Sa R).
Qed.

(** ** C75 *)
(** make_block --all prints every described layout exactly once, and nothing
    else, on a torus too. *)
Lemma shows_dirs v v' t : shows v t -> shows v' t -> ~ is_splitter_tile t -> (forall d, vi v d = vi v' d /\ vo v d = vo v' d) /\ vs v = vs v'.
Proof.
  intros S S' N. assert (B : forall b b' : bool, (b = true <-> b' = true) -> b = b') by (intros [] []; intuition congruence).
  split; [|destruct S as (_ & _ & _ & -> & _), S' as (_ & _ & _ & -> & _); reflexivity].
  destruct S as [S _], S' as [S' _]. intros d. destruct t as [| |i o|f []|f h|f k|x y]; try contradiction.
  - destruct S as (_ & I1 & O1), S' as (_ & I2 & O2). rewrite I1, I2, O1, O2. auto.
  - destruct S as (_ & I1 & O1 & _), S' as (_ & I2 & O2 & _). split; apply B; [rewrite I1, I2|rewrite O1, O2]; reflexivity.
  - destruct S as (_ & I1 & O1), S' as (_ & I2 & O2). split; [apply B; rewrite I1, I2; reflexivity|rewrite O1, O2; reflexivity].
  - destruct S as (_ & I1 & O1), S' as (_ & I2 & O2). split; [rewrite I1, I2; reflexivity|apply B; rewrite O1, O2; reflexivity].
  - exfalso. apply N. exact Logic.I.
Qed.

Theorem C75_every_block_once o g cs vs dom solver : make_block o = Some (g, cs) ->
  important_variables g [] true = Some vs ->
  correct_solver dom solver -> in_dom dom cs -> (forall v, In v vs -> In v dom) ->
  exists ms, (exists fuel, itersolve solver vs fuel cs = Some ms) /\
    (forall m, In m ms -> exists T, reads g (model_assignment m) T /\ described o T) /\
    (forall T, described o T -> exists i m, nth_error ms i = Some m /\ reads g (model_assignment m) T /\
       forall j m', nth_error ms j = Some m' -> reads g (model_assignment m') T -> j = i).
Proof.
  intros E EI CS D VD. destruct (C42_enumeration dom vs solver cs CS D) as (ms & Ems & H1 & H2 & H3). exists ms. split; [eexists; apply Ems; apply le_n|].
  destruct (block_inv o g cs E) as (SO & Eg & _ & _ & SX). pose proof (block_wf o SO) as W. rewrite <- Eg in W.
  assert (GR : forall a, sat a cs = true -> grid_rules g a) by (intros a Sa; rewrite Eg; apply SX in Sa; apply Sa).
  assert (RD : forall a, sat a cs = true -> exists T, reads g a T).
  { intros a Sa. destruct (C44_decodes g a W) as [_ DC]. destruct (DC (proj2 (solves_init_rules g a W) (GR a Sa))) as (T & R & _). eauto. }
  assert (VSp : forall v, In v vs -> exists p, inside (garea g) p /\ In v (all_direction (tile_at g p) ++ [is_splitter (tile_at g p)])%list).
  { intros v Hv. apply Some_inj in EI. subst vs. cbn [app] in Hv. apply in_flat_map in Hv. destruct Hv as (p & Hp & Hv). apply iterate_tiles_in in Hp. exists p. split; [exact Hp|]. exact Hv. }
  assert (Pos : forall p v, inside (garea g) p -> In v (all_direction (tile_at g p) ++ [is_splitter (tile_at g p)])%list -> 0 < v).
  { intros p v Hp Hv. pose proof (tile_base_nonneg g p W Hp). pose proof W as (_ & Ht & _). unfold all_direction, inputs, outputs, directions, tile_at in Hv.
    cbn [tile_vars input_dir output_dir M_Grid.is_splitter map app dir_value In] in Hv. intuition lia. }
  (* the layout decides the important variables *)
  assert (Same : forall a a' T, sat a cs = true -> sat a' cs = true -> reads g a T -> reads g a' T -> forall v, In v vs -> a v = a' v).
  { intros a a' T Sa Sa' R R' v Hv. destruct (VSp v Hv) as (p & Hp & Hvp). rewrite <- (P_Allocate.evl_pos a v (Pos p v Hp Hvp)), <- (P_Allocate.evl_pos a' v (Pos p v Hp Hvp)).
    destruct (proj1 (C72_described_exactly o g cs T E) (ex_intro _ a (conj Sa R))) as [(_ & _ & NS & _) _].
    assert (Hp' : inside (block_area o) p) by (rewrite Eg in Hp; exact Hp).
    destruct (shows_dirs _ _ _ (T_shows g a T R (GR a Sa) p Hp) (T_shows g a' T R' (GR a' Sa') p Hp) (NS p Hp')) as [K1 K2].
    apply in_app_or in Hvp. destruct Hvp as [Hvp|[<-|[]]]; [|exact K2]. unfold all_direction, inputs, outputs in Hvp. apply in_app_or in Hvp.
    destruct Hvp as [Hvp|Hvp]; apply in_map_iff in Hvp; destruct Hvp as (d & <- & _); apply (K1 d). }
  (* the important variables decide the layout *)
  assert (Det : forall a a' T T', sat a cs = true -> sat a' cs = true -> reads g a T -> reads g a' T' -> (forall v, In v vs -> a v = a' v) -> forall p, inside (garea g) p -> T p = T' p).
  { intros a a' T T' Sa Sa' R R' H p Hp. pose proof (T_shows g a T R (GR a Sa) p Hp) as Sh. pose proof (T_shows g a' T' R' (GR a' Sa') p Hp) as Sh'.
    assert (Dv : forall v, In v (all_direction (tile_at g p) ++ [is_splitter (tile_at g p)])%list -> evl a v = evl a' v).
    { intros v Hv. rewrite !P_Allocate.evl_pos by (apply (Pos p v Hp Hv)). apply H. apply Some_inj in EI. subst vs. cbn [app]. apply in_flat_map. exists p. split; [apply iterate_tiles_in; exact Hp|]. exact Hv. }
    assert (K : same_but_head (T p) (T' p)).
    { apply (shows_same _ _ _ _ Sh Sh'); cbn [view_of vi vo M_Grid.is_splitter].
      - intros d. apply Dv. unfold all_direction, inputs, outputs, directions. apply in_or_app. left. apply in_or_app. left. destruct d; cbn; auto.
      - intros d. apply Dv. unfold all_direction, inputs, outputs, directions. apply in_or_app. left. apply in_or_app. right. destruct d; cbn; auto.
      - apply Dv. apply in_or_app. right. left. reflexivity. }
    destruct (proj1 (C72_described_exactly o g cs T E) (ex_intro _ a (conj Sa R))) as [(_ & _ & NS & _) _].
    assert (Hp' : inside (block_area o) p) by (rewrite Eg in Hp; exact Hp). specialize (NS p Hp').
    destruct (T p), (T' p); cbn in K, NS; try contradiction; congruence. }
  split.
  - intros m Hm. destruct (H1 m Hm) as [_ Sm]. destruct (RD _ Sm) as [T R]. exists T. split; [exact R|]. apply (C72_described_exactly o g cs T E). eauto.
  - intros T HT. apply (C72_described_exactly o g cs T E) in HT. destruct HT as (a & Sa & R). destruct (H2 a Sa) as (m & Hm & Sm). destruct (H1 m Hm) as [_ Sat].
    destruct (In_nth_error _ _ Hm) as [i Ei]. exists i, m. split; [exact Ei|].
    assert (Rm : reads g (model_assignment m) T).
    { destruct (RD _ Sat) as [T' R']. intros p Hp. rewrite (R' p Hp). f_equal. symmetry. apply (Det a (model_assignment m) T T' Sa Sat R R'); [|exact Hp].
      intros v Hv. apply Sm; [apply VD; exact Hv|exact Hv]. }
    split; [exact Rm|]. intros j m' Ej R'. destruct (Nat.eq_dec j i) as [|N]; [assumption|exfalso]. apply (H3 j i m' m Ej Ei N).
    assert (Sm' : sat (model_assignment m') cs = true) by (apply (H1 m'); eapply nth_error_In; exact Ej).
    intros v _ Hv. apply (Same _ _ T Sm' Sat R' Rm v Hv).
Qed.

(** The hypotheses can be met for every block. *)
Example C75_hypotheses o g cs : make_block o = Some (g, cs) -> exists vs dom solver,
  important_variables g [] true = Some vs /\ correct_solver dom solver /\ (forall v, In v vs -> 0 < v -> In v dom) /\
  (Forall (Forall (fun l => l <> 0)) cs -> in_dom dom cs).
Proof.
  intros E. destruct (important_variables g [] true) as [vs|] eqn:EI; [|discriminate]. 
  pose (dom := nodup Z.eq_dec (filter (fun v => 0 <? v) (vs ++ map Z.abs (List.concat cs)))%list).
  exists vs, dom, (naive dom). split; [reflexivity|]. split; [|split].
  - apply naive_correct; [|apply NoDup_nodup]. apply Forall_forall. intros v Hv. apply nodup_In, filter_In in Hv. apply Z.ltb_lt. apply Hv.
  - intros v Hv Hp. apply nodup_In, filter_In. split; [apply in_or_app; left; exact Hv|apply Z.ltb_lt; exact Hp].
  - intros N. apply Forall_forall. intros c Hc. apply Forall_forall. intros l Hl. apply nodup_In, filter_In. split.
    + apply in_or_app. right. apply in_map. apply in_concat. eauto.
    + rewrite Forall_forall in N. specialize (N c Hc). rewrite Forall_forall in N. specialize (N l Hl). apply Z.ltb_lt. lia.
Qed.

Example C75_example : exists g cs vs dom solver, make_block ring_options = Some (g, cs) /\
  important_variables g [] true = Some vs /\ correct_solver dom solver /\ in_dom dom cs /\ (forall v, In v vs -> In v dom).
Proof.
  assert (K : match make_block ring_options with Some (g, cs) =>
      match important_variables g [] true with Some vs => forallb (fun v => 0 <? v) vs && forallb (forallb (fun l => negb (l =? 0))) cs | None => false end | None => false end = true) by (vm_compute; reflexivity).
  destruct (make_block ring_options) as [[g cs]|] eqn:E; [|discriminate]. destruct (C75_hypotheses ring_options g cs E) as (vs & dom & solver & EI & H1 & H2 & H3).
  rewrite EI in K. apply andb_true_iff in K. destruct K as [K1 K2]. rewrite forallb_forall in K1, K2.
  exists g, cs, vs, dom, solver. split; [reflexivity|]. split; [exact EI|]. split; [exact H1|]. split.
  - apply H3. apply Forall_forall. intros c Hc. specialize (K2 c Hc). rewrite forallb_forall in K2. apply Forall_forall. intros l Hl C. specialize (K2 l Hl). rewrite C in K2. discriminate.
  - intros v Hv. apply H2; [exact Hv|]. apply Z.ltb_lt. apply K1. exact Hv.
Qed.

Print Assumptions C58_single_loop.
Print Assumptions C72_described_exactly.
Print Assumptions C72_length_refuted.
Print Assumptions C73_closed_loops_found.
Print Assumptions C73_torus_loop_lost_refuted.
Print Assumptions C74_accepted.
Print Assumptions C74_no_parallel_refuted.
Print Assumptions C75_every_block_once.
