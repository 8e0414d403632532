(** Property theorems C52-C54 and C67: the belt balancers of belt_balancer.py. *)
From Coq Require Import String ZArith QArith List Bool Lia Permutation.
From Verif Require Import P_Network P_Network2 P_Benes P_Nonneg P_Similar T_Network.
From Verif Require Import Spec_Cnf Spec_Tile Spec_Layout M_Json M_Tile M_Util M_Card M_Network Spec_Network M_Template M_Grid M_Oracle M_Balancer
  P_Cnf P_Util P_Card P_Tile P_Layout P_List P_Template P_Walk P_Grid P_GridSound P_GridComplete P_Transport T_Grid P_GridOk P_Gen P_Balancer
  Spec_Balancer P_Trace P_Realise P_Flow P_Ends.
Import ListNotations.
Local Open Scope string_scope.
Open Scope Z_scope.

(** [a] satisfies what main always asks for (belt_balancer.py 346-371): the
    clauses of create_balancer, prevent_intersection and
    enforce_maximum_underground_length.  Options of main add clauses to these. *)
Definition solves_balancer (E : card_encoder) (net : counter) (w h : Z) (ul : option Z) (g : grid) (a : assignment) : Prop :=
  exists cs top, create_balancer E net w h ul = Some (g, cs, top) /\ sat a cs = true /\
    sat a (prevent_intersection g) = true /\ solves_length g a.

Lemma ends_nonempty l ic n oc m : get_input_output_colours l = Some ((ic, n), (oc, m)) -> l <> [].
Proof. intros E ->. discriminate. Qed.

(** ** C52 *)
(** Every solution is read as a valid layout in which items enter and leave at
    as many places as the network has inputs and outputs, that has exactly the
    splitters of the network, and in which the lines of belts are exactly the
    belts of the network; a line that is no belt of the network can only end at
    a splitter input that the network leaves unused, and then consists of that
    cell only. *)
Theorem C52_solutions_realise E net w h ul g a T : honest E -> nonneg_colours net ->
  match ul with Some l => 0 <= l | None => True end ->
  solves_balancer E net w h ul g a -> reads g a T ->
  let A := {| aw := w; ah := h; wrapx := false; wrapy := false |} in
  let L := max_hidden g in
  let nodes := elements net in
  valid_layout A T L /\
  exists ic n oc m, get_input_output_colours nodes = Some ((ic, n), (oc, m)) /\
  exists P wire, realises_by A T L nodes ic (Z.to_nat n) oc (Z.to_nat m) P wire /\
    forall s f, joined A T L s f -> exists k, finish_of P k = Some f /\
      (sink_colour nodes oc (Z.to_nat m) k <> None /\ start_of P (wire k) = Some s \/
       sink_colour nodes oc (Z.to_nat m) k = None /\ exists p, f = Entrance p /\ begins A T s p).
Proof.
  intros HE Hn Hul (cs & top & C & S & Ix & Ls) R A L nodes.
  destruct (create_balancer_spec E net w h ul g cs top HE Hn Hul C) as (ic & n & oc & m & Ee & W & (t & _ & Eg & _) & _ & _ & En & _ & _).
  pose proof (proj1 En a S) as B.
  assert (So : solves g (EBool true) a) by (split; [apply B|split; [exact Ix|split; [apply B|split; [apply B|exact Ls]]]]).
  assert (EA : garea g = A) by (subst g; reflexivity). assert (CX : wrap_x (geo g) = false) by (subst g; reflexivity). assert (CY : wrap_y (geo g) = false) by (subst g; reflexivity).
  split; [rewrite <- EA; apply (VL g W a So T R)|]. exists ic, n, oc, m. split; [exact Ee|]. rewrite <- EA.
  apply (realisation g W CX CY net ic n oc m a B So T R). eapply ends_nonempty; eauto.
Qed.

(** ** C67 *)
(** A solution for a network that balances, none of whose belts is missing, is
    a layout that balances: in every steady flow each place where items leave
    carries the same share of what enters. *)
Theorem C67_solutions_balance E net w h ul g a T ic n oc m : honest E -> nonneg net -> complete net ->
  match ul with Some l => 0 <= l | None => True end ->
  get_input_output_colours net = Some ((ic, n), (oc, m)) -> balances net ic (Z.to_nat n) oc (Z.to_nat m) ->
  solves_balancer E (deduplicate_network net) w h ul g a -> reads g a T ->
  balanced_layout {| aw := w; ah := h; wrapx := false; wrapy := false |} T (max_hidden g).
Proof.
  intros HE Hn Cm Hul Ee Bal So R.
  assert (Hn' : nonneg_colours (deduplicate_network net)).
  { intros nd k x Hin Hx. destruct (C29_deduplicate net) as (_ & _ & H & _). destruct (H nd k Hin) as [(nd0 & H0 & [S1 S2]) _]. apply Hn. apply slots_in. exists nd0. split; [exact H0|].
    destruct nd0 as [[x1 x2] [x3 x4]]. destruct nd as [[y1 y2] [y3 y4]]. cbn in Hx. unfold same_belts in S1, S2. cbn [fst snd] in *.
    destruct S1 as [[= -> ->]|[= -> ->]], S2 as [[= -> ->]|[= -> ->]]; destruct Hx as [Hx|[Hx|[Hx|[Hx|[]]]]]; auto. }
  assert (Cm' : complete (elements (deduplicate_network net))).
  { intros nd Hin. unfold elements in Hin. apply in_flat_map in Hin. destruct Hin as ([s k] & Hin & Hr). apply repeat_spec in Hr. cbn in Hr. subst nd.
    destruct (C29_deduplicate net) as (_ & _ & H & _). destruct (H s k Hin) as [(nd0 & H0 & [S1 S2]) _]. specialize (Cm nd0 H0).
    destruct nd0 as [[x1 x2] [x3 x4]]. destruct s as [[y1 y2] [y3 y4]]. unfold same_belts in S1, S2. cbn [fst snd] in *.
    destruct S1 as [[= -> ->]|[= -> ->]], S2 as [[= -> ->]|[= -> ->]]; tauto. }
  destruct (C52_solutions_realise E _ w h ul g a T HE Hn' Hul So R) as (VL & ic' & n' & oc' & m' & Ee' & P & wire & Hr & _).
  rewrite deduplicate_ends, Ee in Ee'. injection Ee' as <- <- <- <-.
  assert (Wa : wf_area {| aw := w; ah := h; wrapx := false; wrapy := false |}).
  { destruct So as (cs & top & C & _). unfold create_balancer in C. destruct (Z.ltb_spec 0 w), (Z.ltb_spec 0 h); try discriminate. split; assumption. }
  eapply (realised_balanced _ T); [exact Wa|exact VL|exact Cm'| |exact Hr].
  eapply balances_similar; [apply deduplicate_similar|exact Bal].
Qed.

(** In particular for the networks that the program generates: whatever size is
    asked for, every balancer found for the generated network balances. *)
Theorem C67_benes_balance E order size net w h ul g a T : honest E -> (forall s l, Permutation (order s l) l) ->
  create_benes_network order size = Some net ->
  match ul with Some l => 0 <= l | None => True end ->
  solves_balancer E (deduplicate_network net) w h ul g a -> reads g a T ->
  balanced_layout {| aw := w; ah := h; wrapx := false; wrapy := false |} T (max_hidden g).
Proof.
  intros HE Ho C Hul So R. destruct (Z_lt_le_dec size 2) as [H|H]; [rewrite (C27_small order size H) in C; discriminate|].
  destruct (C27_terminates_with_ends order size Ho H) as (net' & oc & C' & He & Hc & _). rewrite C in C'. injection C' as <-.
  pose proof (proj2 (proj1 (C63_ends net) 0 size oc size) He) as Ee.
  destruct (C28_balances order size net 0 size oc size Ho C Ee) as (_ & _ & Bal).
  apply (C67_solutions_balance E net w h ul g a T 0 size oc size HE); auto.
  - eapply benes_nonneg. exact C.
  - intros nd Hin. assert (X : forall x, In x (slots net) -> x <> None) by (intros x Hx ->; apply Hc; exact Hx).
    repeat split; apply X; apply slots_in; exists nd; auto.
Qed.

(** ** C53 *)
(** What the three ways of setting up the ends say: with the auxiliary variables
    chosen freely, exactly the placements of P_Ends, where the block of inputs
    starts at row [i] and the block of outputs at row [j]. *)
Lemma left_inside g : wf_grid g -> forall y, 0 <= y < height (geo g) -> inside (garea g) (0, y).
Proof. intros ((Ww & Wh) & _) y Hy. split; cbn; lia. Qed.
Lemma right_inside g : wf_grid g -> forall y, 0 <= y < height (geo g) -> inside (garea g) (width (geo g) - 1, y).
Proof. intros ((Ww & Wh) & _) y Hy. split; cbn; lia. Qed.
Lemma bottom_inside g : wf_grid g -> forall x, 0 <= x < width (geo g) -> inside (garea g) (x, height (geo g) - 1).
Proof. intros ((Ww & Wh) & _) y Hy. split; cbn; lia. Qed.

Theorem C53_ends g net aligned use_ends top cs top' a T ic n oc m : wf_grid g -> grid_size g <= top ->
  solves_init g a -> reads g a T ->
  get_input_output_colours (elements net) = Some ((ic, n), (oc, m)) ->
  setup_balancer_ends g net aligned use_ends top = Some (cs, top') ->
  let h := height (geo g) in
  (exists b, agree top a b /\ sat b cs = true) <->
  exists i j,
    ends_placed g a T (fun y => (0, y)) h false (negb use_ends) RIGHT n i /\
    ends_placed g a T (fun y => (width (geo g) - 1, y)) h true (negb use_ends) RIGHT m j /\
    (aligned = true -> if m <=? n then (n < h -> i <= j <= i + n - m) else (m < h -> j <= i <= j + m - n)).
Proof.
  intros W Ht S R Ee E h. unfold setup_balancer_ends in E. rewrite Ee in E. cbn [obind] in E.
  destruct (setup_balancer_input (negb use_ends) (column g 0) RIGHT n top) as [[[cs1 st] t1]|] eqn:E1; [|discriminate]. cbn [obind] in E.
  destruct (setup_balancer_output (negb use_ends) (column g (width (geo g) - 1)) RIGHT m t1) as [[[cs2 en] t2]|] eqn:E2; [|discriminate]. cbn [obind] in E.
  injection E as <- <-. pose proof W as ((Ww & Wh) & _).
  apply (two_ends g W a S T R (fun y => (0, y)) (fun y => (width (geo g) - 1, y)) h h (negb use_ends) (negb use_ends) RIGHT RIGHT n m Wh Wh
    (left_inside g W) (right_inside g W) top Ht aligned cs1 st t1 cs2 en t2 (fun _ => eq_refl) E1 E2).
Qed.
Theorem C53_ends_90 g net use_ends top cs top' a T ic n oc m : wf_grid g -> grid_size g <= top ->
  solves_init g a -> reads g a T ->
  get_input_output_colours (elements net) = Some ((ic, n), (oc, m)) ->
  setup_balancer_ends_90 g net use_ends top = Some (cs, top') ->
  (exists b, agree top a b /\ sat b cs = true) <->
  exists i j,
    ends_placed g a T (fun y => (0, y)) (height (geo g)) false (negb use_ends) RIGHT n i /\
    ends_placed g a T (fun x => (x, height (geo g) - 1)) (width (geo g)) true (negb use_ends) DOWN m j.
Proof.
  intros W Ht S R Ee E. unfold setup_balancer_ends_90 in E. rewrite Ee in E. cbn [obind] in E.
  destruct (setup_balancer_input (negb use_ends) (column g 0) RIGHT n top) as [[[cs1 st] t1]|] eqn:E1; [|discriminate]. cbn [obind] in E.
  destruct (setup_balancer_output (negb use_ends) (row g (height (geo g) - 1)) DOWN m t1) as [[[cs2 en] t2]|] eqn:E2; [|discriminate]. cbn [obind] in E.
  injection E as <- <-. pose proof W as ((Ww & Wh) & _).
  pose proof (two_ends g W a S T R (fun y => (0, y)) (fun x => (x, height (geo g) - 1)) _ _ (negb use_ends) (negb use_ends) RIGHT DOWN n m Wh Ww
    (left_inside g W) (bottom_inside g W) top Ht false cs1 st t1 cs2 en t2 ltac:(discriminate) E1 E2) as H. cbn iota in H. rewrite app_nil_r in H. rewrite H.
  split; intros (i & j & H1 & H2 & _) || intros (i & j & H1 & H2); exists i, j; auto. split; [exact H1|]. split; [exact H2|discriminate].
Qed.
Theorem C53_ends_180 g net top cs top' a T ic n oc m : wf_grid g -> grid_size g <= top ->
  solves_init g a -> reads g a T ->
  get_input_output_colours (elements net) = Some ((ic, n), (oc, m)) ->
  setup_balancer_ends_180 g net top = Some (cs, top') ->
  (exists b, agree top a b /\ sat b cs = true) <->
  exists i j,
    ends_placed g a T (fun y => (0, y)) (height (geo g)) false false RIGHT n i /\
    ends_placed g a T (fun y => (0, y)) (height (geo g)) true false LEFT m j.
Proof.
  intros W Ht S R Ee E. unfold setup_balancer_ends_180 in E. rewrite Ee in E. cbn [obind] in E.
  destruct (setup_balancer_input false (column g 0) RIGHT n top) as [[[cs1 st] t1]|] eqn:E1; [|discriminate]. cbn [obind] in E.
  destruct (setup_balancer_output false (column g 0) LEFT m t1) as [[[cs2 en] t2]|] eqn:E2; [|discriminate]. cbn [obind] in E.
  injection E as <- <-. pose proof W as ((Ww & Wh) & _).
  pose proof (two_ends g W a S T R (fun y => (0, y)) (fun y => (0, y)) _ _ false false RIGHT LEFT n m Wh Wh
    (left_inside g W) (left_inside g W) top Ht false cs1 st t1 cs2 en t2 ltac:(discriminate) E1 E2) as H. cbn iota in H. rewrite app_nil_r in H. rewrite H.
  split; intros (i & j & H1 & H2 & _) || intros (i & j & H1 & H2); exists i, j; auto. split; [exact H1|]. split; [exact H2|discriminate].
Qed.
(** The setup fails exactly when an edge is too short. *)
Theorem C53_ends_fail g net aligned use_ends top ic n oc m : wf_grid g ->
  get_input_output_colours (elements net) = Some ((ic, n), (oc, m)) ->
  (setup_balancer_ends g net aligned use_ends top = None <-> height (geo g) < n \/ height (geo g) < m).
Proof.
  intros ((Ww & Wh) & _) Ee. unfold setup_balancer_ends. rewrite Ee. cbn [obind]. unfold setup_balancer_input, setup_balancer_output, setup_balancer_end.
  assert (L : forall x, len (column g x) = height (geo g)) by (intros x; unfold column, len, range; rewrite !map_length, seq_length; lia). rewrite !L.
  destruct (Z.leb_spec n (height (geo g))); cbn [negb obind]; [|split; [intros _; lia|reflexivity]].
  destruct (Z.leb_spec m (height (geo g))); cbn [negb obind]; [split; [discriminate|lia]|split; [intros _; lia|reflexivity]].
Qed.

(** The English claim is false: whenever there is a row to spare, no solution
    uses the lowest one.  By default the corner cells are then empty; with
    --use-ends the left corner is a belt that is not an input. *)
Theorem C53_last_block_refuted g net aligned use_ends top cs top' a T ic n oc m : wf_grid g -> grid_size g <= top ->
  solves_init g a -> reads g a T ->
  get_input_output_colours (elements net) = Some ((ic, n), (oc, m)) ->
  setup_balancer_ends g net aligned use_ends top = Some (cs, top') -> sat a cs = true ->
  let h := height (geo g) in
  (n < h -> if use_ends then exists e o, T (0, h - 1) = Belt e o /\ e <> RIGHT else T (0, h - 1) = Empty) /\
  (m < h -> ~ exists e, T (width (geo g) - 1, h - 1) = Belt e RIGHT).
Proof.
  intros W Ht S R Ee E Sa h. pose proof W as ((Ww & Wh) & _).
  destruct (proj1 (C53_ends g net aligned use_ends top cs top' a T ic n oc m W Ht S R Ee E)) as (i & j & P1 & P2 & _); [exists a; split; [apply agree_refl|exact Sa]|].
  fold h in P1, P2. unfold ends_placed in P1, P2. split; intros Hlt.
  - destruct (Z.eqb_spec h n); [lia|]. destruct P1 as [Hi P1]. destruct (P1 (h - 1) ltac:(unfold h; lia)) as [_ P]. specialize (P ltac:(lia)).
    destruct use_ends; exact P.
  - destruct (Z.eqb_spec h m); [lia|]. destruct P2 as [Hj P2]. destruct (P2 (h - 1) ltac:(unfold h; lia)) as [_ P]. specialize (P ltac:(lia)).
    intros (e & Eb). destruct use_ends; cbn [negb] in P; [|congruence].
    assert (X : inside (garea g) (width (geo g) - 1, h - 1)) by (apply right_inside; [exact W|unfold h; lia]).
    destruct (proj2 (belt_out g W a S T R _ RIGHT X) (ex_intro _ e Eb)) as [O _]. congruence.
Qed.

(** ** C68 *)
Theorem C68_set_colour g x y c a : wf_grid g -> 
  match set_colour g x y c with
  | Some cs => inside (garea g) (x, y) /\ (sat a cs = true <-> value a (colour (tile_at g (x, y))) = c)
  | None => ~ (inside (garea g) (x, y) /\ exists k, gcolours g = Some k /\ 0 <= c < k)
  end.
Proof.
  intros W. unfold set_colour. destruct (gcolours g) as [k|] eqn:Eg; [|intros (_ & k & Ek & _); discriminate].
  assert (I : in_grid g x y = true <-> inside (garea g) (x, y)).
  { unfold in_grid, inside. cbn [garea area_of aw ah fst snd]. rewrite !andb_true_iff, !Z.leb_le, !Z.ltb_lt. tauto. }
  destruct ((0 <=? c) && (c <? k) && in_grid g x y) eqn:Eb.
  - rewrite !andb_true_iff, Z.leb_le, Z.ltb_lt, I in Eb. destruct Eb as [[H0 H1] Hin].
    assert (F : c < 2 ^ len (colour (tile_at g (x, y)))).
    { pose proof (colour_len g (x, y)) as [L _]. rewrite L. unfold colour_bits. rewrite Eg. pose proof W as (_ & _ & Wc & _). rewrite Eg in Wc. pose proof (colour_fits k Wc). lia. }
    destruct (proj2 (set_number_some c (colour (tile_at g (x, y)))) F) as [cs E]. rewrite E. split; [exact Hin|].
    apply set_number_sat; auto. apply (tile_at_ok g _ W Hin).
  - intros (Hin & k' & [= <-] & Hc). apply I in Hin. rewrite Hin in Eb. destruct (Z.leb_spec 0 c), (Z.ltb_spec c k); cbn in Eb; try discriminate; lia.
Qed.

(** prevent_colour: the colour of a tile is the number spelt by its colour
    variables.  Colour 0 is also what unused colour variables spell, so for it
    only the tiles that are not empty are constrained. *)
Theorem C68_prevent_colour g c a : wf_grid g -> 0 < c < 2 ^ Z.of_nat (colour_bits g) ->
  exists cs, prevent_colour g c = Some cs /\
  (sat a cs = true <-> forall p, inside (garea g) p -> value a (colour (tile_at g p)) <> c /\
     value a (colour_ux (tile_at g p)) <> c /\ value a (colour_uy (tile_at g p)) <> c).
Proof.
  intros W Hc. unfold prevent_colour. replace (c =? 0) with false by (symmetry; apply Z.eqb_neq; lia).
  assert (F : forall p, inside (garea g) p -> exists cs, omap (set_not_number c) [colour (tile_at g p); colour_ux (tile_at g p); colour_uy (tile_at g p)] = Some cs /\
    (sat a cs = true <-> value a (colour (tile_at g p)) <> c /\ value a (colour_ux (tile_at g p)) <> c /\ value a (colour_uy (tile_at g p)) <> c)).
  { intros p Hp. destruct (colour_len g p) as (L1 & L2 & L3). pose proof (tile_at_ok g p W Hp) as Ok.
    assert (X : forall ls, len ls = Z.of_nat (colour_bits g) -> Forall nonzero ls -> exists cl, set_not_number c ls = Some cl /\ (satc a cl = true <-> value a ls <> c)).
    { intros ls L N. destruct (proj2 (set_not_number_some c ls)) as [cl E]; [rewrite L; lia|]. exists cl. split; [exact E|].
      rewrite (set_not_number_spec c ls cl N E). rewrite Z.mod_small by (rewrite L; lia). reflexivity. }
    destruct (X _ L1) as (c1 & E1 & S1); [apply Ok|]. destruct (X _ L2) as (c2 & E2 & S2); [apply Ok|]. destruct (X _ L3) as (c3 & E3 & S3); [apply Ok|].
    exists [c1; c2; c3]. split; [cbn [omap]; rewrite E1, E2, E3; reflexivity|]. unfold sat. cbn [forallb]. rewrite !andb_true_iff, S1, S2, S3. tauto. }
  destruct (oflat_some (fun p => omap (set_not_number c) [colour (tile_at g p); colour_ux (tile_at g p); colour_uy (tile_at g p)]) (iterate_tiles (geo g))) as [cs E].
  { intros p Hp. apply iterate_tiles_in in Hp. destruct (F p Hp) as (cs & E & _). eauto. }
  exists cs. split; [exact E|]. rewrite (sat_oflat a _ _ _ E). split.
  - intros H p Hp. destruct (H p) as (c' & E' & Sc); [apply iterate_tiles_in; exact Hp|]. destruct (F p Hp) as (c'' & E'' & Q). rewrite E' in E''. injection E'' as <-. apply Q. exact Sc.
  - intros H p Hp. apply iterate_tiles_in in Hp. destruct (F p Hp) as (c'' & E'' & Q). exists c''. split; [exact E''|]. apply Q. auto.
Qed.
Theorem C68_prevent_colour_0 g a T : wf_grid g -> solves_init g a -> reads g a T ->
  exists cs, prevent_colour g 0 = Some cs /\
  (sat a cs = true <-> forall p, inside (garea g) p -> T p <> Empty -> value a (colour (tile_at g p)) <> 0).
Proof.
  intros W S R. unfold prevent_colour. change (0 =? 0) with true. cbv iota.
  assert (F : forall p, inside (garea g) p -> exists cs, (let* n := set_not_number 0 (colour (tile_at g p)) in Some (map (fun l => - l :: n) (all_direction (tile_at g p)))) = Some cs /\
    (sat a cs = true <-> (T p <> Empty -> value a (colour (tile_at g p)) <> 0))).
  { intros p Hp. pose proof (tile_at_ok g p W Hp) as Ok.
    destruct (proj2 (set_not_number_some 0 (colour (tile_at g p)))) as [cl E]; [apply Z.pow_pos_nonneg; unfold len; lia|].
    rewrite E. cbn [obind]. eexists. split; [reflexivity|].
    pose proof (set_not_number_spec _ _ _ (ok_c _ Ok) E a) as Q. rewrite Z.mod_0_l in Q by (apply Z.pow_nonzero; unfold len; lia).
    rewrite sat_forall. rewrite <- (no_directions g W a S T R p Hp). 
    assert (X : (forall e, evl a (input_dir (tile_at g p) e) = false /\ evl a (output_dir (tile_at g p) e) = false) <-> forall l, In l (all_direction (tile_at g p)) -> evl a l = false).
    { unfold all_direction, inputs, outputs. split.
      - intros H l Hl. apply in_app_iff in Hl. rewrite !in_map_iff in Hl. destruct Hl as [(e & <- & _) | (e & <- & _)]; apply (H e).
      - intros H e. split; apply H; apply in_app_iff; [left|right]; apply in_map; destruct e; cbn; tauto. }
    assert (NZ : forall l, In l (all_direction (tile_at g p)) -> l <> 0).
    { unfold all_direction. intros l Hl. apply in_app_iff in Hl. unfold inputs, outputs in Hl. rewrite !in_map_iff in Hl. destruct Hl as [(e & <- & _) | (e & <- & _)]; apply Ok. }
    rewrite X. split.
    - intros H N. apply Q. destruct (satc a cl) eqn:Es; [reflexivity|]. exfalso. apply N. intros l Hl.
      assert (H' := H (- l :: cl) ltac:(apply in_map_iff; eauto)). cbn [satc existsb] in H'. change (existsb (evl a) cl) with (satc a cl) in H'. rewrite Es, orb_false_r in H'.
      rewrite P_Cnf.evl_neg in H' by (exact (NZ l Hl)). apply negb_true_iff. exact H'.
    - intros H c' Hc'. apply in_map_iff in Hc'. destruct Hc' as (l & <- & Hl). cbn [satc existsb]. change (existsb (evl a) cl) with (satc a cl).
      destruct (evl a l) eqn:El.
      + rewrite (proj2 Q), orb_true_r; [reflexivity|]. apply H. intros N. rewrite (N l Hl) in El. discriminate.
      + rewrite P_Cnf.evl_neg by (exact (NZ l Hl)). rewrite El. reflexivity. }
  destruct (oflat_some (fun p => let* n := set_not_number 0 (colour (tile_at g p)) in Some (map (fun l => - l :: n) (all_direction (tile_at g p)))) (iterate_tiles (geo g))) as [cs E].
  { intros p Hp. apply iterate_tiles_in in Hp. destruct (F p Hp) as (cs & E & _). eauto. }
  exists cs. split; [exact E|]. rewrite (sat_oflat a _ _ _ E). split.
  - intros H p Hp. destruct (H p) as (c' & E' & Sc); [apply iterate_tiles_in; exact Hp|]. destruct (F p Hp) as (c'' & E'' & Q). rewrite E' in E''. injection E'' as <-. apply Q. exact Sc.
  - intros H p Hp. apply iterate_tiles_in in Hp. destruct (F p Hp) as (c'' & E'' & Q). exists c''. split; [exact E''|]. apply Q. auto.
Qed.

(** ** C54 *)
(** With explicit offsets, an input row and an output row that meet in one row
    demand two colours of the same cell of the right edge. *)
Theorem C54_offsets_refuted g net so eo cs ic n oc m : wf_grid g ->
  get_input_output_colours net = Some ((ic, n), (oc, m)) -> ic <> oc ->
  setup_balancer_ends_with_offsets g net so eo = Some cs ->
  (exists y, so <= y < so + n /\ eo <= y < eo + m) ->
  forall a, sat a cs = false.
Proof.
  intros W Ee N E (y & H1 & H2) a. unfold setup_balancer_ends_with_offsets in E. rewrite Ee in E. cbn [obind] in E.
  destruct (negb _); [discriminate|].
  destruct (set_tiles g 0 0 so Empty) as [a1|]; [|discriminate]. cbn [obind] in E.
  destruct (set_tiles g 0 so (so + n) _) as [a2|]; [|discriminate]. cbn [obind] in E.
  destruct (set_colours g (width (geo g) - 1) so (so + n) ic) as [a3|] eqn:E3; [|discriminate]. cbn [obind] in E.
  destruct (set_tiles g 0 (so + n) _ _) as [a4|]; [|discriminate]. cbn [obind] in E.
  destruct (set_tiles g _ 0 eo _) as [b1|]; [|discriminate]. cbn [obind] in E.
  destruct (set_tiles g _ eo (eo + m) _) as [b2|]; [|discriminate]. cbn [obind] in E.
  destruct (set_colours g (width (geo g) - 1) eo (eo + m) oc) as [b3|] eqn:E4; [|discriminate]. cbn [obind] in E.
  destruct (set_tiles g _ (eo + m) _ _) as [b4|]; [|discriminate]. cbn [obind] in E. apply Some_inj in E. subst cs.
  destruct (sat a _) eqn:Sa; [|reflexivity]. exfalso. rewrite !sat_app, !andb_true_iff in Sa. destruct Sa as (_ & _ & S3 & _ & _ & _ & S4 & _).
  assert (X : forall lo k c cs, set_colours g (width (geo g) - 1) lo (lo + k) c = Some cs -> sat a cs = true -> lo <= y < lo + k -> value a (colour (tile_at g (width (geo g) - 1, y))) = c).
  { intros lo k c cs Es Sc Hy. unfold set_colours in Es. apply (proj1 (sat_oflat a _ _ _ Es)) with (x := y - lo) in Sc; [|apply range_in; lia].
    destruct Sc as (c' & Ec & Sc). replace (lo + (y - lo)) with y in Ec by lia. pose proof (C68_set_colour g (width (geo g) - 1) y c a W) as Q. rewrite Ec in Q. apply Q. exact Sc. }
  apply N. rewrite <- (X _ _ _ _ E3 S3 H1), <- (X _ _ _ _ E4 S4 H2). reflexivity.
Qed.

(** ** Examples *)
(** One splitter on a 3 x 3 grid; the second output turns down. *)
Definition demo_net : network := [((Some 0, Some 0), (Some 1, Some 1))].
Definition demo_balancer : layout := fun p => match p with
  | (0, 0) => Belt RIGHT RIGHT | (0, 1) => Belt RIGHT RIGHT
  | (1, 0) => Splitter RIGHT false | (1, 1) => Splitter RIGHT true
  | (2, 0) => Belt RIGHT RIGHT | (2, 1) => Belt RIGHT DOWN | (2, 2) => Belt DOWN DOWN
  | _ => Empty end.
Definition demo_colours (p : pos) : Z := if fst p =? 2 then 1 else 0.
Definition demo_bgrid : grid := balancer_grid (deduplicate_network demo_net) 3 3 (Some 4) 1.
Definition demo_nodes : assignment := fun v => v =? node demo_bgrid (1, 1) 0.
Definition demo_solution : assignment := layout_assignment demo_bgrid demo_balancer 4 demo_colours (fun _ => 0) (fun _ => 0) demo_nodes.
Definition demo_clauses : cnf := match create_balancer naive_encoder (deduplicate_network demo_net) 3 3 (Some 4) with Some (_, cs, _) => cs | None => [] end.
Example C52_demo : solves_balancer naive_encoder (deduplicate_network demo_net) 3 3 (Some 4) demo_bgrid demo_solution.
Proof.
  assert (X : match create_balancer naive_encoder (deduplicate_network demo_net) 3 3 (Some 4) with Some (_, cs, _) => sat demo_solution cs | None => false end = true) by (vm_compute; reflexivity).
  assert (Y : match create_balancer naive_encoder (deduplicate_network demo_net) 3 3 (Some 4) with Some (g, _, _) => g = demo_bgrid | None => False end) by (vm_compute; reflexivity).
  destruct (create_balancer naive_encoder (deduplicate_network demo_net) 3 3 (Some 4)) as [[[g cs] top]|] eqn:E; [|discriminate]. subst g.
  exists cs, top. split; [exact E|]. split; [exact X|]. split; [vm_compute; reflexivity|]. apply check_clauses. vm_compute. reflexivity.
Qed.
Example C52_reads : reads demo_bgrid demo_solution demo_balancer.
Proof.
  assert (X : forallb (fun p => match decoded demo_bgrid demo_solution p with Some t => if tile_eq_dec t (demo_balancer p) then true else false | None => false end)
    (iterate_tiles (geo demo_bgrid)) = true) by (vm_compute; reflexivity).
  intros p Hp. rewrite forallb_forall in X. specialize (X p (proj2 (iterate_tiles_in _ _) Hp)).
  unfold decoded in X. destruct (read_tile _) as [t|]; [|discriminate]. destruct (tile_eq_dec t (demo_balancer p)); [congruence|discriminate].
Qed.
(** The same splitter with the outputs on the right edge, in the rows [o] and
    [o + 1]. *)
Definition row_balancer (o : Z) : layout := fun p =>
  let t := match p with
    | (0, _) => Belt RIGHT RIGHT | (1, y) => Splitter RIGHT (o <? y) | (2, _) => Belt RIGHT RIGHT | _ => Empty end in
  if (o <=? snd p) && (snd p <=? o + 1) then t else Empty.
Definition row_nodes (o : Z) : assignment := fun v => v =? node demo_bgrid (1, o + 1) 0.
Definition row_solution (o : Z) : assignment := layout_assignment demo_bgrid (row_balancer o) 4 demo_colours (fun _ => 0) (fun _ => 0) (row_nodes o).
Lemma row_solves o : o = 0 \/ o = 1 -> solves_balancer naive_encoder (deduplicate_network demo_net) 3 3 (Some 4) demo_bgrid (row_solution o).
Proof.
  intros Ho.
  assert (X : match create_balancer naive_encoder (deduplicate_network demo_net) 3 3 (Some 4) with Some (_, cs, _) => sat (row_solution o) cs | None => false end = true) by (destruct Ho; subst o; vm_compute; reflexivity).
  assert (Y : match create_balancer naive_encoder (deduplicate_network demo_net) 3 3 (Some 4) with Some (g, _, _) => g = demo_bgrid | None => False end) by (vm_compute; reflexivity).
  destruct (create_balancer naive_encoder (deduplicate_network demo_net) 3 3 (Some 4)) as [[[g cs] top]|] eqn:E; [|discriminate]. subst g.
  exists cs, top. split; [exact E|]. split; [exact X|]. split; [destruct Ho; subst o; vm_compute; reflexivity|]. apply check_clauses. destruct Ho; subst o; vm_compute; reflexivity.
Qed.
Lemma row_reads o : o = 0 \/ o = 1 -> reads demo_bgrid (row_solution o) (row_balancer o).
Proof.
  intros Ho.
  assert (X : forallb (fun p => match decoded demo_bgrid (row_solution o) p with Some t => if tile_eq_dec t (row_balancer o p) then true else false | None => false end)
    (iterate_tiles (geo demo_bgrid)) = true) by (destruct Ho; subst o; vm_compute; reflexivity).
  intros p Hp. rewrite forallb_forall in X. specialize (X p (proj2 (iterate_tiles_in _ _) Hp)).
  unfold decoded in X. destruct (read_tile _) as [t|]; [|discriminate]. destruct (tile_eq_dec t (row_balancer o p)); [congruence|discriminate].
Qed.
Lemma demo_wf : wf_grid demo_bgrid.
Proof. split; [split; reflexivity|]. split; [reflexivity|]. split; [cbn; lia|]. cbn; lia. Qed.
Lemma row_init o : o = 0 \/ o = 1 -> solves_init demo_bgrid (row_solution o).
Proof. intros Ho. unfold solves_init. apply check_clauses. destruct Ho; subst o; vm_compute; reflexivity. Qed.

(** In the upper two rows the ends can be set up, aligned; in the lower two
    rows the same balancer is lost. *)
Example C53_upper_rows : forall cs top', setup_balancer_ends demo_bgrid (deduplicate_network demo_net) true false 2000 = Some (cs, top') ->
  exists b, agree 2000 (row_solution 0) b /\ sat b cs = true.
Proof.
  intros cs top' E. assert (Ee : get_input_output_colours (elements (deduplicate_network demo_net)) = Some ((0, 2), (1, 2))) by reflexivity.
  apply (C53_ends demo_bgrid _ true false 2000 cs top' _ _ _ _ _ _ demo_wf ltac:(vm_compute; discriminate) (row_init 0 (or_introl eq_refl)) (row_reads 0 (or_introl eq_refl)) Ee E).
  change (height (geo demo_bgrid)) with 3. change (width (geo demo_bgrid) - 1) with 2. exists 0, 0. unfold ends_placed. change (3 =? 2) with false. cbv iota. change (2 <=? 2) with true. cbv iota.
  split; [|split; [|lia]]; split; try lia; intros y Hy; (assert (y = 0 \/ y = 1 \/ y = 2) as [-> | [-> | ->]] by lia); (split; intros; try lia; vm_compute; eauto).
Qed.
Example C53_sets_up : setup_balancer_ends demo_bgrid (deduplicate_network demo_net) true false 2000 <> None.
Proof. vm_compute. discriminate. Qed.
Example C53_lower_rows_lost : forall cs top', setup_balancer_ends demo_bgrid (deduplicate_network demo_net) true false 2000 = Some (cs, top') ->
  ~ exists b, agree 2000 (row_solution 1) b /\ sat b cs = true.
Proof.
  intros cs top' E. assert (Ee : get_input_output_colours (elements (deduplicate_network demo_net)) = Some ((0, 2), (1, 2))) by reflexivity.
  rewrite (C53_ends demo_bgrid _ true false 2000 cs top' _ _ _ _ _ _ demo_wf ltac:(vm_compute; discriminate) (row_init 1 (or_intror eq_refl)) (row_reads 1 (or_intror eq_refl)) Ee E).
  change (height (geo demo_bgrid)) with 3. intros (i & j & [Hi P] & _). specialize (P 2 ltac:(lia)). destruct P as [_ P]. specialize (P ltac:(lia)). vm_compute in P. discriminate.
Qed.

(** A steady flow in which the two inputs carry 1 and 3 items and the outputs
    2 each. *)
Definition demo_into (s : start) : Q := match s with Enter (_, 0) => 1 | Enter _ => 3 | Exit _ => 2 end.
Definition demo_from (f : finish) : Q := match f with Entrance (_, 0) => 1 | Entrance _ => 3 | Leave _ => 2 end.
Definition demo_area := {| aw := 3; ah := 3; wrapx := false; wrapy := false |}.
Lemma demo_cells p : inside demo_area p ->
  p = (0, 0) \/ p = (0, 1) \/ p = (0, 2) \/ p = (1, 0) \/ p = (1, 1) \/ p = (1, 2) \/ p = (2, 0) \/ p = (2, 1) \/ p = (2, 2).
Proof.
  destruct p as [x y]. intros [Hx Hy]. cbn in Hx, Hy.
  assert (x = 0 \/ x = 1 \/ x = 2) as [-> | [-> | ->]] by lia; assert (y = 0 \/ y = 1 \/ y = 2) as [-> | [-> | ->]] by lia; tauto.
Qed.
Ltac cells H := apply demo_cells in H; repeat (destruct H as [H|H]); subst.
Definition demo_amount (p : pos) : Q := if fst p =? 2 then 2 else if snd p =? 0 then 1 else 3.
Lemma demo_carried p q : carried demo_area (row_balancer 0) 4 p q -> demo_amount q = demo_amount p.
Proof.
  induction 1 as [p|p q r (I1 & N1 & d & P1 & Nb) _ IH|p q r (I1 & d & E1 & _) _ IH]; [reflexivity| |]; rewrite ?IH.
  - clear IH. cells I1; vm_compute in N1, P1; try contradiction; try (exfalso; apply N1; exact Logic.I); subst d; vm_compute in Nb; inversion Nb; reflexivity.
  - exfalso. cells I1; vm_compute in E1; discriminate.
Qed.
Example C67_flow : steady_layout demo_area (row_balancer 0) 4 demo_into demo_from.
Proof.
  split.
  - intros s f (q & r & B & C & F). apply demo_carried in C.
    assert (X : demo_into s = demo_amount q).
    { destruct s as [p|p].
      - destruct B as (-> & I1 & d & Tk & Nb). cells I1; vm_compute in Tk; try contradiction; subst d; vm_compute in Nb; try discriminate; reflexivity.
      - destruct B as (I1 & d & h & E1 & Nb & _). cells I1; vm_compute in E1; inversion E1; subst d h; vm_compute in Nb; inversion Nb; reflexivity. }
    assert (Y : demo_from f = demo_amount r).
    { destruct f as [p|p].
      - destruct F as (-> & I1 & Ns & d & Ps & Nb). cells I1; vm_compute in Ns, Ps; try contradiction; try (exfalso; apply Ns; exact Logic.I); subst d; vm_compute in Nb; try discriminate; reflexivity.
      - destruct F as (-> & I1 & Sp). cells I1; vm_compute in Sp; try contradiction; reflexivity. }
    rewrite X, Y, C. reflexivity.
  - intros [p q] (I1 & I2 & d & E1 & E2 & Nb). cbn [fst snd] in *. clear I2. cells I1; vm_compute in E1; try discriminate.
    injection E1 as <-. vm_compute in Nb. injection Nb as <-. split; vm_compute; reflexivity.
Qed.
Example C67_demo : balanced_layout demo_area (row_balancer 0) 4.
Proof.
  apply (C67_solutions_balance naive_encoder demo_net 3 3 (Some 4) demo_bgrid (row_solution 0) (row_balancer 0) 0 2 1 2); try reflexivity.
  - exact naive_honest.
  - intros c [H|[H|[H|[H|[]]]]]; injection H as <-; lia.
  - intros nd [<-|[]]; cbn; repeat split; discriminate.
  - cbn; lia.
  - apply (C28_balances (fun _ l => l) 2 demo_net 0 2 1 2 (fun _ l => Permutation_refl l) eq_refl eq_refl).
  - apply row_solves. auto.
  - apply row_reads. auto.
Qed.

(** C54: the inputs and outputs of the splitter share rows. *)
Example C54_example : match setup_balancer_ends_with_offsets demo_bgrid demo_net 0 1 with Some cs => forall a, sat a cs = false | None => False end.
Proof.
  destruct (setup_balancer_ends_with_offsets demo_bgrid demo_net 0 1) as [cs|] eqn:E; [|vm_compute in E; discriminate].
  apply (C54_offsets_refuted demo_bgrid demo_net 0 1 cs 0 2 1 2 demo_wf eq_refl ltac:(lia) E). exists 1. lia.
Qed.
Print Assumptions C52_solutions_realise.
Print Assumptions C53_ends.
Print Assumptions C53_ends_90.
Print Assumptions C53_ends_180.
Print Assumptions C53_ends_fail.
Print Assumptions C53_last_block_refuted.
Print Assumptions C54_offsets_refuted.
Print Assumptions C67_solutions_balance.
Print Assumptions C67_benes_balance.
Print Assumptions C68_set_colour.
Print Assumptions C68_prevent_colour.
Print Assumptions C68_prevent_colour_0.
