(** Property theorems C55: breaking the mirror symmetry of a grid. *)
From Coq Require Import String ZArith List Bool Lia Permutation.
From Verif Require Import P_Network P_Network2 P_Benes P_Nonneg P_Similar T_Network.
From Verif Require Import Spec_Cnf Spec_Tile Spec_Layout Spec_Transform M_Json M_Tile M_Rotate M_Util M_Card M_Network Spec_Network M_Template M_Grid M_Oracle M_Balancer M_Optimise
  P_Cnf P_Util P_Util3 P_Card P_Tile P_Rotate P_Layout T_Tile P_List P_Template P_Walk P_Grid P_GridSound P_GridComplete P_Transport T_Grid T_Enumerate P_GridOk P_Gen P_Balancer
  Spec_Balancer P_Trace P_Realise P_Ends T_Balancer P_Lossless T_Lossless P_Mirror.
Import ListNotations.
Local Open Scope string_scope.
Open Scope Z_scope.

(** The layout [T] turned upside down. *)
Definition mirror_layout (A : area) (T : layout) : layout := fun p => image_tile MirrorY (T (image_pos MirrorY A p)).
Lemma mirror_layout_image A T p : mirror_layout A T (image_pos MirrorY A p) = image_tile MirrorY (T p).
Proof. unfold mirror_layout. f_equal. f_equal. destruct p as [x y]. cbn. f_equal. lia. Qed.

Lemma grid_size_nonneg g : wf_grid g -> 0 <= grid_size g.
Proof.
  intros ((Ww & Wh) & Ht & _). unfold grid_size. pose proof (tile_size_pos g).
  assert (0 <= width (geo g) * height (geo g)) by (apply Z.mul_nonneg_nonneg; lia). assert (0 <= width (geo g) * height (geo g) * tile_size g) by (apply Z.mul_nonneg_nonneg; lia). lia.
Qed.

(** ** C55 *)
(** On a grid of one row the second row is asked for, and the call raises. *)
Theorem C55_one_row_raises g v : wf_grid g -> height (geo g) = 1 -> break_vertical_symmetry g v = None.
Proof.
  intros W Hh. unfold break_vertical_symmetry. rewrite Hh. change (range (Z.max 2 (1 / 2))) with [0; 1]. cbn [symmetry_loop].
  destruct (symmetry_row g 0) as [[t b]|] eqn:E0; [|reflexivity]. cbn [obind].
  destruct (break_symmetry _ _ v) as [[cs v1]|]; [|reflexivity]. cbn [obind].
  replace (symmetry_row g 1) with (@None (list lit * list lit)); [reflexivity|].
  unfold symmetry_row, in_grid. rewrite Hh. rewrite !andb_false_r. reflexivity.
Qed.

(** On every larger grid the clauses are built.  Of two assignments that are
    mirror images of each other, one at least satisfies them once the new
    variables are chosen ... *)
Theorem C55_one_of_each_pair g v : wf_grid g -> 2 <= height (geo g) -> grid_size g <= v ->
  exists cs v', break_vertical_symmetry g v = Some (cs, v') /\ v <= v' /\
    forall a m, mirrored_solution g a m ->
      (exists b, agree v a b /\ sat b cs = true) \/ (exists b, agree v m b /\ sat b cs = true).
Proof.
  intros W Hh Hv. assert (H0 : 0 <= v) by (pose proof (grid_size_nonneg g W); lia).
  destruct (break_vertical_ok g W v Hh Hv H0) as (cs & v' & E & Hv' & _ & _ & C). exists cs, v'. split; [exact E|]. split; [exact Hv'|].
  intros a m M. pose proof (mirrored_half g Hh a m M) as H1. pose proof (mirrored_half g Hh m a (mirrored_sym g a m M)) as H2.
  destruct (P_Mirror.lex_le_total (values a (upper_half g)) (values a (lower_half g))) as [Q|Q]; [unfold values; rewrite !map_length; apply half_lengths| |].
  - left. apply C. exact Q.
  - right. apply C. rewrite H1, <- H2. exact Q.
Qed.

(** ... and both do so only if they are the same in every pair of rows, the
    middle row excepted. *)
Theorem C55_both_only_if_symmetric g v cs v' a m : wf_grid g -> 2 <= height (geo g) -> grid_size g <= v ->
  break_vertical_symmetry g v = Some (cs, v') -> mirrored_solution g a m -> sat a cs = true -> sat m cs = true ->
  forall p, inside (garea g) p -> 2 * snd p + 1 <> height (geo g) ->
  let t := tile_at g p in
  evl m (is_belt t) = evl a (is_belt t) /\ evl m (is_empty t) = evl a (is_empty t) /\
  evl m (M_Grid.is_splitter t) = evl a (M_Grid.is_splitter t) /\
  evl m (is_underground_in t) = evl a (is_underground_in t) /\ evl m (is_underground_out t) = evl a (is_underground_out t) /\
  forall d, evl m (input_dir t d) = evl a (input_dir t d) /\ evl m (output_dir t d) = evl a (output_dir t d).
Proof.
  intros W Hh Hv E M Sa Sm. assert (H0 : 0 <= v) by (pose proof (grid_size_nonneg g W); lia).
  destruct (break_vertical_ok g W v Hh Hv H0) as (cs0 & v0 & E0 & _ & _ & S & _). rewrite E in E0. injection E0 as <- <-.
  pose proof (mirrored_half g Hh a m M) as H1. pose proof (mirrored_half g Hh m a (mirrored_sym g a m M)) as H2.
  assert (Eq : values a (upper_half g) = values a (lower_half g)).
  { apply lex_le_antisym; [unfold values; rewrite !map_length; apply half_lengths|apply S; exact Sa|]. rewrite <- H1. rewrite H2. apply S. exact Sm. }
  assert (Key : forall p, inside (garea g) p -> 2 * snd p + 1 < height (geo g) ->
    values m (symmetry_top (tile_at g p)) = values a (symmetry_top (tile_at g p)) /\
    values m (symmetry_bottom (tile_at g (upside_down g p))) = values a (symmetry_bottom (tile_at g (upside_down g p)))).
  { intros [x y] [Hx Hy] Lt. change (0 <= x < width (geo g)) in Hx. change (0 <= y < height (geo g)) in Hy. cbn [snd] in Lt.
    assert (Hc : In y (compared_rows g)).
    { apply range_in. assert (y < height (geo g) / 2 \/ height (geo g) / 2 <= y) as [?|Q] by lia; [lia|].
      pose proof (Z.div_mod (height (geo g)) 2 ltac:(lia)). pose proof (Z.mod_pos_bound (height (geo g)) 2 ltac:(lia)). lia. }
    pose proof (halves_equal g a Eq x y Hc Hx) as K.
    assert (Ip : inside (garea g) (x, y)) by (split; cbn; lia).
    pose proof (mirrored_cell g a m (x, y) M Ip) as K1. pose proof (mirrored_cell g m a (x, y) (mirrored_sym g a m M) Ip) as K2.
    rewrite upside_down_eq in *. split; congruence. }
  intros p Hp Mid t.
  assert (Un : forall s b c, (values b (symmetry_top s) = values c (symmetry_top s) \/ values b (symmetry_bottom s) = values c (symmetry_bottom s)) ->
    evl b (is_belt s) = evl c (is_belt s) /\ evl b (is_empty s) = evl c (is_empty s) /\ evl b (M_Grid.is_splitter s) = evl c (M_Grid.is_splitter s) /\
    evl b (is_underground_in s) = evl c (is_underground_in s) /\ evl b (is_underground_out s) = evl c (is_underground_out s) /\
    forall d, evl b (input_dir s d) = evl c (input_dir s d) /\ evl b (output_dir s d) = evl c (output_dir s d)).
  { intros s b c [K|K]; rewrite ?top_eq, ?bottom_eq in K; cbn [values map] in K; injection K; intros; repeat split; try assumption; destruct d; assumption. }
  destruct (Z.lt_ge_cases (2 * snd p + 1) (height (geo g))) as [Lt|Ge].
  - apply Un. left. apply Key; assumption.
  - apply Un. right. destruct (Key (upside_down g p) (upside_down_inside g p Hp)) as [_ K]; [destruct p as [x y]; rewrite upside_down_eq; cbn [snd] in *; lia|].
    rewrite upside_down_twice in K. exact K.
Qed.

(** *** In terms of layouts *)
Lemma image_takes p d (T : layout) : takes (image_tile MirrorY (T p)) d <-> takes (T p) (image_dir MirrorY d).
Proof. destruct (T p) as [| |i o|e []|e b|e k|x y]; cbn; try tauto; destruct d; try (destruct i); try (destruct e); cbn; split; congruence. Qed.
Lemma image_pushes p d (T : layout) : pushes (image_tile MirrorY (T p)) d <-> pushes (T p) (image_dir MirrorY d).
Proof. destruct (T p) as [| |i o|e []|e b|e k|x y]; cbn; try tauto; destruct d; try (destruct o); try (destruct e); cbn; split; congruence. Qed.
Lemma bool_iff b c : (b = true <-> c = true) -> b = c.
Proof. destruct b, c; intuition congruence. Qed.

Lemma mirrored_of_connected g a m T : wf_grid g -> solves_init g a -> solves_init g m ->
  reads g a T -> reads g m (mirror_layout (garea g) T) -> all_connected g a T -> all_connected g m (mirror_layout (garea g) T) ->
  mirrored_solution g a m.
Proof.
  intros W Sa Sm Ra Rm Ca Cm. pose proof (WA g W) as HA. pose proof HA as [HA1 HA2]. apply (solves_init_rules g _ W) in Sa. apply (solves_init_rules g _ W) in Sm.
  intros p Hp. cbv zeta. set (q := upside_down g p). assert (Hq : inside (garea g) q) by (apply upside_down_inside; exact Hp).
  assert (Ep : p = image_pos MirrorY (garea g) q) by (symmetry; apply upside_down_twice).
  assert (Tp : mirror_layout (garea g) T p = image_tile MirrorY (T q)) by reflexivity.
  pose proof (T_shows g a T Ra Sa q Hq) as (_ & A1 & A2 & A3 & A4 & A5 & _).
  pose proof (T_shows g m _ Rm Sm p Hp) as (_ & B1 & B2 & B3 & B4 & B5 & _). rewrite Tp in B1, B2, B3, B4, B5.
  split; [etransitivity; [exact B1|symmetry; etransitivity; [exact A1|]]; destruct (T q); reflexivity|].
  split; [etransitivity; [exact B2|symmetry; etransitivity; [exact A2|]]; destruct (T q); reflexivity|].
  split; [etransitivity; [exact B3|symmetry; etransitivity; [exact A3|]]; destruct (T q); reflexivity|].
  split; [etransitivity; [exact B4|symmetry; etransitivity; [exact A4|]]; destruct (T q) as [| |? ?|? []|? ?|? ?|? ?]; reflexivity|].
  split; [etransitivity; [exact B5|symmetry; etransitivity; [exact A5|]]; destruct (T q) as [| |? ?|? []|? ?|? ?|? ?]; reflexivity|].
  assert (Nb : forall d, neighbour (garea g) p d = option_map (image_pos MirrorY (garea g)) (neighbour (garea g) q (image_dir MirrorY d))).
  { intros d. rewrite Ep. pose proof (image_ahead MirrorY (garea g) q (image_dir MirrorY d) 1 HA1 HA2) as X. destruct d; exact X. }
  intros d. destruct (Cm p d Hp) as [I1 O1]. destruct (Ca q (image_dir MirrorY d) Hq) as [I2 O2].
  assert (Oo : opposite (image_dir MirrorY d) = image_dir MirrorY (opposite d)) by (destruct d; reflexivity).
  split; apply bool_iff; [rewrite I1, I2|rewrite O1, O2]; rewrite Tp.
  - rewrite Oo, Nb, image_takes. apply and_iff_compat_l. split; intros H r Hr.
    + rewrite Hr in H. cbn [option_map] in H. specialize (H _ eq_refl). rewrite mirror_layout_image in H. apply image_pushes in H. exact H.
    + destruct (neighbour (garea g) q (image_dir MirrorY (opposite d))) as [r0|]; cbn [option_map] in Hr; [|discriminate]. apply Some_inj in Hr. subst r.
      rewrite mirror_layout_image. apply image_pushes. apply H. reflexivity.
  - rewrite Nb, image_pushes. apply and_iff_compat_l. split; intros H r Hr.
    + rewrite Hr in H. cbn [option_map] in H. specialize (H _ eq_refl). rewrite mirror_layout_image in H. apply image_takes in H. exact H.
    + destruct (neighbour (garea g) q (image_dir MirrorY d)) as [r0|]; cbn [option_map] in Hr; [|discriminate]. apply Some_inj in Hr. subst r.
      rewrite mirror_layout_image. apply image_takes. apply H. reflexivity.
Qed.

Lemma mirror_valid A T L : wf_area A -> valid_layout A T L -> valid_layout A (mirror_layout A T) L.
Proof. intros [H1 H2] V. apply (proj1 (valid_symmetric MirrorY A T (mirror_layout A T) L H1 H2 (fun p _ => mirror_layout_image A T p))). exact V. Qed.
Lemma mirror_mirror_tile A T p : mirror_layout A (mirror_layout A T) p = T p.
Proof.
  unfold mirror_layout. replace (image_pos MirrorY A (image_pos MirrorY A p)) with p by (destruct p as [x y]; cbn; f_equal; lia).
  apply (image_tile_inv MirrorY).
Qed.

Lemma solves_agree g e n a b : wf_grid g -> grid_size g <= n -> agree n a b -> solves g e a -> solves g e b.
Proof.
  intros W Hn Ag ((ci & Ei & Si) & H2 & H3 & H4 & cl & El & Sl). pose proof (agree_mono _ _ _ _ Hn Ag) as A'.
  split; [exists ci; split; [exact Ei|]; rewrite <- (sat_agree _ _ _ _ A' (init_ok g W ci Ei)); exact Si|].
  split; [rewrite <- (sat_agree _ _ _ _ A' (intersection_ok g W)); exact H2|].
  split; [rewrite <- (sat_agree _ _ _ _ A' (undergrounding_ok g W)); exact H3|].
  split; [rewrite <- (sat_agree _ _ _ _ A' (block_underground_ok g W e)); exact H4|].
  exists cl. split; [exact El|]. rewrite <- (sat_agree _ _ _ _ A' (length_ok g W cl El)). exact Sl.
Qed.
Lemma colouring_agree g n a b : wf_grid g -> grid_size g <= n -> agree n a b -> solves_colouring g a -> solves_colouring g b.
Proof.
  intros W Hn Ag (c & E & S). pose proof (agree_mono _ _ _ _ Hn Ag) as A'. exists c. split; [exact E|]. rewrite <- (sat_agree _ _ _ _ A' (colouring_ok g W c E)). exact S.
Qed.
Lemma reads_agree g n a b T : wf_grid g -> grid_size g <= n -> agree n a b -> reads g a T -> reads g b T.
Proof.
  intros W Hn Ag R p Hp. rewrite <- (R p Hp). f_equal. symmetry. apply (parse_tile_agree (grid_size g) a b _ (agree_mono _ _ _ _ Hn Ag)). apply tile_at_lits; assumption.
Qed.
Lemma mirror_carried A T L p q : wf_area A -> carried A (mirror_layout A T) L p q -> carried A T L (image_pos MirrorY A p) (image_pos MirrorY A q).
Proof.
  intros [H1 H2]. apply (i_carried (equivariant_of_sym MirrorY A (mirror_layout A T) T H1 H2 ltac:(intros r _; rewrite <- (mirror_mirror_tile A T); apply mirror_layout_image))).
Qed.

(** No valid layout is lost up to its mirror image: with any colouring that is
    constant along the belts and tunnels, the layout or its mirror image is
    read off a solution of the clauses of a grid together with these. *)
Theorem C55_no_layout_lost g e v T L C : wf_grid g -> 2 <= height (geo g) -> grid_size g <= v -> edges_closed g e ->
  match glen g with Some l => 1 <= l /\ L <= l | None => True end ->
  valid_layout (garea g) T L ->
  (forall p, inside (garea g) p -> match gcolours g with Some c => 0 <= C p < c | None => C p = 0 end) ->
  (forall p q, carried (garea g) T L p q -> C p = C q) ->
  exists cs v', break_vertical_symmetry g v = Some (cs, v') /\
  exists b, solves g e b /\ solves_colouring g b /\ sat b cs = true /\
    (reads g b T /\ (forall p, inside (garea g) p -> value b (colour (tile_at g p)) = C p) \/
     reads g b (mirror_layout (garea g) T) /\ (forall p, inside (garea g) p -> value b (colour (tile_at g p)) = C (upside_down g p))).
Proof.
  intros W Hh Hv EC HL VL HC HD. pose proof (WA g W) as HA.
  destruct (C55_one_of_each_pair g v W Hh Hv) as (cs & v' & E & _ & Pair). exists cs, v'. split; [exact E|].
  destruct (C49_no_layout_lost g e T L C (fun _ => false) W EC HL VL HC HD) as (a & So & Sc & R & Ca & _ & _ & Conn & _).
  destruct (C49_no_layout_lost g e (mirror_layout (garea g) T) L (fun p => C (upside_down g p)) (fun _ => false) W EC HL (mirror_valid _ T L HA VL)) as (m & So' & Sc' & R' & Ca' & _ & _ & Conn' & _).
  - intros p Hp. apply HC. apply upside_down_inside. exact Hp.
  - intros p q H. apply HD. apply mirror_carried; assumption.
  - assert (Vc : forall x y, agree v x y -> forall p, inside (garea g) p -> value y (colour (tile_at g p)) = value x (colour (tile_at g p))).
    { intros x y Ag p Hp. symmetry. eapply value_agree; [exact Ag|]. eapply Forall_impl; [intros l Hl; eapply lit_ok_mono; [exact Hv|exact Hl]|]. apply (tl_c _ _ (tile_at_lits g p W Hp)). }
    destruct (Pair a m) as [(b & Ag & Sb)|(b & Ag & Sb)].
    + apply (mirrored_of_connected g a m T W); try assumption; [apply So|apply So'].
    + exists b. split; [eapply solves_agree; eauto|]. split; [eapply colouring_agree; eauto|]. split; [exact Sb|]. left.
      split; [eapply reads_agree; eauto|]. intros p Hp. rewrite (Vc a b Ag p Hp). apply Ca. exact Hp.
    + exists b. split; [eapply solves_agree; eauto|]. split; [eapply colouring_agree; eauto|]. split; [exact Sb|]. right.
      split; [eapply reads_agree; eauto|]. intros p Hp. rewrite (Vc m b Ag p Hp). apply Ca'. exact Hp.
Qed.

(** *** For balancers *)
Lemma mirror_realises A T L net ic n oc m : wf_area A -> valid_layout A T L -> realises A T L net ic n oc m -> realises A (mirror_layout A T) L net ic n oc m.
Proof.
  intros [H1 H2] V. apply (realises_symmetric MirrorY A T (mirror_layout A T) L net ic n oc m H1 H2 (fun p _ => mirror_layout_image A T p)). apply V.
Qed.
Lemma balancer_agree E net w h ul g cs top a b : wf_grid g -> cnf_ok top cs -> grid_size g <= top -> create_balancer E net w h ul = Some (g, cs, top) ->
  agree top a b -> solves_balancer E net w h ul g a -> solves_balancer E net w h ul g b.
Proof.
  intros W K Ht Cr Ag (cs0 & top0 & Cr0 & S & Ix & cl & El & Sl). rewrite Cr in Cr0. injection Cr0 as <- <-. pose proof (agree_mono _ _ _ _ Ht Ag) as A'.
  exists cs, top. split; [exact Cr|]. split; [rewrite <- (sat_agree _ _ _ _ Ag K); exact S|].
  split; [rewrite <- (sat_agree _ _ _ _ A' (intersection_ok g W)); exact Ix|]. exists cl. split; [exact El|]. rewrite <- (sat_agree _ _ _ _ A' (length_ok g W cl El)). exact Sl.
Qed.

(** A layout of the network and its mirror image, as two solutions that are
    mirror images of each other. *)
Lemma balancer_pair E net w h ul g cs top T ic n oc m : honest E -> nonneg net -> complete net ->
  match ul with Some l => 1 <= l | None => True end ->
  get_input_output_colours net = Some ((ic, n), (oc, m)) ->
  create_balancer E (deduplicate_network net) w h ul = Some (g, cs, top) ->
  let A := rectangle w h in let L := longest w h ul in
  valid_layout A T L -> realises A T L net ic (Z.to_nat n) oc (Z.to_nat m) ->
  wf_grid g /\ garea g = A /\ grid_size g <= top /\ cnf_ok top cs /\ height (geo g) = h /\
  exists x y, solves_balancer E (deduplicate_network net) w h ul g x /\ solves_balancer E (deduplicate_network net) w h ul g y /\
    solves_init g x /\ solves_init g y /\
    reads g x T /\ reads g y (mirror_layout A T) /\ all_connected g x T /\ all_connected g y (mirror_layout A T) /\ mirrored_solution g x y.
Proof.
  intros HE Hn Cm Hul Ends Cr A L VL HR. pose proof (dedup_nonneg net Hn) as Hn'. pose proof (dedup_complete net Cm) as Cm'.
  assert (Hul0 : match ul with Some l => 0 <= l | None => True end) by (destruct ul; [lia|exact Logic.I]).
  assert (Ends' : get_input_output_colours (elements (deduplicate_network net)) = Some ((ic, n), (oc, m))) by (rewrite deduplicate_ends; exact Ends).
  assert (Wa : wf_area A) by (unfold create_balancer in Cr; destruct (Z.ltb_spec 0 w), (Z.ltb_spec 0 h); try discriminate; split; assumption).
  destruct (create_balancer_spec E _ w h ul g cs top HE Hn' Hul0 Cr) as (ic' & n' & oc' & m' & Ee & W & (t & _ & Eg & _) & Gs & Ok & En & _).
  assert (EA : garea g = A) by (subst g; reflexivity).
  split; [exact W|]. split; [exact EA|]. split; [exact Gs|]. split; [exact Ok|]. split; [subst g; reflexivity|].
  assert (Find : forall T0, valid_layout A T0 L -> realises A T0 L net ic (Z.to_nat n) oc (Z.to_nat m) ->
    exists a, solves_balancer E (deduplicate_network net) w h ul g a /\ solves_init g a /\ reads g a T0 /\ all_connected g a T0).
  { intros T0 V0 R0. apply (realises_similar A T0 L net _ ic _ oc _ (deduplicate_similar net)) in R0. destruct R0 as (P & wire & R0).
    destruct (C69_no_realisation_lost E _ w h ul g cs top T0 ic n oc m P wire HE Hn') as (a & X1 & X2 & X3); auto.
    - intros nd k Hin. destruct (C29_deduplicate net) as (_ & _ & H & _). destruct (H nd k Hin) as [_ (cp & ot & _ & <- & _)]. lia.
    - eapply complete_lines; eauto.
    - exists a. split; [exact X1|]. split; [|split; assumption]. destruct X1 as (cs0 & top0 & Cr0 & S0 & _). rewrite Cr in Cr0. injection Cr0 as <- <-.
      apply (proj1 En a S0). }
  destruct (Find T VL HR) as (x & X1 & X2 & X3 & X4).
  destruct (Find (mirror_layout A T) (mirror_valid A T L Wa VL) (mirror_realises A T L _ _ _ _ _ Wa VL HR)) as (y & Y1 & Y2 & Y3 & Y4).
  exists x, y. repeat (split; [assumption|]). rewrite <- EA in Y3, Y4. apply (mirrored_of_connected g x y T W); assumption.
Qed.

(** Of every layout of the network, or its mirror image, there is a solution
    that satisfies these clauses as well. *)
Theorem C55_no_balancer_lost E net w h ul g cs top T ic n oc m : honest E -> nonneg net -> complete net ->
  match ul with Some l => 1 <= l | None => True end -> 2 <= h ->
  get_input_output_colours net = Some ((ic, n), (oc, m)) ->
  create_balancer E (deduplicate_network net) w h ul = Some (g, cs, top) ->
  let A := rectangle w h in let L := longest w h ul in
  valid_layout A T L -> realises A T L net ic (Z.to_nat n) oc (Z.to_nat m) ->
  exists bs top', break_vertical_symmetry g top = Some (bs, top') /\
  exists b, solves_balancer E (deduplicate_network net) w h ul g b /\ sat b bs = true /\ (reads g b T \/ reads g b (mirror_layout A T)).
Proof.
  intros HE Hn Cm Hul Hh Ends Cr A L VL HR.
  destruct (balancer_pair E net w h ul g cs top T ic n oc m HE Hn Cm Hul Ends Cr VL HR) as (W & EA & Gs & Ok & Eh & x & y & X1 & Y1 & X2 & Y2 & X3 & Y3 & X4 & Y4 & M).
  destruct (C55_one_of_each_pair g top W ltac:(lia) Gs) as (bs & top' & Eb & _ & Pair). exists bs, top'. split; [exact Eb|].
  destruct (Pair x y M) as [(b & Ag & Sb)|(b & Ag & Sb)]; exists b; (split; [eapply balancer_agree; eauto|]); (split; [exact Sb|]); [left|right]; eapply reads_agree; eauto.
Qed.

(** The same with the ends set up, if they take the whole height. *)
Theorem C55_full_height E net w h ul g cs top T ic n oc m aligned use_ends : honest E -> nonneg net -> complete net ->
  match ul with Some l => 1 <= l | None => True end -> 2 <= h -> n = h -> m = h ->
  get_input_output_colours net = Some ((ic, n), (oc, m)) ->
  create_balancer E (deduplicate_network net) w h ul = Some (g, cs, top) ->
  let A := rectangle w h in let L := longest w h ul in
  valid_layout A T L -> realises A T L net ic (Z.to_nat n) oc (Z.to_nat m) ->
  (forall y, 0 <= y < h -> takes (T (0, y)) RIGHT) -> (forall y, 0 <= y < h -> exists i, T (w - 1, y) = Belt i RIGHT) ->
  exists bs top1 es top2, break_vertical_symmetry g top = Some (bs, top1) /\ setup_balancer_ends g (deduplicate_network net) aligned use_ends top1 = Some (es, top2) /\
  exists b, solves_balancer E (deduplicate_network net) w h ul g b /\ sat b bs = true /\ sat b es = true /\ (reads g b T \/ reads g b (mirror_layout A T)).
Proof.
  intros HE Hn Cm Hul Hh En Em Ends Cr A L VL HR Hin Hout.
  destruct (balancer_pair E net w h ul g cs top T ic n oc m HE Hn Cm Hul Ends Cr VL HR) as (W & EA & Gs & Ok & Eh & x & y & X1 & Y1 & X2 & Y2 & X3 & Y3 & X4 & Y4 & M).
  assert (Ew : width (geo g) = w) by (change (aw (garea g) = w); rewrite EA; reflexivity).
  assert (Ends' : get_input_output_colours (elements (deduplicate_network net)) = Some ((ic, n), (oc, m))) by (rewrite deduplicate_ends; exact Ends).
  destruct (break_vertical_ok g W top ltac:(lia) Gs ltac:(pose proof (grid_size_nonneg g W); lia)) as (bs0 & top0 & Eb0 & Ht0 & Kb0 & _).
  destruct (C55_one_of_each_pair g top W ltac:(lia) Gs) as (bs & top1 & Eb & Ht1 & Pair). rewrite Eb in Eb0. injection Eb0 as <- <-.
  destruct (setup_balancer_ends g (deduplicate_network net) aligned use_ends top1) as [[es top2]|] eqn:Ee.
  2:{ pose proof (proj1 (C53_ends_fail g _ aligned use_ends top1 ic n oc m W Ends') Ee). lia. }
  exists bs, top1, es, top2. split; [exact Eb|]. split; [exact Ee|].
  assert (Fin : forall T0 z b, solves_balancer E (deduplicate_network net) w h ul g z -> solves_init g z -> reads g z T0 -> all_connected g z T0 ->
    (forall y, 0 <= y < h -> takes (T0 (0, y)) RIGHT) -> (forall y, 0 <= y < h -> exists i, T0 (w - 1, y) = Belt i RIGHT) ->
    agree top z b -> sat b bs = true ->
    exists c, solves_balancer E (deduplicate_network net) w h ul g c /\ sat c bs = true /\ sat c es = true /\ reads g c T0).
  { intros T0 z b Z1 Z2 Z3 Z4 Hi Ho Ag Sb. pose proof (agree_mono _ _ _ _ Gs Ag) as Ag0.
    assert (Zb : solves_init g b) by (destruct Z2 as (ci & Ei & Si); exists ci; split; [exact Ei|]; rewrite <- (sat_agree _ _ _ _ Ag0 (init_ok g W ci Ei)); exact Si).
    assert (Rb : reads g b T0) by (eapply reads_agree; eauto).
    destruct (proj2 (C53_ends g _ aligned use_ends top1 es top2 b T0 ic n oc m W ltac:(lia) Zb Rb Ends' Ee)) as (c & Ac & Sc).
    - exists 0, 0. unfold ends_placed. rewrite Eh, Ew. rewrite En, Em, Z.eqb_refl. split; [|split].
      + intros k Hk. cbv beta iota.
        assert (Ik : inside (garea g) (0, k)) by (apply left_inside; [exact W|rewrite Eh; exact Hk]).
        rewrite <- (evl_agree (grid_size g) z b _ Ag0 (tl_i _ _ (tile_at_lits g _ W Ik) RIGHT)). apply (Z4 (0, k) RIGHT Ik). split; [apply Hi; exact Hk|].
        intros q Hq. rewrite EA in Hq. discriminate Hq.
      + intros k Hk. cbv beta iota. apply Ho. exact Hk.
      + intros _. destruct (h <=? h); lia.
    - exists c. split; [eapply balancer_agree; [exact W|exact Ok|exact Gs|exact Cr| |exact Z1]; eapply agree_trans; [exact Ag|eapply agree_mono; [exact Ht1|exact Ac]]|].
      split; [rewrite <- (sat_agree _ _ _ _ Ac Kb0); exact Sb|]. split; [exact Sc|]. eapply reads_agree; [exact W| |exact Ac|exact Rb]. lia. }
  destruct (Pair x y M) as [(b & Ag & Sb)|(b & Ag & Sb)].
  - destruct (Fin T x b X1 X2 X3 X4 Hin Hout Ag Sb) as (c & ? & ? & ? & ?). exists c. auto.
  - destruct (Fin (mirror_layout A T) y b Y1 Y2 Y3 Y4) as (c & ? & ? & ? & ?); auto; [| |exists c; auto].
    + intros k Hk. unfold mirror_layout. apply image_takes. apply (Hin (h - 1 - k)). lia.
    + intros k Hk. destruct (Hout (h - 1 - k) ltac:(lia)) as [i Hi]. exists (image_dir MirrorY i). unfold mirror_layout.
      change (image_pos MirrorY A (w - 1, k)) with (w - 1, h - 1 - k). rewrite Hi. reflexivity.
Qed.

(** *** Where a balancer is lost *)
(** The ends need not take the whole height, and then the lowest row is never
    an input (C53_last_block_refuted).  So with --break-symmetry the uppermost
    row is none either ... *)
Theorem C55_upper_row_lost_refuted g net aligned use_ends v cs v' top es top' a T ic n oc m : wf_grid g -> 2 <= height (geo g) ->
  grid_size g <= v -> grid_size g <= top -> solves_init g a -> reads g a T ->
  get_input_output_colours (elements net) = Some ((ic, n), (oc, m)) -> n < height (geo g) ->
  break_vertical_symmetry g v = Some (cs, v') -> setup_balancer_ends g net aligned use_ends top = Some (es, top') ->
  sat a cs = true -> sat a es = true ->
  ~ exists o, T (0, 0) = Belt RIGHT o.
Proof.
  intros W Hh Hv Ht Si R Ee Hn Eb Es Sb Se (o & To). pose proof W as ((Ww & Wh) & _).
  assert (H0 : 0 <= v) by (pose proof (grid_size_nonneg g W); lia).
  destruct (break_vertical_ok g W v Hh Hv H0) as (cs0 & v0 & E0 & _ & _ & S & _). rewrite Eb in E0. injection E0 as <- <-. specialize (S a Sb).
  pose proof (proj1 (solves_init_rules g a W) Si) as G.
  assert (I0 : inside (garea g) (0, 0)) by (split; cbn; lia). assert (I1 : inside (garea g) (0, height (geo g) - 1)) by (split; cbn; lia).
  assert (E1 : evl a (input_dir (tile_at g (0, 0)) RIGHT) = true).
  { apply (shows_takes_inv (view_of a (tile_at g (0, 0))) (T (0, 0)) RIGHT (T_shows g a T R G _ I0)); rewrite To; [reflexivity|intros []]. }
  destruct (C53_last_block_refuted g net aligned use_ends top es top' a T ic n oc m W Ht Si R Ee Es Se) as [L _]. specialize (L Hn).
  assert (E2 : evl a (input_dir (tile_at g (0, height (geo g) - 1)) RIGHT) = false).
  { destruct (evl a (input_dir (tile_at g (0, height (geo g) - 1)) RIGHT)) eqn:X; [|reflexivity]. exfalso.
    pose proof (shows_takes (view_of a (tile_at g (0, height (geo g) - 1))) _ RIGHT (T_shows g a T R G _ I1) X) as Tk.
    destruct use_ends; [destruct L as (e & o' & L & Ne); rewrite L in Tk; apply Ne; exact Tk|rewrite L in Tk; exact Tk]. }
  assert (Hd : exists u l, upper_half g = input_dir (tile_at g (0, 0)) RIGHT :: u /\ lower_half g = input_dir (tile_at g (0, height (geo g) - 1)) RIGHT :: l).
  { unfold upper_half, lower_half, compared_rows, range. destruct (Z.to_nat (Z.max 2 (height (geo g) / 2))) eqn:E; [lia|]. cbn [seq map flat_map].
    unfold upper_row, lower_row, range. destruct (Z.to_nat (width (geo g))) eqn:E'; [lia|]. cbn [seq map flat_map]. rewrite top_eq, bottom_eq. cbn [app].
    eexists _, _. split; [reflexivity|]. change (Z.of_nat 0) with 0. rewrite Z.sub_0_r. reflexivity. }
  destruct Hd as (u & l & Hu & Hl). rewrite Hu, Hl in S. cbn [values map lex_le] in S. rewrite E1, E2 in S. discriminate.
Qed.

(** ... although such a balancer may exist: with one row to spare none is ever
    found. *)
Theorem C55_one_spare_row_refuted g net aligned use_ends v cs v' top es top' ic n oc m : wf_grid g -> 2 <= height (geo g) ->
  grid_size g <= v -> grid_size g <= top ->
  get_input_output_colours (elements net) = Some ((ic, n), (oc, m)) -> n = height (geo g) - 1 ->
  break_vertical_symmetry g v = Some (cs, v') -> setup_balancer_ends g net aligned use_ends top = Some (es, top') ->
  forall a, solves_init g a -> sat a cs = true -> sat a es = false.
Proof.
  intros W Hh Hv Ht Ee Hn Eb Es a Si Sb. destruct (sat a es) eqn:Se; [|reflexivity]. exfalso.
  destruct (C44_decodes g a W) as (_ & Dec). destruct (Dec Si) as (T & R & _).
  apply (C55_upper_row_lost_refuted g net aligned use_ends v cs v' top es top' a T ic n oc m W Hh Hv Ht Si R Ee ltac:(lia) Eb Es Sb Se).
  destruct (proj1 (C53_ends g net aligned use_ends top es top' a T ic n oc m W Ht Si R Ee Es)) as (i & j & P1 & _); [exists a; split; [apply agree_refl|exact Se]|].
  unfold ends_placed in P1. destruct (Z.eqb_spec (height (geo g)) n); [lia|]. destruct P1 as [Hi P1].
  destruct (P1 0 ltac:(lia)) as [P _]. apply P. lia.
Qed.

(** ** C76 *)
(** Turning or mirroring a layout (rotate.py) keeps which network it is, and
    whether it balances. *)
Theorem C76_rotated_balancer o h w g G wx wy : rect h w g -> (0 < h)%nat -> (0 < w)%nat -> read_grid g = Some G ->
  let A := {| aw := Z.of_nat w; ah := Z.of_nat h; wrapx := wx; wrapy := wy |} in
  exists g' G', rotate_line o g = Some g' /\ read_grid g' = Some G' /\
    forall L, valid_layout A (layout_of G) L ->
      (forall net ic n oc m, realises A (layout_of G) L net ic n oc m <-> realises (image_area (sym_of o) A) (layout_of G') L net ic n oc m) /\
      (balanced_layout A (layout_of G) L <-> balanced_layout (image_area (sym_of o) A) (layout_of G') L).
Proof.
  intros R Hh Hw HG A. destruct (C18_valid_layout o h w g G wx wy R Hh Hw HG) as (g' & G' & E1 & E2 & HT & _). fold A in HT.
  exists g', G'. split; [exact E1|]. split; [exact E2|]. intros L VL.
  assert (Pw : 0 < aw A) by (cbn; lia). assert (Ph : 0 < ah A) by (cbn; lia). split.
  - intros net ic n oc m. apply realises_symmetric_iff; assumption.
  - apply balanced_symmetric_iff; assumption.
Qed.

(** ** Examples *)
(** One splitter in the upper two rows of a 3 x 3 grid; its mirror image lies in
    the lower two rows. *)
Example C55_mirror_image : forall p, inside demo_area p -> mirror_layout demo_area (row_balancer 0) p = row_balancer 1 p.
Proof. intros p Hp. cells Hp; vm_compute; reflexivity. Qed.
Lemma demo_nonneg : nonneg demo_net.
Proof. intros c [H|[H|[H|[H|[]]]]]; injection H as <-; lia. Qed.
Lemma demo_complete : complete demo_net.
Proof. intros nd [<-|[]]; cbn; repeat split; discriminate. Qed.
Example C55_found : exists g cs top bs top' b, create_balancer naive_encoder (deduplicate_network demo_net) 3 3 (Some 4) = Some (g, cs, top) /\
  break_vertical_symmetry g top = Some (bs, top') /\ sat b cs = true /\ sat b bs = true /\ (reads g b (row_balancer 0) \/ reads g b (mirror_layout demo_area (row_balancer 0))).
Proof.
  destruct (row_solves 0 (or_introl eq_refl)) as (cs & top & E & _).
  destruct (C55_no_balancer_lost naive_encoder demo_net 3 3 (Some 4) demo_bgrid cs top (row_balancer 0) 0 2 1 2 naive_honest demo_nonneg demo_complete ltac:(cbn; lia) ltac:(lia) eq_refl E C69_row_valid C69_row)
    as (bs & top' & Eb & b & (cs0 & top0 & E0 & S & _) & Sb & R).
  rewrite E in E0. injection E0 as <- <-. exists demo_bgrid, cs, top, bs, top', b. auto.
Qed.
(** It is the lower image that is found: the upper one is excluded. *)
Example C55_upper_excluded : forall bs v', break_vertical_symmetry demo_bgrid 2000 = Some (bs, v') -> ~ exists b, agree 2000 (row_solution 0) b /\ sat b bs = true.
Proof.
  intros bs v' Eb (b & Ag & Sb). destruct (break_vertical_ok demo_bgrid demo_wf 2000 ltac:(vm_compute; congruence) ltac:(vm_compute; congruence) ltac:(lia)) as (cs0 & v0 & E0 & _ & _ & S & _).
  rewrite Eb in E0. injection E0 as <- <-. specialize (S b Sb).
  rewrite <- (values_agree 2000 (row_solution 0) b _ Ag) in S by (apply Forall_forall; intros l Hl; eapply lit_ok_mono; [|apply (proj1 (Forall_forall _ _) (halves_ok demo_bgrid demo_wf ltac:(vm_compute; congruence)))]; [vm_compute; congruence|apply in_or_app; auto]).
  rewrite <- (values_agree 2000 (row_solution 0) b _ Ag) in S by (apply Forall_forall; intros l Hl; eapply lit_ok_mono; [|apply (proj1 (Forall_forall _ _) (halves_ok demo_bgrid demo_wf ltac:(vm_compute; congruence)))]; [vm_compute; congruence|apply in_or_app; auto]).
  vm_compute in S. discriminate.
Qed.
(** So together with the ends, which the upper one alone satisfies
    (C53_upper_rows), nothing is left. *)
Example C55_nothing_left : exists bs v' es top', break_vertical_symmetry demo_bgrid 2000 = Some (bs, v') /\
  setup_balancer_ends demo_bgrid (deduplicate_network demo_net) true false v' = Some (es, top') /\
  forall a, solves_init demo_bgrid a -> sat a bs = true -> sat a es = false.
Proof.
  destruct (C55_one_of_each_pair demo_bgrid 2000 demo_wf ltac:(vm_compute; congruence) ltac:(vm_compute; congruence)) as (bs & v' & Eb & Hv & _).
  destruct (setup_balancer_ends demo_bgrid (deduplicate_network demo_net) true false v') as [[es top']|] eqn:Es.
  2:{ pose proof (proj1 (C53_ends_fail demo_bgrid (deduplicate_network demo_net) true false v' 0 2 1 2 demo_wf eq_refl) Es) as X. vm_compute in X. destruct X; discriminate. }
  exists bs, v', es, top'. split; [exact Eb|]. split; [exact Es|].
  assert (G : grid_size demo_bgrid <= 2000) by (vm_compute; congruence).
  apply (C55_one_spare_row_refuted demo_bgrid (deduplicate_network demo_net) true false 2000 bs v' v' es top' 0 2 1 2 demo_wf ltac:(vm_compute; congruence) G ltac:(lia) eq_refl eq_refl Eb Es).
Qed.
(** On two rows the ends take the whole height, and the splitter is found. *)
Definition two_rows : grid := balancer_grid (deduplicate_network demo_net) 3 2 (Some 4) 1.
Definition two_rows_solution : assignment := layout_assignment two_rows (row_balancer 0) 4 demo_colours (fun _ => 0) (fun _ => 0) (fun v => v =? node two_rows (1, 1) 0).
Lemma two_rows_solves : solves_balancer naive_encoder (deduplicate_network demo_net) 3 2 (Some 4) two_rows two_rows_solution.
Proof.
  assert (X : match create_balancer naive_encoder (deduplicate_network demo_net) 3 2 (Some 4) with Some (_, cs, _) => sat two_rows_solution cs | None => false end = true) by (vm_compute; reflexivity).
  assert (Y : match create_balancer naive_encoder (deduplicate_network demo_net) 3 2 (Some 4) with Some (g, _, _) => g = two_rows | None => False end) by (vm_compute; reflexivity).
  destruct (create_balancer naive_encoder (deduplicate_network demo_net) 3 2 (Some 4)) as [[[g cs] top]|] eqn:E; [|discriminate]. subst g.
  exists cs, top. split; [exact E|]. split; [exact X|]. split; [vm_compute; reflexivity|]. apply check_clauses. vm_compute. reflexivity.
Qed.
Lemma two_rows_reads : reads two_rows two_rows_solution (row_balancer 0).
Proof.
  assert (X : forallb (fun p => match decoded two_rows two_rows_solution p with Some t => if tile_eq_dec t (row_balancer 0 p) then true else false | None => false end)
    (iterate_tiles (geo two_rows)) = true) by (vm_compute; reflexivity).
  intros p Hp. rewrite forallb_forall in X. specialize (X p (proj2 (iterate_tiles_in _ _) Hp)).
  unfold decoded in X. destruct (read_tile _) as [t|]; [|discriminate]. destruct (tile_eq_dec t (row_balancer 0 p)); [congruence|discriminate].
Qed.
Example C55_two_rows : exists g cs top bs top1 es top2 b, create_balancer naive_encoder (deduplicate_network demo_net) 3 2 (Some 4) = Some (g, cs, top) /\
  break_vertical_symmetry g top = Some (bs, top1) /\ setup_balancer_ends g (deduplicate_network demo_net) true false top1 = Some (es, top2) /\
  sat b cs = true /\ sat b bs = true /\ sat b es = true.
Proof.
  destruct two_rows_solves as (cs & top & E & _).
  destruct (proj1 (C69_solutions_are_the_realisations naive_encoder demo_net 3 2 (Some 4) two_rows cs top (row_balancer 0) 0 2 1 2 naive_honest demo_nonneg demo_complete ltac:(cbn; lia) eq_refl E)
    (ex_intro _ two_rows_solution (conj two_rows_solves two_rows_reads))) as [VL HR].
  destruct (C55_full_height naive_encoder demo_net 3 2 (Some 4) two_rows cs top (row_balancer 0) 0 2 1 2 true false naive_honest demo_nonneg demo_complete ltac:(cbn; lia) ltac:(lia) eq_refl eq_refl eq_refl E VL HR)
    as (bs & top1 & es & top2 & Eb & Es & b & (cs0 & top0 & E0 & S & _) & Sb & Se & _).
  - intros y Hy. assert (y = 0 \/ y = 1) as [-> | ->] by lia; reflexivity.
  - intros y Hy. exists RIGHT. assert (y = 0 \/ y = 1) as [-> | ->] by lia; reflexivity.
  - rewrite E in E0. injection E0 as <- <-. exists two_rows, cs, top, bs, top1, es, top2, b. repeat (split; [assumption|]). assumption.
Qed.

(** The splitter on two rows, turned by a quarter. *)
Definition flat_layout : list (list tile) :=
  [[Belt RIGHT RIGHT; Splitter RIGHT false; Belt RIGHT RIGHT]; [Belt RIGHT RIGHT; Splitter RIGHT true; Belt RIGHT RIGHT]].
Example C76_turned : exists g' G', rotate_line ROT_90 (map (map (fun t => JObj [("tile", tile_write t)])) flat_layout) = Some g' /\ read_grid g' = Some G' /\
  realises (rectangle 2 3) (layout_of G') 4 demo_net 0 2 1 2.
Proof.
  destruct (C76_rotated_balancer ROT_90 2 3 (map (map (fun t => JObj [("tile", tile_write t)])) flat_layout) flat_layout false false) as (g' & G' & E1 & E2 & H); try lia; [split; [reflexivity|repeat constructor]|reflexivity|].
  exists g', G'. split; [exact E1|]. split; [exact E2|].
  destruct two_rows_solves as (cs & top & E & _).
  destruct (proj1 (C69_solutions_are_the_realisations naive_encoder demo_net 3 2 (Some 4) two_rows cs top (row_balancer 0) 0 2 1 2 naive_honest demo_nonneg demo_complete ltac:(cbn; lia) eq_refl E)
    (ex_intro _ two_rows_solution (conj two_rows_solves two_rows_reads))) as [VL HR].
  assert (Id : forall p, inside (rectangle 3 2) p -> layout_of flat_layout (image_pos Identity (rectangle 3 2) p) = image_tile Identity (row_balancer 0 p)).
  { intros [x y] [Hx Hy]. change (0 <= x < 3) in Hx. change (0 <= y < 2) in Hy.
    assert (x = 0 \/ x = 1 \/ x = 2) as [-> | [-> | ->]] by lia; assert (y = 0 \/ y = 1) as [-> | ->] by lia; reflexivity. }
  assert (V' : valid_layout (rectangle 3 2) (layout_of flat_layout) 4) by (apply (proj1 (valid_symmetric Identity (rectangle 3 2) (row_balancer 0) (layout_of flat_layout) 4 eq_refl eq_refl Id) VL)).
  apply (proj1 (proj1 (H 4 V') demo_net 0 2%nat 1 2%nat)).
  apply (realises_symmetric Identity (rectangle 3 2) (row_balancer 0) (layout_of flat_layout) 4 demo_net 0 2 1 2 eq_refl eq_refl Id); [apply VL|exact HR].
Qed.

Print Assumptions C76_rotated_balancer.
Print Assumptions C55_one_row_raises.
Print Assumptions C55_one_of_each_pair.
Print Assumptions C55_both_only_if_symmetric.
Print Assumptions C55_no_layout_lost.
Print Assumptions C55_no_balancer_lost.
Print Assumptions C55_full_height.
Print Assumptions C55_upper_row_lost_refuted.
Print Assumptions C55_one_spare_row_refuted.
