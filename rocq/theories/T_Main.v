(** Property theorems C86 to C88: the options of belt_balancer.py, all together. *)
From Coq Require Import String ZArith List Bool Lia.
From Verif Require Import P_Network P_Network2 P_Benes P_Nonneg P_Similar T_Network.
From Verif Require Import Spec_Cnf Spec_Tile Spec_Layout Spec_Pattern Spec_Main M_Json M_Tile M_Util M_Card M_Network Spec_Network M_Template M_Grid M_Oracle M_Balancer M_Optimise M_Solve M_Main
  P_Cnf P_Util P_Util3 P_Card P_Tile P_Layout T_Tile P_List P_Template P_Walk P_Grid P_GridSound P_GridComplete P_Transport T_Grid T_Enumerate P_GridOk P_Gen P_Balancer
  Spec_Balancer P_Trace P_Realise P_Ends T_Balancer P_Lossless T_Lossless Spec_Edge P_Edge T_Edge P_Solve P_Connect P_Main P_Pow2Total P_MainTotal.
From Verif Require P_Pattern P_Pattern2 P_Once P_Cut2 P_Mirror T_Mirror T_Pattern.
Import ListNotations.
Local Open Scope string_scope.
Open Scope Z_scope.

(** ** C86 *)
(** What prevent_belt_parallel_splitter and glue_partial_splitters exclude, in
    solutions in which tiles that face each other are connected. *)
Theorem C86_parallel_splitters g e a T : wf_grid g -> solves g e a -> reads g a T -> all_connected g a T ->
  (sat a (prevent_belt_parallel_splitter g) = true <->
   forall p d t, inside (garea g) p -> perpendicular d t -> ~ parallel_splitter (garea g) T p d t).
Proof.
  intros W S R AC. apply (P_Pattern2.parallel_exact g W a T R); [apply (solves_init_rules g a W); apply S|]. intros p d Hp. apply (AC p d Hp).
Qed.
Theorem C86_lagging_splitters g e a T : wf_grid g -> solves g e a -> reads g a T -> all_connected g a T ->
  (sat a (glue_partial_splitters g) = true <->
   forall p d, inside (garea g) p -> before_last_column (garea g) p d -> ~ lagging_splitter (garea g) T p d).
Proof.
  intros W S R AC. apply (P_Pattern2.partial_exact g W a T R); [apply (solves_init_rules g a W); apply S| |].
  - intros p d Hp. apply (AC p d Hp).
  - intros p d hd Hp E. destruct (C46_splitters_paired g a T W (proj1 S) R p d hd Hp E) as (q & H1 & H2 & _). eauto.
Qed.
(** For a network none of whose belts is missing tiles that face each other are
    connected in every solution, and both sides of every splitter are in use. *)
Theorem C86_everything_connected E net w h ul g a T : honest E -> nonneg net -> complete net ->
  match ul with Some l => 0 <= l | None => True end ->
  solves_balancer E (deduplicate_network net) w h ul g a -> reads g a T ->
  all_connected g a T /\ forall p d, inside (garea g) p -> ~ lagging_splitter (garea g) T p d.
Proof.
  intros HE Hn Cm Hul (cs & top & C & S & Ix & Ls) R.
  destruct (create_balancer_spec E _ w h ul g cs top HE (dedup_nonneg net Hn) Hul C) as (ic & n & oc & m & Ee & W & _ & _ & _ & En & _).
  pose proof (proj1 En a S) as B.
  assert (So : solves g (EBool true) a) by (split; [apply B|split; [exact Ix|split; [apply B|split; [apply B|exact Ls]]]]).
  pose proof (dedup_complete net Cm) as Cm'. split.
  - intros p d Hp. split; [apply (side_gets g W _ ic n oc m a B So T R Cm' p d Hp)|apply (side_gives g W _ ic n oc m a B So T R Cm' p d Hp)].
  - intros p d Hp (q & p' & q' & E1 & _ & _ & Tp & _ & _ & K).
    assert (Iq : inside (garea g) q) by (eapply ahead_inside; exact E1).
    destruct (proj1 (proj2 (P_Realise.VL g W a So T R)) p d true Hp Tp) as (q0 & N & Tq). cbn [mate_side] in N. rewrite E1 in N. apply Some_inj in N. subst q0.
    rewrite <- (side_gets g W _ ic n oc m a B So T R Cm' p d Hp), <- (side_gets g W _ ic n oc m a B So T R Cm' q d Iq) in K.
    rewrite (proj1 (sides_used g W _ ic n oc m a B So T R Cm' p d Hp)), (proj1 (sides_used g W _ ic n oc m a B So T R Cm' q d Iq)), Tp, Tq in K.
    cbn [takes] in K. intuition.
Qed.

(** ** C87 *)
(** --partial: the tiles of the given layout, where it is not empty, are where
    they are in every solution, and nothing else is asked. *)
Theorem C87_given_tiles g a T G cs : wf_grid g -> solves_init g a -> reads g a T ->
  set_nonempty_tiles g G = Some cs -> (sat a cs = true <-> extends T G).
Proof. intros W Si R. apply (partial_sat g W a Si T R). Qed.
(** The call raises exactly when one of these tiles is outside the grid or of
    another kind. *)
Theorem C87_given_raises g G : wf_grid g ->
  (set_nonempty_tiles g G = None <-> exists x y r t, nth_error G y = Some r /\ nth_error r x = Some t /\ t <> Empty /\
    (~ inside (garea g) (Z.of_nat x, Z.of_nat y) \/ match t with Inserter _ _ | Assembler _ _ => True | _ => False end)).
Proof. apply partial_raises. Qed.

(** What a program prints, an array of cells whose entry "tile" is the tile, is
    read back as the tiles; the other entries do not matter. *)
Theorem C87_own_output decode loads s cells rows : decode s = None -> loads s = Some cells ->
  Forall2 (Forall2 (fun c t => jget "tile" c = Some (tile_write t) /\ valid_tile t)) cells rows ->
  convert_to_tiles decode loads s = Some rows.
Proof.
  intros D L F. unfold convert_to_tiles. rewrite D, L. cbn [obind]. clear L.
  induction F as [|c r cs rs F1 F IH]; [reflexivity|]. cbn [omap].
  assert (K : omap (fun x => let* t := jget "tile" x in tile_read t) c = Some r).
  { clear - F1. induction F1 as [|x t c r [H1 H2] F1 IH]; [reflexivity|]. cbn [omap]. rewrite H1. cbn [obind]. rewrite (C16_read_write t H2). cbn [obind]. rewrite IH. reflexivity. }
  rewrite K. cbn [obind]. rewrite IH. reflexivity.
Qed.
(** A layout that was printed extends itself, and a layout extends it exactly
    when it has all of its belts, undergrounds and splitters. *)
Lemma written_at T w h x y r t : nth_error (written T w h) y = Some r -> nth_error r x = Some t ->
  Z.of_nat x < w /\ Z.of_nat y < h /\ t = T (Z.of_nat x, Z.of_nat y).
Proof.
  unfold written. intros Hr Ht. rewrite nth_error_map in Hr. destruct (nth_error (seq 0 (Z.to_nat h)) y) as [y'|] eqn:Ey; [|discriminate]. cbn [option_map] in Hr. apply Some_inj in Hr. subst r.
  rewrite nth_error_map in Ht. destruct (nth_error (seq 0 (Z.to_nat w)) x) as [x'|] eqn:Ex; [|discriminate]. cbn [option_map] in Ht. apply Some_inj in Ht. subst t.
  assert (Ly : (y < Z.to_nat h)%nat) by (rewrite <- (seq_length (Z.to_nat h) 0); apply nth_error_Some; congruence).
  assert (Lx : (x < Z.to_nat w)%nat) by (rewrite <- (seq_length (Z.to_nat w) 0); apply nth_error_Some; congruence).
  apply (nth_error_nth _ _ 0%nat) in Ey, Ex. rewrite seq_nth in Ey, Ex by assumption. subst. cbn [Nat.add]. split; [lia|]. split; [lia|reflexivity].
Qed.
Lemma at_written T w h x y : 0 <= x < w -> 0 <= y < h ->
  exists r, nth_error (written T w h) (Z.to_nat y) = Some r /\ nth_error r (Z.to_nat x) = Some (T (x, y)).
Proof.
  intros Hx Hy. eexists. split.
  - unfold written. rewrite nth_error_map, (nth_error_nth' _ 0%nat) by (rewrite seq_length; lia). rewrite seq_nth by lia. reflexivity.
  - cbn [Nat.add]. rewrite nth_error_map, (nth_error_nth' _ 0%nat) by (rewrite seq_length; lia). rewrite seq_nth by lia. cbn [option_map Nat.add]. rewrite !Z2Nat.id by lia. reflexivity.
Qed.
Theorem C87_resume T T' w h : belt_tiles (rectangle w h) T ->
  (extends T' (written T w h) <-> forall p, inside (rectangle w h) p -> T p <> Empty -> T' p = T p).
Proof.
  intros V. split.
  - intros X [x y] Hp Ne. unfold inside in Hp. cbn in Hp. destruct (at_written T w h x y ltac:(lia) ltac:(lia)) as (r & Hr & Ht).
    specialize (X _ _ _ _ Hr Ht Ne). rewrite !Z2Nat.id in X by lia. rewrite X. specialize (V (x, y)). destruct (T (x, y)); try reflexivity; exfalso; apply V; unfold inside; cbn; lia.
  - intros H x y r t Hr Ht Ne. destruct (written_at T w h x y r t Hr Ht) as (Hx & Hy & ->).
    assert (Ip : inside (rectangle w h) (Z.of_nat x, Z.of_nat y)) by (unfold inside; cbn; lia). rewrite (H _ Ip Ne). specialize (V _ Ip). destruct (T (Z.of_nat x, Z.of_nat y)); try reflexivity; contradiction.
Qed.
(** A printed layout can be given back: the program prints it again, with the
    same options and --partial. *)
Definition resumed (o : options) (G : list (list tile)) : options := {|
  o_90 := o_90 o; o_180 := o_180 o; o_custom := o_custom o; o_aligned := o_aligned o; o_use_ends := o_use_ends o;
  o_edge_splitters := o_edge_splitters o; o_edge_belts := o_edge_belts o; o_glue := o_glue o; o_expand := o_expand o;
  o_mergeable := o_mergeable o; o_patterns := o_patterns o; o_symmetry := o_symmetry o; o_fast := o_fast o;
  o_length := o_length o; o_partial := Some G |}.

(** ** C88 *)
(** For a network none of whose belts is missing, whatever the options: the
    layouts that belt_balancer.py can print are exactly the valid layouts that
    are the network, with the splitters at the edges if this is asked for, and
    that have what the other options ask for (Spec_Main). *)
Theorem C88_main_exactly E o net w h g cs top T ic n oc m : honest E -> nonneg net -> complete net ->
  o_length o = -1 \/ 1 <= o_length o ->
  get_input_output_colours net = Some ((ic, n), (oc, m)) ->
  main_clauses E o net w h = Some (g, cs, top) ->
  let A := rectangle w h in
  let L := longest w h (main_length o) in
  let nodes := elements (deduplicate_network net) in
  (exists a, sat a cs = true /\ reads g a T) <->
  valid_layout A T L /\
  (exists P wire, realises_by A T L nodes ic (Z.to_nat n) oc (Z.to_nat m) P wire /\
     (o_edge_splitters o || o_fast o = true -> edges_taken w T P nodes ic oc)) /\
  asked o A n m T.
Proof.
  intros HE Hn Cm Hl Ends Hm A L nodes. destruct (main_split E o net w h g cs top Hm) as (_ & cs0 & top0 & ce & t1 & cb & t2 & cn & C & Ee & Eb & En & Sm & Sat).
  pose proof (dedup_nonneg net Hn) as Hn'. pose proof (dedup_complete net Cm) as Cm'.
  assert (Kn : forall nd k, In (nd, k) (deduplicate_network net) -> 0 <= k).
  { intros nd k Hin. destruct (C29_deduplicate net) as (_ & _ & H & _). destruct (H nd k Hin) as [_ (cp & ot & _ & <- & _)]. lia. }
  assert (Hul : match main_length o with Some l => 1 <= l | None => True end) by (unfold main_length; destruct (Z.eqb_spec (o_length o) (-1)); [exact Logic.I|lia]).
  assert (Hul0 : match main_length o with Some l => 0 <= l | None => True end) by (destruct (main_length o); [lia|exact Logic.I]).
  assert (Ends' : get_input_output_colours (elements (deduplicate_network net)) = Some ((ic, n), (oc, m))) by (rewrite deduplicate_ends; exact Ends).
  assert (Wa : wf_area A) by (unfold create_balancer in C; destruct (Z.ltb_spec 0 w), (Z.ltb_spec 0 h); try discriminate; split; assumption).
  destruct (create_balancer_spec E _ w h (main_length o) g cs0 top0 HE Hn' Hul0 C) as (ic' & n' & oc' & m' & Ee' & W & (t & _ & Eg & _) & Hs & Ok & En0 & _ & _).
  rewrite Ends' in Ee'. injection Ee' as <- <- <- <-.
  assert (EA : garea g = A) by (subst g; reflexivity). assert (CX : wrap_x (geo g) = false) by (subst g; reflexivity). assert (CY : wrap_y (geo g) = false) by (subst g; reflexivity).
  assert (EL : max_hidden g = L) by (subst g; reflexivity). assert (Hex : gextras g = [("node", TSized OneHot (List.length (deduplicate_network net)))]) by (subst g; reflexivity).
  assert (Ew : width (geo g) = w) by (subst g; reflexivity). assert (Gl : glen g = main_length o) by (subst g; reflexivity). clear Eg.
  assert (Ne : elements (deduplicate_network net) <> []) by (eapply ends_nonempty; exact Ends'). pose proof (T_Mirror.grid_size_nonneg g W) as Gn.
  (* the generators *)
  assert (Edge : forall a, balancer_rules g (deduplicate_network net) ic n oc m a -> solves g (EBool true) a -> reads g a T ->
    2 <= width (geo g) -> top0 <= t1 /\ cnf_ok t1 ce /\ encodes top0 ce (fun a => o_edge_splitters o || o_fast o = true ->
      edge_rule g (deduplicate_network net) a fst ic 1 (belts_of ic (map snd (elements (deduplicate_network net)))) /\
      edge_rule g (deduplicate_network net) a snd oc (width (geo g) - 2) (belts_of oc (map fst (elements (deduplicate_network net)))))).
  { intros a _ _ _ W2. unfold edge_call in Ee. destruct (o_edge_splitters o || o_fast o).
    - destruct (edge_gen E g _ ic n oc m HE W Hex W2 Ends') as [_ Gk]. destruct (Gk top0 ce t1 Hs Ee) as (H1 & H2 & H3 & H4). split; [exact H1|]. split; [exact H2|]. split; [intros b Sb _; apply H3; exact Sb|].
      intros b Hb. apply H4, Hb, eq_refl.
    - unfold pure in Ee. cbn [obind] in Ee. apply Some_inj in Ee. injection Ee as <- <-. split; [lia|]. split; [constructor|]. split; [intros b _; discriminate|]. intros b _. exists b. split; [apply agree_refl|reflexivity]. }
  assert (Mir : 2 <= height (geo g) -> top0 <= t1 -> t1 <= t2 /\ cnf_ok t2 cb /\ encodes t1 cb (fun a => o_symmetry o = true -> lex_le (values a (P_Mirror.upper_half g)) (values a (P_Mirror.lower_half g)) = true)).
  { intros H2 Ht. unfold mirror_call in Eb. destruct (o_symmetry o).
    - destruct (P_Mirror.break_vertical_ok g W t1 H2 ltac:(lia) ltac:(lia)) as (cb' & t2' & Eb' & K1 & K2 & K3 & K4). rewrite Eb in Eb'. apply Some_inj in Eb'. injection Eb' as <- <-.
      split; [exact K1|]. split; [exact K2|]. split; [intros b Sb _; apply K3; exact Sb|]. intros b Hb. apply K4, Hb, eq_refl.
    - unfold pure in Eb. cbn [obind] in Eb. apply Some_inj in Eb. injection Eb as <- <-. split; [lia|]. split; [constructor|]. split; [intros b _; discriminate|]. intros b _. exists b. split; [apply agree_refl|reflexivity]. }
  split.
  - intros (a & Sa & R). apply Sat in Sa. destruct Sa as (S0 & S1 & S2 & S3 & Gr). pose proof (proj1 En0 a S0) as B.
    assert (So : solves g (EBool true) a).
    { split; [apply B|]. split; [apply granted_some, Gr; left; reflexivity|]. split; [apply B|]. split; [apply B|]. destruct (Gr (enforce_maximum_underground_length g)) as (lc & El & Sl); [|exists lc; auto].
      unfold wishes, wishes3. rewrite !in_app_iff. right. right. right. left. left. reflexivity. }
    pose proof (size2 g W CX CY _ ic n oc m a B So T R Ne) as [W2 H2]. destruct (Edge a B So R W2) as (T01 & Ke & Se & _). destruct (Mir H2 T01) as (T12 & Kb & Sb & _).
    pose proof (proj1 (wishes_asked g W _ ic n oc m a B So T R Cm' o Gl Sm) Gr) as PA. destruct PA as [P1 P2 P3 P4 P5 P6 P7].
    pose proof (proj1 (ends_asked g W _ ic n oc m a B So T R Cm' o t2 cn top ltac:(lia) Ends' En) (ex_intro _ a (conj (agree_refl t2 a) S3))) as En'.
    pose proof (fun Hsy => proj1 (mirror_asked g W _ ic n oc m a B So T R Cm' H2) (Sb a S2 Hsy)) as Mi.
    rewrite EA in *. split; [rewrite <- EL, <- EA; apply (VL g W a So T R)|]. split.
    + destruct (realisation_at g W CX CY _ ic n oc m a B So T R Ne) as (P & wire & HP & HR & _). exists P, wire. rewrite EL, EA in HR. split; [exact HR|]. intros Hed.
      pose proof (hs_placed g _ ic n oc m a B T P HP) as Pn. destruct (Se a S1 Hed) as [R1 R2]. unfold edges_taken. rewrite <- Ew. destruct HR as (Sl & Sd & Sa & _). rewrite <- EA in Sa.
      split.
      * apply (edge_iff g W _ Kn ic n oc m a B So T R P Sl Sd Sa Pn fst (or_introl eq_refl)); [lia|exact R1].
      * apply (edge_iff g W _ Kn ic n oc m a B So T R P Sl Sd Sa Pn snd (or_intror eq_refl)); [lia|exact R2].
    + constructor; assumption.
  - intros (V & (P & wire & HR & Ed) & As).
    assert (HL : forall s f, joined A T L s f -> exists k, sink_colour nodes oc (Z.to_nat m) k <> None /\ finish_of P k = Some f) by (eapply complete_lines; eauto).
    destruct (realisation_solved E _ w h (main_length o) g cs0 top0 T ic n oc m P wire HE Hn' Kn Hul C Ends' V HR HL) as (a & Sb & R & _ & Pn).
    destruct Sb as (cs1 & top1 & C1 & S & Ix & Ls). rewrite C in C1. apply Some_inj in C1. assert (cs0 = cs1) by congruence. assert (top0 = top1) by congruence. subst cs1 top1. clear C1.
    pose proof (proj1 En0 a S) as B.
    assert (So : solves g (EBool true) a) by (split; [apply B|split; [exact Ix|split; [apply B|split; [apply B|exact Ls]]]]).
    pose proof (size2 g W CX CY _ ic n oc m a B So T R Ne) as [W2 H2]. destruct (Edge a B So R W2) as (T01 & Ke & _ & Ce). destruct (Mir H2 T01) as (T12 & Kb & _ & Cb).
    (* what is kept when variables above the grid's are changed *)
    assert (Keep : forall b, agree top0 a b -> sat b cs0 = true /\ balancer_rules g (deduplicate_network net) ic n oc m b /\ solves g (EBool true) b /\ reads g b T).
    { intros b Ab. assert (Ag : agree (grid_size g) a b) by (eapply agree_mono; [exact Hs|exact Ab]).
      assert (S' : sat b cs0 = true) by (rewrite <- (sat_agree top0 a b _ Ab Ok); exact S). pose proof (proj1 En0 b S') as B'. split; [exact S'|]. split; [exact B'|]. split.
      - split; [apply B'|]. split; [rewrite <- (sat_agree (grid_size g) a b _ Ag (intersection_ok g W)); exact Ix|]. split; [apply B'|]. split; [apply B'|].
        destruct Ls as (lc & El & Sl'). exists lc. split; [exact El|]. rewrite <- (sat_agree (grid_size g) a b _ Ag (length_ok g W _ El)). exact Sl'.
      - intros p Hp; rewrite <- (R p Hp); f_equal; symmetry; apply (parse_tile_agree (grid_size g) a b _ Ag); apply tile_at_lits; assumption. }
    destruct (Ce a) as (b & Ab & Sb).
    { intros Hed. specialize (Ed Hed). destruct HR as (Sl & Sd & Sa & _). rewrite <- EA in Sa. destruct Ed as [Ed1 Ed2]. rewrite <- Ew in Ed2. split.
      - apply (edge_iff g W _ Kn ic n oc m a B So T R P Sl Sd Sa Pn fst (or_introl eq_refl)); [lia|exact Ed1].
      - apply (edge_iff g W _ Kn ic n oc m a B So T R P Sl Sd Sa Pn snd (or_intror eq_refl)); [lia|exact Ed2]. }
    destruct (Keep b Ab) as (_ & Bb & Sob & Rb).
    destruct (Cb b) as (c & Ac & Sc).
    { intros Hsy. apply (mirror_asked g W _ ic n oc m b Bb Sob T Rb Cm' H2). rewrite EA. apply (as_mirror _ _ _ _ _ As). exact Hsy. }
    assert (Ac0 : agree top0 a c) by (eapply agree_trans; [exact Ab|eapply agree_mono; [exact T01|exact Ac]]). destruct (Keep c Ac0) as (_ & Bc & Soc & Rc).
    destruct (proj2 (ends_asked g W _ ic n oc m c Bc Soc T Rc Cm' o t2 cn top ltac:(lia) Ends' En)) as (d & Ad & Sd); [rewrite EA; apply As|].
    assert (Ad0 : agree top0 a d) by (eapply agree_trans; [exact Ac0|eapply agree_mono; [|exact Ad]; lia]). destruct (Keep d Ad0) as (S0 & Bd & Sod & Rd).
    exists d. split; [|exact Rd]. apply Sat. split; [exact S0|]. split.
    { rewrite <- (sat_agree t1 b d ce); [exact Sb| |exact Ke]. eapply agree_trans; [exact Ac|eapply agree_mono; [exact T12|exact Ad]]. }
    split; [rewrite <- (sat_agree t2 c d cb Ad Kb); exact Sc|]. split; [exact Sd|].
    apply (wishes_asked g W _ ic n oc m d Bd Sod T Rd Cm' o Gl Sm). destruct As as [P1 P2 P3 P4 P5 P6 P7 P8 P9]. rewrite <- EA in *. constructor; assumption.
Qed.

(** Whatever the network: the options only take layouts away. *)
Lemma main_solves E o net w h g cs top a : main_clauses E o net w h = Some (g, cs, top) -> sat a cs = true ->
  solves_balancer E (deduplicate_network net) w h (main_length o) g a.
Proof.
  intros Hm Sa. destruct (main_split E o net w h g cs top Hm) as (_ & cs0 & top0 & ce & t1 & cb & t2 & cn & C & _ & _ & _ & _ & Sat).
  apply Sat in Sa. destruct Sa as (S0 & _ & _ & _ & Gr). exists cs0, top0. split; [exact C|]. split; [exact S0|]. split; [apply granted_some, Gr; left; reflexivity|].
  destruct (Gr (enforce_maximum_underground_length g)) as (lc & El & Sl); [|exists lc; auto].
  unfold wishes, wishes3. rewrite !in_app_iff. right. right. right. left. left. reflexivity.
Qed.
Theorem C88_options_only_remove E o net w h g cs top a T : honest E -> nonneg net -> o_length o = -1 \/ 0 <= o_length o ->
  main_clauses E o net w h = Some (g, cs, top) -> sat a cs = true -> reads g a T ->
  let A := rectangle w h in
  let L := longest w h (main_length o) in
  valid_layout A T L /\
  (exists ic n oc m, get_input_output_colours net = Some ((ic, n), (oc, m)) /\ realises A T L net ic (Z.to_nat n) oc (Z.to_nat m)) /\
  match o_partial o with Some G => extends T G | None => True end.
Proof.
  intros HE Hn Hl Hm Sa R A L. pose proof (main_solves E o net w h g cs top a Hm Sa) as So.
  assert (Hul0 : match main_length o with Some l => 0 <= l | None => True end) by (unfold main_length; destruct (Z.eqb_spec (o_length o) (-1)); [exact Logic.I|lia]).
  destruct (main_split E o net w h g cs top Hm) as (_ & cs0 & top0 & ce & t1 & cb & t2 & cn & C & _ & _ & _ & Sm & Sat).
  destruct (create_balancer_spec E _ w h (main_length o) g cs0 top0 HE (dedup_nonneg net Hn) Hul0 C) as (? & ? & ? & ? & _ & W & (t & _ & Eg & _) & _).
  assert (EL : max_hidden g = L) by (subst g; reflexivity).
  destruct (C52_solutions_realise E _ w h _ g a T HE (dedup_nonneg net Hn) Hul0 So R) as (V & ic & n & oc & m & Ee & P & wire & HR & _). rewrite EL in V, HR. split; [exact V|]. split.
  - exists ic, n, oc, m. rewrite deduplicate_ends in Ee. split; [exact Ee|]. eapply realises_similar; [apply similar_sym, deduplicate_similar|]. exists P, wire. exact HR.
  - destruct (o_partial o) as [G|] eqn:Eo; [|exact Logic.I]. apply Sat in Sa. destruct Sa as (S0 & _ & _ & _ & Gr).
    destruct (Gr (set_nonempty_tiles g G)) as (c & Ec & Sc). { unfold wishes, wishes3. rewrite Eo, !in_app_iff. right. right. right. right. left. reflexivity. }
    assert (Si : solves_init g a).
    { destruct (create_balancer_spec E _ w h (main_length o) g cs0 top0 HE (dedup_nonneg net Hn) Hul0 C) as (? & ? & ? & ? & _ & _ & _ & _ & _ & En & _). apply (proj1 En a S0). }
    apply (C87_given_tiles g a T G c W Si R Ec). exact Sc.
Qed.
(** For a network that balances every layout printed, with any options, balances. *)
Theorem C88_balances E o net w h g cs top a T ic n oc m : honest E -> nonneg net -> complete net -> o_length o = -1 \/ 0 <= o_length o ->
  get_input_output_colours net = Some ((ic, n), (oc, m)) -> balances net ic (Z.to_nat n) oc (Z.to_nat m) ->
  main_clauses E o net w h = Some (g, cs, top) -> sat a cs = true -> reads g a T ->
  balanced_layout (rectangle w h) T (longest w h (main_length o)).
Proof.
  intros HE Hn Cm Hl Ee Bal Hm Sa R. pose proof (main_solves E o net w h g cs top a Hm Sa) as So.
  assert (Hul0 : match main_length o with Some l => 0 <= l | None => True end) by (unfold main_length; destruct (Z.eqb_spec (o_length o) (-1)); [exact Logic.I|lia]).
  pose proof (C67_solutions_balance E net w h _ g a T ic n oc m HE Hn Cm Hul0 Ee Bal So R) as X.
  destruct So as (cs0 & top0 & C & _). destruct (create_balancer_spec E _ w h (main_length o) g cs0 top0 HE (dedup_nonneg net Hn) Hul0 C) as (? & ? & ? & ? & _ & W & (t & _ & Eg & _) & _).
  assert (EL : max_hidden g = longest w h (main_length o)) by (subst g; reflexivity). rewrite EL in X. exact X.
Qed.

(** A layout that the program printed is printed again if it is given back, and
    whatever is printed then has its belts, undergrounds and splitters and could
    have been printed at first. *)
Theorem C87_printed_again E o net w h g cs top g' cs' top' T ic n oc m : honest E -> nonneg net -> complete net ->
  o_length o = -1 \/ 1 <= o_length o -> o_partial o = None ->
  get_input_output_colours net = Some ((ic, n), (oc, m)) ->
  main_clauses E o net w h = Some (g, cs, top) ->
  main_clauses E (resumed o (written T w h)) net w h = Some (g', cs', top') ->
  (exists a, sat a cs = true /\ reads g a T) ->
  (exists a, sat a cs' = true /\ reads g' a T) /\
  forall T', (exists a, sat a cs' = true /\ reads g' a T') <->
    (exists a, sat a cs = true /\ reads g a T') /\ forall p, inside (rectangle w h) p -> T p <> Empty -> T' p = T p.
Proof.
  intros HE Hn Cm Hl Op Ends Hm Hm' H0.
  pose proof (fun T => C88_main_exactly E o net w h g cs top T ic n oc m HE Hn Cm Hl Ends Hm) as X. cbv zeta in X.
  pose proof (fun T' => C88_main_exactly E (resumed o (written T w h)) net w h g' cs' top' T' ic n oc m HE Hn Cm Hl Ends Hm') as X'. cbv zeta in X'.
  assert (BT : belt_tiles (rectangle w h) T) by (apply X in H0; apply H0).
  assert (Q : forall T', (exists a, sat a cs' = true /\ reads g' a T') <->
    (exists a, sat a cs = true /\ reads g a T') /\ forall p, inside (rectangle w h) p -> T p <> Empty -> T' p = T p).
  { intros T'. rewrite X, X', <- (C87_resume T T' w h BT). cbn [resumed o_edge_splitters o_fast].
    assert (As : asked (resumed o (written T w h)) (rectangle w h) n m T' <-> asked o (rectangle w h) n m T' /\ extends T' (written T w h)).
    { split.
      - intros [A1 A2 A3 A4 A5 A6 A7 A8 A9]. split; [constructor; try assumption; rewrite Op; exact Logic.I|exact A8].
      - intros [[A1 A2 A3 A4 A5 A6 A7 A8 A9] Ex]. constructor; assumption. }
    rewrite As. unfold main_length. cbn [resumed o_length]. tauto. }
  split; [|exact Q]. apply Q. split; [exact H0|reflexivity].
Qed.

(** ** C89 *)
(** belt_balancer.py --all with a truthful solver prints each of these layouts
    exactly once, and nothing else. *)
Theorem C89_every_balancer_once E o net w h g cs top ic n oc m vs dom solver : honest E -> nonneg net -> complete net ->
  o_length o = -1 \/ 1 <= o_length o ->
  get_input_output_colours net = Some ((ic, n), (oc, m)) ->
  main_clauses E o net w h = Some (g, cs, top) -> important_variables g [] true = Some vs ->
  correct_solver dom solver -> in_dom dom cs -> (forall v, In v vs -> In v dom) ->
  let A := rectangle w h in
  let L := longest w h (main_length o) in
  let nodes := elements (deduplicate_network net) in
  let wanted T := valid_layout A T L /\
    (exists P wire, realises_by A T L nodes ic (Z.to_nat n) oc (Z.to_nat m) P wire /\
       (o_edge_splitters o || o_fast o = true -> edges_taken w T P nodes ic oc)) /\ asked o A n m T in
  exists ms, (exists fuel, itersolve solver vs fuel cs = Some ms) /\
    (forall m, In m ms -> exists T, reads g (model_assignment m) T /\ wanted T) /\
    (forall T, wanted T -> exists i m, nth_error ms i = Some m /\ reads g (model_assignment m) T /\
       forall j m', nth_error ms j = Some m' -> reads g (model_assignment m') T -> j = i).
Proof.
  intros HE Hn Cm Hl Ends Hm EI CS D VD A L nodes wanted.
  assert (Hul0 : match main_length o with Some l => 0 <= l | None => True end) by (unfold main_length; destruct (Z.eqb_spec (o_length o) (-1)); [exact Logic.I|lia]).
  destruct (main_split E o net w h g cs top Hm) as (_ & cs0 & top0 & ce & t1 & cb & t2 & cn & C & _).
  destruct (create_balancer_spec E _ w h (main_length o) g cs0 top0 HE (dedup_nonneg net Hn) Hul0 C) as (ic' & n' & oc' & m' & _ & W & (t & _ & Eg & _) & _ & _ & En & _).
  assert (CX : wrap_x (geo g) = false) by (subst g; reflexivity). assert (CY : wrap_y (geo g) = false) by (subst g; reflexivity). clear Eg.
  assert (Sol : forall a, sat a cs = true -> balancer_rules g (deduplicate_network net) ic' n' oc' m' a /\ solves g (EBool true) a).
  { intros a Sa. destruct (main_solves E o net w h g cs top a Hm Sa) as (cs1 & top1 & C1 & S & Ix & Ls). rewrite C in C1. apply Some_inj in C1. assert (cs0 = cs1) by congruence. subst cs1.
    pose proof (proj1 En a S) as B. split; [exact B|]. split; [apply B|split; [exact Ix|split; [apply B|split; [apply B|exact Ls]]]]. }
  apply (fun H1 H2 H3 H4 H5 => P_Once.each_layout_once g cs wanted H1 H2 H3 H4 H5 vs dom solver EI CS D VD).
  - exact W.
  - intros a Sa. apply (Sol a Sa).
  - intros T. exact (C88_main_exactly E o net w h g cs top T ic n oc m HE Hn Cm Hl Ends Hm).
  - intros a a' T Sa Sa' R R' p Hp d. destruct (Sol a Sa) as [B So], (Sol a' Sa') as [B' So'].
    destruct (sides_used g W _ ic' n' oc' m' a B So T R (dedup_complete net Cm) p d Hp) as [I1 O1], (sides_used g W _ ic' n' oc' m' a' B' So' T R' (dedup_complete net Cm) p d Hp) as [I2 O2].
    split; apply Bool.eq_iff_eq_true; [rewrite I1, I2|rewrite O1, O2]; reflexivity.
  - intros a a' T T' Sa Sa' R R' K. destruct (Sol a Sa) as [B So], (Sol a' Sa') as [B' So'].
    apply heads_determined; [apply W|exact CX|exact CY| | |exact K].
    + apply (VL g W a So T R).
    + apply (VL g W a' So' T' R').
Qed.

(** ** C90 *)
(** The program starts its solver if the options fit (Spec_Main) and there is
    room for the splitters, given that the library encodes every count that is
    possible. *)
Theorem C90_starts E o net w h ic n oc m : honest E -> answers E -> P_Cut2.answers_atleast E -> nonneg net ->
  get_input_output_colours net = Some ((ic, n), (oc, m)) -> can_start o net w h n m -> has_room o net w h n m ->
  exists g cs top, main_clauses E o net w h = Some (g, cs, top).
Proof. apply main_starts. Qed.
(** If the options do not fit, or the network has no ends, it raises. *)
Theorem C90_raises E o net w h : honest E -> nonneg net ->
  ~ (exists ic n oc m, get_input_output_colours net = Some ((ic, n), (oc, m)) /\ can_start o net w h n m) -> main_clauses E o net w h = None.
Proof.
  intros HE Hn N. destruct (main_clauses E o net w h) as [[[g cs] top]|] eqn:Hm; [|reflexivity]. exfalso. apply N. exact (main_needs E o net w h g cs top HE Hn Hm).
Qed.
(** If there is room this is an equivalence. *)
Corollary C90_exactly E o net w h ic n oc m : honest E -> answers E -> P_Cut2.answers_atleast E -> nonneg net ->
  get_input_output_colours net = Some ((ic, n), (oc, m)) -> has_room o net w h n m ->
  (main_clauses E o net w h <> None <-> can_start o net w h n m).
Proof.
  intros HE An AnL Hn Ee Ro. split.
  - intros N. destruct (main_clauses E o net w h) as [[[g cs] top]|] eqn:Hm; [|contradiction]. destruct (main_needs E o net w h g cs top HE Hn Hm) as (ic' & n' & oc' & m' & Ee' & C).
    rewrite Ee in Ee'. injection Ee' as <- <- <- <-. exact C.
  - intros C. destruct (main_starts E o net w h ic n oc m HE An AnL Hn Ee C Ro) as (g & cs & top & ->). discriminate.
Qed.

(** ** Examples *)
(** One splitter, with --fast, --aligned and half of the layout given. *)
Definition no_options : options := {| o_90 := false; o_180 := false; o_custom := false; o_aligned := false; o_use_ends := false; o_edge_splitters := false; o_edge_belts := false;
  o_glue := false; o_expand := false; o_mergeable := false; o_patterns := false; o_symmetry := false; o_fast := false; o_length := 4; o_partial := None |}.
Definition demo_partial : list (list tile) := [[Empty; Splitter RIGHT false]; [Belt RIGHT RIGHT; Splitter RIGHT true]; []].
Definition demo_options : options := {| o_90 := false; o_180 := false; o_custom := false; o_aligned := true; o_use_ends := false; o_edge_splitters := false; o_edge_belts := false;
  o_glue := false; o_expand := false; o_mergeable := false; o_patterns := false; o_symmetry := false; o_fast := true; o_length := 4; o_partial := Some demo_partial |}.
(** The offsets of the ends are above the variables of the grid. *)
Definition main_solution : assignment := fun v => row_solution 0 v || (grid_size demo_bgrid <? v).
Lemma demo_nonneg : nonneg demo_net.
Proof. intros x Hx. cbn in Hx. intuition; match goal with H : Some _ = Some _ |- _ => injection H as <-; lia end. Qed.
Lemma demo_complete : complete demo_net.
Proof. intros nd [<-|[]]. repeat split; discriminate. Qed.
Example C88_demo : exists cs top, main_clauses naive_encoder demo_options demo_net 3 3 = Some (demo_bgrid, cs, top) /\ sat main_solution cs = true /\ reads demo_bgrid main_solution (row_balancer 0).
Proof.
  assert (X : match main_clauses naive_encoder demo_options demo_net 3 3 with Some (_, cs, _) => sat main_solution cs | None => false end = true) by (vm_compute; reflexivity).
  assert (Y : match main_clauses naive_encoder demo_options demo_net 3 3 with Some (g, _, _) => g = demo_bgrid | None => False end) by (vm_compute; reflexivity).
  destruct (main_clauses naive_encoder demo_options demo_net 3 3) as [[[g cs] top]|] eqn:E; [|discriminate]. subst g. exists cs, top. split; [reflexivity|]. split; [exact X|].
  assert (Z' : forallb (fun p => match decoded demo_bgrid main_solution p with Some t => if tile_eq_dec t (row_balancer 0 p) then true else false | None => false end)
    (iterate_tiles (geo demo_bgrid)) = true) by (vm_compute; reflexivity).
  intros p Hp. rewrite forallb_forall in Z'. specialize (Z' p (proj2 (iterate_tiles_in _ _) Hp)).
  unfold decoded in Z'. destruct (read_tile _) as [t|]; [|discriminate]. destruct (tile_eq_dec t (row_balancer 0 p)); [congruence|discriminate].
Qed.
(** So it has what the options ask for, and stands at the edges. *)
Example C88_demo_asked : asked demo_options (rectangle 3 3) 2 2 (row_balancer 0) /\ balanced_layout (rectangle 3 3) (row_balancer 0) 4.
Proof.
  destruct C88_demo as (cs & top & Hm & Sa & R). assert (Hl : o_length demo_options = -1 \/ 1 <= o_length demo_options) by (right; vm_compute; discriminate). split.
  - apply (proj1 (C88_main_exactly naive_encoder demo_options demo_net 3 3 demo_bgrid cs top (row_balancer 0) 0 2 1 2 naive_honest demo_nonneg demo_complete Hl eq_refl Hm)). eauto.
  - exact C67_demo.
Qed.
(** The same layout one row further down is not found: its rows are not where the
    given part is, and the ends are never in the lowest row. *)
Example C88_demo_not : ~ asked demo_options (rectangle 3 3) 2 2 (row_balancer 1) /\ ~ asked no_options (rectangle 3 3) 2 2 (row_balancer 1).
Proof.
  split.
  - intros [_ _ _ _ _ _ _ P _]. cbn in P. specialize (P 1%nat 0%nat _ _ eq_refl eq_refl ltac:(discriminate)). discriminate.
  - intros [_ _ _ _ _ _ _ _ (i & j & (Hi & H) & _)]. destruct (H 2 ltac:(cbn; lia)) as [_ N]. cbn in Hi. assert (X : row_balancer 1 (left_edge 2) = Empty) by (apply N; lia). discriminate.
Qed.
(** The layout extends the given part, and this is what the clauses say. *)
Example C87_demo : extends (row_balancer 0) demo_partial /\ ~ extends (row_balancer 1) demo_partial /\
  match set_nonempty_tiles demo_bgrid demo_partial with Some cs => sat (row_solution 0) cs = true /\ sat (row_solution 1) cs = false | None => False end.
Proof.
  split; [|split; [|vm_compute; split; reflexivity]].
  - intros x y r t Hr Ht Ne. destruct y as [|[|[|[|y]]]]; cbn in Hr; try discriminate; injection Hr as <-; destruct x as [|[|[|x]]]; cbn in Ht; try discriminate; injection Ht as <-; try contradiction; reflexivity.
  - intros P. specialize (P 1%nat 0%nat _ _ eq_refl eq_refl ltac:(discriminate)). discriminate.
Qed.
(** The hypotheses of the theorem about printed layouts. *)
Definition demo_printed : list (list json) := map (map (fun t => JObj [("is_empty", JBool false); ("tile", tile_write t)])) (written (row_balancer 0) 3 3).
Example C87_again : convert_to_tiles (fun _ => None) (fun _ => Some demo_printed) "..." = Some (written (row_balancer 0) 3 3) /\
  extends (row_balancer 0) (written (row_balancer 0) 3 3) /\ ~ extends (row_balancer 1) (written (row_balancer 0) 3 3) /\
  exists g cs top, main_clauses naive_encoder (resumed no_options (written (row_balancer 0) 3 3)) demo_net 3 3 = Some (g, cs, top).
Proof.
  split; [vm_compute; reflexivity|]. split; [|split].
  - intros x y r t Hr Ht Ne. destruct (written_at _ _ _ _ _ _ _ Hr Ht) as (_ & _ & ->). destruct (row_balancer 0 (Z.of_nat x, Z.of_nat y)) eqn:Et; try reflexivity.
    exfalso. revert Et. unfold row_balancer. clear. intros Et. repeat match goal with H : context [match ?c with _ => _ end] |- _ => destruct c; try discriminate end.
  - intros P. specialize (P 0%nat 0%nat _ _ eq_refl eq_refl ltac:(discriminate)). discriminate.
  - vm_compute. eexists _, _, _. reflexivity.
Qed.
Example C87_outside : set_nonempty_tiles demo_bgrid [[Empty; Empty; Empty; Belt RIGHT RIGHT]] = None /\ set_nonempty_tiles demo_bgrid [[Empty; Empty; Empty; Empty]] = Some [].
Proof. split; vm_compute; reflexivity. Qed.
(** Patterns with splitters. *)
Example C86_pattern : parallel_splitter (rectangle 3 2) (fun p => match p with (0, 1) => Belt RIGHT RIGHT | (0, 0) => Belt UP UP | (1, 0) => Splitter UP true | _ => Empty end) (0, 1) RIGHT UP.
Proof. exists (0, 0), (1, 0), RIGHT, UP. repeat split; auto; try discriminate. Qed.
Example C86_demo : wf_grid demo_bgrid /\ solves demo_bgrid (EBool true) (row_solution 0) /\ reads demo_bgrid (row_solution 0) (row_balancer 0) /\ all_connected demo_bgrid (row_solution 0) (row_balancer 0).
Proof.
  split; [apply demo_wf|]. destruct (row_solves 0 (or_introl eq_refl)) as (cs & top & C & S & Ix & Ls).
  destruct (create_balancer_spec naive_encoder _ 3 3 (Some 4) _ _ _ naive_honest (dedup_nonneg _ demo_nonneg) ltac:(cbv beta iota; lia) C) as (ic & n & oc & m & _ & _ & _ & _ & _ & En & _).
  pose proof (proj1 En _ S) as B. split; [split; [apply B|split; [exact Ix|split; [apply B|split; [apply B|exact Ls]]]]|]. split; [apply row_reads; auto|].
  apply (C86_everything_connected naive_encoder demo_net 3 3 (Some 4) demo_bgrid (row_solution 0) (row_balancer 0) naive_honest demo_nonneg demo_complete ltac:(cbv beta iota; lia)); [exists cs, top; auto|apply row_reads; auto].
Qed.
Example C89_demo : exists g cs top vs dom solver, main_clauses naive_encoder demo_options demo_net 3 3 = Some (g, cs, top) /\
  important_variables g [] true = Some vs /\ correct_solver dom solver /\ in_dom dom cs /\ (forall v, In v vs -> In v dom).
Proof.
  assert (K : match main_clauses naive_encoder demo_options demo_net 3 3 with Some (g, cs, _) =>
      match important_variables g [] true with Some vs => forallb (fun v => 0 <? v) vs && forallb (forallb (fun l => negb (l =? 0))) cs | None => false end | None => false end = true) by (vm_compute; reflexivity).
  destruct (main_clauses naive_encoder demo_options demo_net 3 3) as [[[g cs] top]|] eqn:Ec; [|discriminate]. destruct (important_variables g [] true) as [vs|] eqn:EI; [|discriminate].
  apply andb_true_iff in K. destruct K as [K1 K2]. rewrite forallb_forall in K1, K2.
  pose (dom := nodup Z.eq_dec (filter (fun v => 0 <? v) (vs ++ map Z.abs (List.concat cs)))%list).
  exists g, cs, top, vs, dom, (T_Template.naive dom). split; [reflexivity|]. split; [exact EI|]. split; [|split].
  - apply T_Template.naive_correct; [|apply NoDup_nodup]. apply Forall_forall. intros v Hv. apply nodup_In, filter_In in Hv. apply Z.ltb_lt. apply Hv.
  - apply Forall_forall. intros c Hc. apply Forall_forall. intros l Hl. apply nodup_In, filter_In. split; [apply in_or_app; right; apply in_map, in_concat; eauto|].
    specialize (K2 c Hc). rewrite forallb_forall in K2. specialize (K2 l Hl). apply negb_true_iff, Z.eqb_neq in K2. apply Z.ltb_lt. lia.
  - intros v Hv. apply nodup_In, filter_In. split; [apply in_or_app; left; exact Hv|apply K1; exact Hv].
Qed.
Example C90_demo : can_start demo_options demo_net 3 3 2 2 /\ has_room demo_options demo_net 3 3 2 2.
Proof.
  split.
  - constructor.
    + apply refused_iff. reflexivity.
    + right. vm_compute. discriminate.
    + lia.
    + intros nd [<-|[]]. vm_compute. lia.
    + split; lia.
    + discriminate.
    + discriminate.
    + intros x y r t Hr Ht Ne. destruct y as [|[|[|[|y]]]]; cbn in Hr; try discriminate; injection Hr as <-; destruct x as [|[|[|x]]]; cbn in Ht; try discriminate; injection Ht as <-; try contradiction; cbn; intuition lia.
  - constructor; cbn; try lia. intros _. split; [lia|]. intros nd same Hs N. assert (I : incl same [0%nat]).
    { intros i Hi. destruct (Hs i Hi) as (nd' & En & _). destruct i as [|[|i]]; [left; reflexivity|discriminate|discriminate]. }
    apply NoDup_incl_length in I; [|exact N]. cbn in I. lia.
Qed.
Example C90_contradictory : main_clauses naive_encoder {| o_90 := true; o_180 := false; o_custom := false; o_aligned := true; o_use_ends := false; o_edge_splitters := false; o_edge_belts := false;
  o_glue := false; o_expand := false; o_mergeable := false; o_patterns := false; o_symmetry := false; o_fast := false; o_length := 4; o_partial := None |} demo_net 3 3 = None.
Proof.
  apply C90_raises; [apply naive_honest|apply demo_nonneg|]. intros (ic & n & oc & m & _ & C). apply (st_options _ _ _ _ _ _ C). right. right. left. split; [reflexivity|left; reflexivity].
Qed.

Print Assumptions C86_parallel_splitters.
Print Assumptions C86_lagging_splitters.
Print Assumptions C86_everything_connected.
Print Assumptions C87_given_tiles.
Print Assumptions C87_given_raises.
Print Assumptions C87_own_output.
Print Assumptions C87_resume.
Print Assumptions C87_printed_again.
Print Assumptions C88_main_exactly.
Print Assumptions C88_options_only_remove.
Print Assumptions C88_balances.
Print Assumptions C89_every_balancer_once.
Print Assumptions C90_starts.
Print Assumptions C90_raises.
Print Assumptions C90_exactly.
