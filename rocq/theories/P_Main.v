(** The clauses of belt_balancer.py's main as a whole. *)
From Coq Require Import String ZArith List Bool Lia.
From Verif Require Import P_Network P_Network2 P_Benes P_Nonneg P_Similar T_Network.
From Verif Require Import Spec_Cnf Spec_Tile Spec_Layout Spec_Pattern Spec_Main M_Json M_Tile M_Util M_Card M_Network Spec_Network M_Template M_Grid M_Oracle M_Balancer M_Optimise M_Main
  P_Cnf P_Util P_Util3 P_Card P_Tile P_Layout T_Tile P_List P_Template P_Walk P_Grid P_GridSound P_GridComplete P_Transport T_Grid T_Enumerate P_GridOk P_Gen P_Balancer
  Spec_Balancer P_Trace P_Realise P_Ends T_Balancer P_Lossless T_Lossless Spec_Edge P_Edge T_Edge P_Connect.
From Verif Require P_Pattern P_Pattern2 P_Mirror T_Mirror T_Pattern.
Import ListNotations.
Open Scope Z_scope.

(** ** The list of calls *)
Definition granted (a : assignment) (o : option cnf) : Prop := exists c, o = Some c /\ sat a c = true.
Lemma granted_some a c : granted a (Some c) <-> sat a c = true.
Proof. split; [intros (c' & E & S); apply Some_inj in E; subst; exact S|intros S; exists c; auto]. Qed.

Lemma pures_app : forall os l top cs t, seq_gen (map pure os ++ l)%list top = Some (cs, t) ->
  (forall o, In o os -> exists c : cnf, o = Some c) /\
  exists rest tc, seq_gen l top = Some (tc, t) /\ cs = (rest ++ tc)%list /\ forall a, sat a rest = true <-> forall o, In o os -> granted a o.
Proof.
  induction os as [|o os IH]; intros l top cs t E; cbn [map app] in E.
  - split; [intros o []|]. exists [], cs. split; [exact E|]. split; [reflexivity|]. intros a. split; [intros _ o []|reflexivity].
  - rewrite seq_gen_cons in E. destruct o as [c|]; [|discriminate]. unfold pure at 1 in E. cbn [obind] in E.
    destruct (seq_gen (map pure os ++ l)%list top) as [[c2 t2]|] eqn:E2; [|discriminate].
    apply Some_inj in E. injection E as <- <-. destruct (IH l top c2 t2 E2) as (Os & rest & tc & Ef & -> & S). split; [intros o [<-|Ho]; eauto|].
    exists (c ++ rest)%list, tc. split; [exact Ef|]. split; [apply app_assoc|]. intros a. rewrite sat_app_iff, S. split.
    + intros (H1 & H2) o [<-|Ho]; [apply granted_some; exact H1|auto].
    + intros H1. split; [apply granted_some; apply H1; left; reflexivity|]. intros o Ho; apply H1; right; exact Ho.
Qed.

Definition whenp {A} (b : bool) (l : list A) : list A := if b then l else [].
(** The clauses that need no new variables, before, between and after the
    calls that allocate. *)
Definition wishes1 (g : grid) : list (option cnf) := [Some (prevent_intersection g)].
Definition wishes2 (o : options) (g : grid) : list (option cnf) :=
  (whenp (o_edge_belts o) [prevent_double_edge_belts g] ++
   whenp (o_glue o || o_fast o) [Some (glue_splitters g); Some (glue_partial_splitters g)] ++
   whenp (o_expand o || o_fast o) [expand_underground g 1 0 (Some (width (geo g) - 2)) None] ++
   whenp (o_mergeable o || o_fast o) [Some (prevent_mergeable_underground g)])%list.
Definition wishes3 (o : options) (g : grid) : list (option cnf) :=
  (whenp (o_patterns o || o_fast o) [Some (prevent_belt_hooks g); Some (prevent_semicircles g); Some (prevent_small_loops g);
     Some (prevent_underground_hook g); Some (prevent_zigzags g); Some (prevent_belt_parallel_splitter g)] ++
   [enforce_maximum_underground_length g; Some (prevent_empty_along_underground g)] ++
   match o_partial o with Some tiles => [set_nonempty_tiles g tiles] | None => [] end)%list.
Definition ends_call (o : options) (g : grid) (net : counter) : gen :=
  if o_90 o then setup_balancer_ends_90 g net (o_use_ends o)
  else if o_180 o then setup_balancer_ends_180 g net
  else if o_custom o then pure (Some [])
  else setup_balancer_ends g net (o_aligned o) (o_use_ends o).
Definition edge_call (E : card_encoder) (o : options) (g : grid) (net : counter) : gen :=
  if o_edge_splitters o || o_fast o then enforce_edge_splitters E g net else pure (Some []).
Definition mirror_call (o : options) (g : grid) : gen := if o_symmetry o then break_vertical_symmetry g else pure (Some []).
Definition wishes (o : options) (g : grid) : list (option cnf) := (wishes1 g ++ wishes2 o g ++ wishes3 o g)%list.

Lemma calls_eq E o g net : main_calls E o g net =
  (map pure (wishes1 g) ++ when_ (o_edge_splitters o || o_fast o) [enforce_edge_splitters E g net] ++ map pure (wishes2 o g) ++
   when_ (o_symmetry o) [break_vertical_symmetry g] ++ map pure (wishes3 o g) ++
   (if o_90 o then [setup_balancer_ends_90 g net (o_use_ends o)]
    else if o_180 o then [setup_balancer_ends_180 g net]
    else if o_custom o then []
    else [setup_balancer_ends g net (o_aligned o) (o_use_ends o)]))%list.
Proof.
  unfold main_calls, wishes1, wishes2, wishes3, when_, whenp.
  destruct (o_edge_splitters o || o_fast o), (o_edge_belts o), (o_glue o || o_fast o), (o_expand o || o_fast o), (o_mergeable o || o_fast o), (o_patterns o || o_fast o),
    (o_symmetry o), (o_partial o); reflexivity.
Qed.
(** One call that may be left out. *)
Lemma when_app b f l top cs t : seq_gen (when_ b [f] ++ l)%list top = Some (cs, t) ->
  exists c1 t1 c2, (if b then f else pure (Some [])) top = Some (c1, t1) /\ seq_gen l t1 = Some (c2, t) /\ cs = (c1 ++ c2)%list.
Proof.
  destruct b; cbn [when_ app].
  - rewrite seq_gen_cons. destruct (f top) as [[c1 t1]|]; [|discriminate]. destruct (seq_gen l t1) as [[c2 t2]|] eqn:E2; [|discriminate]. intros H. apply Some_inj in H. injection H as <- <-.
    exists c1, t1, c2. rewrite E2. auto.
  - intros H. exists [], top, cs. auto.
Qed.
Lemma single_app (f : gen) top : seq_gen [f] top = f top.
Proof. rewrite seq_gen_cons. destruct (f top) as [[c t]|]; [|reflexivity]. cbn [seq_gen]. rewrite app_nil_r. reflexivity. Qed.
Lemma main_split E o l w h g cs top : main_clauses E o l w h = Some (g, cs, top) ->
  refused o = false /\
  exists cs0 top0 ce t1 cb t2 cn, create_balancer E (deduplicate_network l) w h (main_length o) = Some (g, cs0, top0) /\
    edge_call E o g (deduplicate_network l) top0 = Some (ce, t1) /\ mirror_call o g t1 = Some (cb, t2) /\ ends_call o g (deduplicate_network l) t2 = Some (cn, top) /\
    (forall x, In x (wishes o g) -> exists c, x = Some c) /\
    forall a, sat a cs = true <-> sat a cs0 = true /\ sat a ce = true /\ sat a cb = true /\ sat a cn = true /\ forall x, In x (wishes o g) -> granted a x.
Proof.
  unfold main_clauses. destruct (refused o); [discriminate|]. intros H. split; [reflexivity|].
  destruct (create_balancer E (deduplicate_network l) w h (main_length o)) as [[[g0 cs0] top0]|] eqn:C; [|discriminate]. cbn [obind] in H.
  destruct (seq_gen (main_calls E o g0 (deduplicate_network l)) top0) as [[cs' top']|] eqn:Es; [|discriminate]. cbn [obind] in H. apply Some_inj in H.
  assert (g0 = g) by congruence. assert ((cs0 ++ cs')%list = cs) by congruence. assert (top' = top) by congruence. subst g0 cs top'. clear H.
  rewrite calls_eq in Es. apply pures_app in Es. destruct Es as (O1 & r1 & tc1 & Es & -> & S1). apply when_app in Es. destruct Es as (ce & t1 & c2 & Ee & Es & ->).
  apply pures_app in Es. destruct Es as (O2 & r2 & tc2 & Es & -> & S2). apply when_app in Es. destruct Es as (cb & t2 & c3 & Eb & Es & ->).
  apply pures_app in Es. destruct Es as (O3 & r3 & cn & Es & -> & S3).
  exists cs0, top0, ce, t1, cb, t2, cn. split; [reflexivity|]. split; [exact Ee|]. split; [exact Eb|].
  split; [|split].
  - unfold ends_call. destruct (o_90 o); [rewrite single_app in Es; exact Es|]. destruct (o_180 o); [rewrite single_app in Es; exact Es|]. destruct (o_custom o); [exact Es|rewrite single_app in Es; exact Es].
  - unfold wishes. intros x Hx. rewrite !in_app_iff in Hx. intuition.
  - intros a. rewrite !sat_app_iff, S1, S2, S3. unfold wishes. split.
    + intros (H0 & H1 & H2 & H3 & H4 & H5 & H6). repeat (split; [assumption|]). intros x Hx. rewrite !in_app_iff in Hx. intuition.
    + intros (H0 & H1 & H2 & H3 & H4). repeat (split; [assumption || (intros x Hx; apply H4; rewrite !in_app_iff; tauto)|]). assumption.
Qed.

(** ** --partial *)
Lemma numbered_in {X} (l : list X) i x : In (i, x) (numbered l) <-> exists n, i = Z.of_nat n /\ nth_error l n = Some x.
Proof.
  unfold numbered. rewrite in_map_iff. split.
  - intros ([n y] & E & H). cbn [fst snd] in E. injection E as <- <-. exists n. split; [reflexivity|]. apply indexed_in. exact H.
  - intros (n & -> & H). exists (n, x). split; [reflexivity|]. apply indexed_in. exact H.
Qed.
Section Partial.
  Variable g : grid.
  Hypothesis W : wf_grid g.
  Variable a : assignment.
  Hypothesis Si : solves_init g a.
  Variable T : layout.
  Hypothesis R : reads g a T.
  Lemma set_tile_exact x y t cs : set_tile g x y t = Some cs -> inside (garea g) (x, y) /\
    (sat a cs = true <-> T (x, y) = match t with Filler => Empty | _ => t end).
  Proof.
    unfold set_tile. intros E. destruct (((0 <=? x) && (0 <=? y)) && ((x <? width (geo g)) && (y <? height (geo g)))) eqn:I; [|discriminate].
    rewrite !andb_true_iff, !Z.leb_le, !Z.ltb_lt in I. assert (Hp : inside (garea g) (x, y)) by (split; cbn; lia). split; [exact Hp|].
    pose proof (tile_at_ok g _ W Hp) as Ok. pose proof (T_shows g a T R (proj1 (solves_init_rules g a W) Si) _ Hp) as (K & B & Em & Sp & UI & UO & H).
    cbn [view_of vb ve vs vui vuo vh vi vo] in *.
    destruct t as [| |i o|f b|f hd|f k|x' y']; try discriminate; cbn [set_tile_clauses] in E; apply Some_inj in E; subst cs.
    - rewrite sat_one, satc_one, Em. destruct (T (x, y)); split; congruence.
    - rewrite sat_one, satc_one, Em. destruct (T (x, y)); split; congruence.
    - cbn [input_direction output_direction app]. rewrite !sat_cons_iff, sat_nil, !satc_one, B. split.
      + intros (Hb & Hi & Ho & _). destruct (T (x, y)) as [| |i' o'|f []|f h|f k|x' y']; try discriminate. destruct K as (_ & Ki & Ko & _). apply Ki in Hi. apply Ko in Ho. congruence.
      + intros Et. rewrite Et in *. destruct K as (_ & Ki & Ko & _). repeat split; [apply Ki|apply Ko]; reflexivity.
    - destruct b; cbn [input_direction output_direction app]; rewrite !sat_cons_iff, sat_nil, !satc_one.
      + rewrite UI. split.
        * intros (Hb & Hi & _). destruct (T (x, y)) as [| |i' o'|f' []|f' h|f' k|x' y']; try discriminate. destruct K as (_ & Ki & _). apply Ki in Hi. congruence.
        * intros Et. rewrite Et in *. destruct K as (_ & Ki & _). repeat split. apply Ki. reflexivity.
      + rewrite UO. split.
        * intros (Hb & Hi & _). destruct (T (x, y)) as [| |i' o'|f' []|f' h|f' k|x' y']; try discriminate. destruct K as (_ & _ & Ki). apply Ki in Hi. congruence.
        * intros Et. rewrite Et in *. destruct K as (_ & _ & Ki). repeat split. apply Ki. reflexivity.
    - rewrite !sat_cons_iff, sat_nil, !satc_one, satc_cons_iff, satc_one, Sp.
      assert (SL : evl a (set_literal (is_splitter_head (tile_at g (x, y))) hd) = true <-> evl a (is_splitter_head (tile_at g (x, y))) = hd).
      { unfold set_literal. destruct hd; [reflexivity|]. rewrite evl_neg by apply Ok. apply negb_true_iff. }
      rewrite SL, H. split.
      + intros (Hs & Hh & Hd & _). destruct (T (x, y)) as [| |i' o'|f' []|f' h'|f' k|x' y']; try discriminate. subst h'.
        destruct K as (_ & _ & Ki & Ko & _). f_equal; [|exact Hh]. destruct Hd as [Hd|Hd]; symmetry; auto.
      + intros Et. rewrite Et in *. destruct K as (_ & _ & _ & _ & Kd). auto 10.
  Qed.
  Lemma partial_sat G cs : set_nonempty_tiles g G = Some cs -> (sat a cs = true <-> extends T G).
  Proof.
    unfold set_nonempty_tiles. intros E. rewrite (sat_oflat a _ _ _ E). split.
    - intros H x y r t Hr Ht Ne. destruct (H (Z.of_nat y, r)) as (c & Ec & Sc); [apply numbered_in; eauto|]. cbn [fst snd] in Ec.
      rewrite (sat_oflat a _ _ _ Ec) in Sc. destruct (Sc (Z.of_nat x, t)) as (c' & Ec' & Sc'); [apply numbered_in; eauto|]. cbn [fst snd] in Ec'.
      destruct t; try contradiction; apply set_tile_exact in Ec'; apply Ec'; exact Sc'.
    - intros H [y r] Hy. destruct (oflat_in _ _ _ E _ Hy) as (c & Ec). exists c. split; [exact Ec|]. cbn [fst snd] in Ec. rewrite (sat_oflat a _ _ _ Ec). intros [x t] Hx.
      destruct (oflat_in _ _ _ Ec _ Hx) as (c' & Ec'). exists c'. split; [exact Ec'|]. cbn [fst snd] in Ec'. apply numbered_in in Hy. destruct Hy as (ny & -> & Hy). apply numbered_in in Hx. destruct Hx as (nx & -> & Hx).
      destruct t; [apply Some_inj in Ec'; subst c'; reflexivity|..]; apply set_tile_exact in Ec'; apply Ec'; apply (H nx ny r _ Hy Hx); discriminate.
  Qed.
End Partial.
Lemma oflat_none {X} (f : X -> option cnf) l : oflat f l = None -> exists x, In x l /\ f x = None.
Proof.
  unfold oflat. intros E. induction l as [|x l IH]; [discriminate|]. cbn [omap] in E. destruct (f x) as [c|] eqn:Ef; [|exists x; split; [left; reflexivity|exact Ef]].
  cbn [obind] in E. destruct (omap f l) as [r|]; [discriminate|]. destruct (IH eq_refl) as (y & Hy & Ey). exists y. split; [right; exact Hy|exact Ey].
Qed.
(** The tiles that can be asked for. *)
Lemma partial_raises g G : wf_grid g -> (set_nonempty_tiles g G = None <-> exists x y r t, nth_error G y = Some r /\ nth_error r x = Some t /\ t <> Empty /\
  (~ inside (garea g) (Z.of_nat x, Z.of_nat y) \/ match t with Inserter _ _ | Assembler _ _ => True | _ => False end)).
Proof.
  intros W. unfold set_nonempty_tiles.
  assert (X : forall x y t, set_tile g x y t = None <-> ~ inside (garea g) (x, y) \/ match t with Inserter _ _ | Assembler _ _ => True | _ => False end).
  { intros x y t. split; [|apply C45_set_tile_rejects; exact W]. unfold set_tile. destruct (((0 <=? x) && (0 <=? y)) && ((x <? width (geo g)) && (y <? height (geo g)))) eqn:I.
    - intros E. right. destruct t; cbn in E; try discriminate; exact Logic.I.
    - intros _. left. intros [Hx Hy]. cbn [garea area_of aw ah fst snd] in Hx, Hy. assert (((0 <=? x) && (0 <=? y)) && ((x <? width (geo g)) && (y <? height (geo g))) = true); [|congruence].
      rewrite !andb_true_iff, !Z.leb_le, !Z.ltb_lt. lia. }
  split.
  - intros E. assert (Y : exists yr, In yr (numbered G) /\ oflat (fun xt => match snd xt with Empty => Some [] | t => set_tile g (fst xt) (fst yr) t end) (numbered (snd yr)) = None).
    { apply oflat_none. exact E. }
    destruct Y as ([y r] & Hy & Er). cbn [fst snd] in Er.
    assert (Z' : exists xt, In xt (numbered r) /\ match snd xt with Empty => Some [] | t => set_tile g (fst xt) y t end = None).
    { apply oflat_none. exact Er. }
    destruct Z' as ([x t] & Hx & Et). cbn [fst snd] in Et. apply numbered_in in Hy. destruct Hy as (ny & -> & Hy). apply numbered_in in Hx. destruct Hx as (nx & -> & Hx).
    exists nx, ny, r, t. split; [exact Hy|]. split; [exact Hx|]. destruct t; [discriminate|..]; (split; [discriminate|]); exact (proj1 (X _ _ _) Et).
  - intros (x & y & r & t & Hy & Hx & Ne & H). destruct (oflat _ _) as [c|] eqn:E; [exfalso|reflexivity]. destruct (oflat_in _ _ _ E (Z.of_nat y, r)) as (c1 & E1); [apply numbered_in; eauto|].
    cbn [fst snd] in E1. destruct (oflat_in _ _ _ E1 (Z.of_nat x, t)) as (c2 & E2); [apply numbered_in; eauto|]. cbn [fst snd] in E2. pose proof (proj2 (X _ _ t) H) as K. destruct t; try contradiction; congruence.
Qed.

(** ** What the clauses say when every side of every tile is decided *)
Section Plain.
  Variable g : grid.
  Hypothesis W : wf_grid g.
  Variable a : assignment.
  Hypothesis So : solves g (EBool true) a.
  Variable T : layout.
  Hypothesis R : reads g a T.
  Hypothesis Gets : forall p d, inside (garea g) p -> (vi (view_of a (tile_at g p)) d = true <-> gets (garea g) T p d).
  Hypothesis Gives : forall p d, inside (garea g) p -> (vo (view_of a (tile_at g p)) d = true <-> gives (garea g) T p d).
  Variable o : options.
  Hypothesis Gl : glen g = main_length o.
  Notation A := (garea g).
  Notation V p := (view_of a (tile_at g p)).

  Let Si : solves_init g a := proj1 So.
  Lemma dec_all : forall p, inside A p -> decoded g a p = Some (T p).
  Proof. exact R. Qed.
  Lemma plain_rules : grid_rules g a.
  Proof. apply (solves_init_rules g a W). exact Si. Qed.
  Lemma plain_valid : valid_layout A T (max_hidden g).
  Proof. exact (P_Realise.VL g W a So T R). Qed.

  Lemma looked_useful : T_Pattern.useful g = looked_at A (o_length o).
  Proof. unfold T_Pattern.useful, looked_at. rewrite Gl. unfold main_length. cbn [aw ah garea area_of]. destruct (o_length o =? -1); reflexivity. Qed.

  (** The wishes. *)
  Record plain_asked : Prop := {
    pa_edge_belts : o_edge_belts o = true -> ~ double_edge_belt A T;
    pa_glue : o_glue o || o_fast o = true ->
      (forall p d, inside A p -> ~ (d = RIGHT /\ (fst p = 1 \/ fst p = aw A - 2)) -> ~ loose_splitter A T p d) /\
      (forall p d, inside A p -> before_last_column A p d -> ~ lagging_splitter A T p d);
    pa_expand : o_expand o || o_fast o = true ->
      let region := in_region 1 0 (aw A - 2) (ah A - 1) in
      if o_length o =? -1 then forall p d, region p -> region (far p d 1) ->
        ~ (T p = Belt d d /\ T (far p d 1) = Underground d true) /\ ~ (T p = Underground d false /\ T (far p d 1) = Belt d d)
      else forall p d k, 2 <= k <= o_length o -> region p -> region (far p d (k + 1)) -> ~ late_entrance A T p d k /\ ~ early_exit A T p d k;
    pa_mergeable : o_mergeable o || o_fast o = true ->
      forall p d k, inside A p -> k <= looked_at A (o_length o) + 1 -> ~ double_tunnel A T p d k;
    pa_patterns : o_patterns o || o_fast o = true ->
      ~ small_loop A T /\ forall p d t, inside A p -> perpendicular d t ->
        ~ (exists i o, belt_hook A T p d t i o) /\ ~ (exists i o, semicircle A T p d t i o) /\
        ~ (exists i, hook_to_entrance A T p d t i) /\ ~ (exists o, hook_from_exit A T p d t o) /\
        ~ zigzag A T p d t /\ ~ parallel_splitter A T p d t;
    pa_tunnels : forall p d k, inside A p -> k <= looked_at A (o_length o) + 1 -> ~ empty_tunnel A T p d k;
    pa_partial : match o_partial o with Some G => extends T G | None => True end }.

  Hypothesis Some_ : forall x, In x (wishes o g) -> exists c, x = Some c.
  Lemma in_wishes2 x : In x (wishes2 o g) -> In x (wishes o g).
  Proof. unfold wishes. rewrite !in_app_iff. auto. Qed.
  Lemma in_wishes3 x : In x (wishes3 o g) -> In x (wishes o g).
  Proof. unfold wishes. rewrite !in_app_iff. auto. Qed.

  Lemma edge_belts_asked : o_edge_belts o = true -> (granted a (prevent_double_edge_belts g) <-> ~ double_edge_belt A T).
  Proof.
    intros Eo. destruct (Some_ (prevent_double_edge_belts g)) as (c & Ec).
    { apply in_wishes2. unfold wishes2. rewrite Eo. left. reflexivity. }
    rewrite Ec, granted_some, (C78_edge_belts g a T c W Si R Ec). unfold passes_right, double_edge_belt. cbn [aw ah garea area_of]. split.
    - intros H (x & y & Hx & Hy & Hy' & H1 & H2). apply (H x y Hx Hy Hy'). auto.
    - intros H x y Hx Hy Hy' (H1 & H2). apply H. exists x, y. auto 10.
  Qed.
  Lemma glue_asked : sat a (glue_splitters g) = true <-> forall p d, inside A p -> ~ (d = RIGHT /\ (fst p = 1 \/ fst p = aw A - 2)) -> ~ loose_splitter A T p d.
  Proof. exact (T_Pattern.C56_glue g (EBool true) a T W So R). Qed.
  Lemma lagging_asked : sat a (glue_partial_splitters g) = true <-> forall p d, inside A p -> before_last_column A p d -> ~ lagging_splitter A T p d.
  Proof.
    apply (P_Pattern2.partial_exact g W a T dec_all plain_rules).
    - intros p d Hp. apply (Gets p d Hp).
    - apply plain_valid.
  Qed.
  Lemma parallel_asked : sat a (prevent_belt_parallel_splitter g) = true <-> forall p d t, inside A p -> perpendicular d t -> ~ parallel_splitter A T p d t.
  Proof.
    apply (P_Pattern2.parallel_exact g W a T dec_all plain_rules).
    - intros p d Hp. apply (Gives p d Hp).
  Qed.
  Lemma expand_asked : granted a (expand_underground g 1 0 (Some (width (geo g) - 2)) None) <->
    let region := in_region 1 0 (aw A - 2) (ah A - 1) in
    if o_length o =? -1 then forall p d, region p -> region (far p d 1) ->
      ~ (T p = Belt d d /\ T (far p d 1) = Underground d true) /\ ~ (T p = Underground d false /\ T (far p d 1) = Belt d d)
    else forall p d k, 2 <= k <= o_length o -> region p -> region (far p d (k + 1)) -> ~ late_entrance A T p d k /\ ~ early_exit A T p d k.
  Proof.
    cbv zeta. cbn [aw ah garea area_of]. unfold main_length in Gl. destruct (o_length o =? -1).
    - destruct (T_Pattern.C70_short_tunnels_unlimited g (EBool true) a T W So R 1 0 (Some (width (geo g) - 2)) None Gl ltac:(lia) ltac:(lia) ltac:(cbv beta iota zeta; lia) ltac:(cbv beta iota zeta; lia)) as (c & Ec & Hc).
      rewrite Ec, granted_some. exact Hc.
    - destruct (T_Pattern.C70_short_tunnels g (EBool true) a T W So R (o_length o) 1 0 (Some (width (geo g) - 2)) None Gl ltac:(lia) ltac:(lia) ltac:(cbv beta iota zeta; lia) ltac:(cbv beta iota zeta; lia)) as (c & Ec & Hc).
      rewrite Ec, granted_some. exact Hc.
  Qed.
  Lemma partial_asked : match o_partial o with Some G => granted a (set_nonempty_tiles g G) <-> extends T G | None => True end.
  Proof.
    destruct (o_partial o) as [G|] eqn:Eo; [|exact Logic.I]. destruct (Some_ (set_nonempty_tiles g G)) as (c & Ec).
    { apply in_wishes3. unfold wishes3. rewrite Eo, !in_app_iff. right. right. left. reflexivity. }
    rewrite Ec, granted_some. apply (partial_sat g W a Si T R G c Ec).
  Qed.
  Lemma wishes_said : (forall x, In x (wishes o g) -> granted a x) <-> plain_asked.
  Proof.
    pose proof (T_Pattern.C70_double_tunnels g (EBool true) a T W So R) as Mer. pose proof (T_Pattern.C70_empty_tunnels g (EBool true) a T W So R) as Emp. rewrite looked_useful in Mer, Emp.
    pose proof (T_Pattern.C56_small_loops g (EBool true) a T W So R) as Lo. pose proof (T_Pattern.C56_hooks g (EBool true) a T W So R) as Ho. pose proof (T_Pattern.C56_semicircles g (EBool true) a T W So R) as Se.
    pose proof (T_Pattern.C56_zigzags g (EBool true) a T W So R) as Zi. pose proof (T_Pattern.C70_underground_hooks g (EBool true) a T W So R) as Uh.
    assert (X1 : (forall x, In x (wishes1 g) -> granted a x)).
    { intros x [<-|[]]. apply granted_some. apply So. }
    assert (X4 : granted a (enforce_maximum_underground_length g)) by (apply So).
    split.
    - intros H. constructor.
      + intros Eo. apply (edge_belts_asked Eo). apply H, in_wishes2. unfold wishes2. rewrite Eo. left. reflexivity.
      + intros Eo. split; [apply glue_asked|apply lagging_asked]; apply granted_some; apply H, in_wishes2; unfold wishes2; rewrite Eo, !in_app_iff; right; left; cbn; auto.
      + intros Eo. apply expand_asked. apply H, in_wishes2. unfold wishes2. rewrite Eo, !in_app_iff. right; right; left; cbn; auto.
      + intros Eo. apply Mer. apply granted_some. apply H, in_wishes2. unfold wishes2. rewrite Eo, !in_app_iff. right; right; right; cbn; auto.
      + intros Eo. assert (K : forall c, In (Some c) [Some (prevent_belt_hooks g); Some (prevent_semicircles g); Some (prevent_small_loops g); Some (prevent_underground_hook g); Some (prevent_zigzags g); Some (prevent_belt_parallel_splitter g)] -> sat a c = true).
        { intros c Hc. apply granted_some. apply H, in_wishes3. unfold wishes3. rewrite Eo, !in_app_iff. left. exact Hc. }
        split; [apply Lo, K; cbn; tauto|]. intros p d t Hp Hd.
        pose proof (proj1 Uh (K (prevent_underground_hook g) ltac:(cbn; tauto)) p d t Hp Hd) as U.
        split; [apply (proj1 Ho (K (prevent_belt_hooks g) ltac:(cbn; tauto)) p d t Hp Hd)|]. split; [apply (proj1 Se (K (prevent_semicircles g) ltac:(cbn; tauto)) p d t Hp Hd)|]. split; [tauto|]. split; [tauto|].
        split; [apply (proj1 Zi (K (prevent_zigzags g) ltac:(cbn; tauto)) p d t Hp Hd)|]. apply (proj1 parallel_asked (K (prevent_belt_parallel_splitter g) ltac:(cbn; tauto)) p d t Hp Hd).
      + apply Emp. apply granted_some. apply H, in_wishes3. unfold wishes3. rewrite !in_app_iff. right. left. right. left. reflexivity.
      + pose proof partial_asked as P. destruct (o_partial o) as [G|] eqn:Eo; [|exact Logic.I]. apply P. apply H, in_wishes3. unfold wishes3. rewrite Eo, !in_app_iff. right. right. left. reflexivity.
    - intros [H1 H2 H3 H4 H5 H6 H7] x Hx. unfold wishes in Hx. rewrite !in_app_iff in Hx. destruct Hx as [Hx|[Hx|Hx]]; [auto| |].
      + unfold wishes2, whenp in Hx. rewrite !in_app_iff in Hx. destruct Hx as [Hx|[Hx|[Hx|Hx]]].
        * destruct (o_edge_belts o) eqn:Eo; [|destruct Hx]. destruct Hx as [<-|[]]. apply (edge_belts_asked Eo). auto.
        * destruct (o_glue o || o_fast o); [|destruct Hx]. destruct (H2 eq_refl). destruct Hx as [<-|[<-|[]]]; apply granted_some; [apply glue_asked|apply lagging_asked]; assumption.
        * destruct (o_expand o || o_fast o); [|destruct Hx]. destruct Hx as [<-|[]]. apply expand_asked. exact (H3 eq_refl).
        * destruct (o_mergeable o || o_fast o); [|destruct Hx]. destruct Hx as [<-|[]]. apply granted_some. apply Mer. exact (H4 eq_refl).
      + unfold wishes3, whenp in Hx. rewrite !in_app_iff in Hx. destruct Hx as [Hx|[Hx|Hx]].
        * destruct (o_patterns o || o_fast o); [|destruct Hx]. destruct (H5 eq_refl) as [Hl Hp].
          destruct Hx as [<-|[<-|[<-|[<-|[<-|[<-|[]]]]]]]; apply granted_some; [apply Ho|apply Se|apply Lo; exact Hl|apply Uh|apply Zi|apply parallel_asked]; intros p d t Ip Hd; destruct (Hp p d t Ip Hd) as (K1 & K2 & K3 & K4 & K5 & K6); tauto.
        * destruct Hx as [<-|[<-|[]]]; [exact X4|]. apply granted_some, Emp. exact H6.
        * pose proof partial_asked as P. destruct (o_partial o) as [G|]; [|destruct Hx]. destruct Hx as [<-|[]]. apply P. exact H7.
  Qed.

End Plain.

Section Solved.
  Variable g : grid.
  Hypothesis W : wf_grid g.
  Hypothesis CX : wrap_x (geo g) = false.
  Hypothesis CY : wrap_y (geo g) = false.
  Variable net : counter.
  Variables ic n oc m : Z.
  Variable a : assignment.
  Hypothesis B : balancer_rules g net ic n oc m a.
  Hypothesis So : solves g (EBool true) a.
  Variable T : layout.
  Hypothesis R : reads g a T.
  Hypothesis Cm : complete (elements net).
  Variable o : options.
  Hypothesis Gl : glen g = main_length o.
  Notation A := (garea g).
  Notation V p := (view_of a (tile_at g p)).

  Let Si : solves_init g a := proj1 So.
  Lemma main_rules : grid_rules g a.
  Proof. apply (solves_init_rules g a W). exact Si. Qed.
  Hypothesis Some_ : forall x, In x (wishes o g) -> exists c, x = Some c.
  Lemma wishes_asked : (forall x, In x (wishes o g) -> granted a x) <-> plain_asked g T o.
  Proof.
    apply (wishes_said g W a So T R); [| |exact Gl|exact Some_].
    - intros p d Hp. apply (side_gets g W net ic n oc m a B So T R Cm p d Hp).
    - intros p d Hp. apply (side_gives g W net ic n oc m a B So T R Cm p d Hp).
  Qed.

  (** The ends. *)
  Lemma ends_in at_ k : (forall y, 0 <= y < k -> inside A (at_ y)) -> forall free i, ends_placed g a T at_ k false (negb free) RIGHT n i <-> entered T at_ k RIGHT free n i.
  Proof.
    intros Hat free i. unfold ends_placed, entered. destruct (k =? n).
    - unfold all_used. split; intros H y Hy; apply (sides_used g W net ic n oc m a B So T R Cm _ RIGHT (Hat y Hy)); apply H; exact Hy.
    - unfold used_at, end_belt. destruct free; reflexivity.
  Qed.
  Lemma ends_out at_ k d : (forall y, 0 <= y < k -> inside A (at_ y)) -> forall free j, ends_placed g a T at_ k true (negb free) d m j <-> left_at T at_ k d free m j.
  Proof.
    intros Hat free j. unfold ends_placed, left_at. destruct (k =? m).
    - unfold all_used. reflexivity.
    - unfold used_at, end_belt. destruct free; cbn [negb]; [|reflexivity].
      assert (X : forall y, 0 <= y < k -> (evl a (output_dir (tile_at g (at_ y)) d) = false <-> ~ pushes (T (at_ y)) d)).
      { intros y Hy. rewrite <- (proj2 (sides_used g W net ic n oc m a B So T R Cm _ d (Hat y Hy))). change (vo (V (at_ y)) d) with (evl a (output_dir (tile_at g (at_ y)) d)).
        destruct (evl a (output_dir (tile_at g (at_ y)) d)); intuition congruence. }
      split; intros (Hj & H); (split; [exact Hj|]); intros y Hy; destruct (H y Hy) as [H1 H2]; (split; [exact H1|]); intros N; apply (X y Hy), H2, N.
  Qed.
  Lemma ends_asked top cs top' : grid_size g <= top -> get_input_output_colours (elements net) = Some ((ic, n), (oc, m)) -> ends_call o g net top = Some (cs, top') ->
    ((exists b, agree top a b /\ sat b cs = true) <->
     if o_90 o then turned_ends A T (o_use_ends o) n m
     else if o_180 o then returning_ends A T n m
     else if o_custom o then True
     else straight_ends A T (o_aligned o) (o_use_ends o) n m).
  Proof.
    intros Ht Ee E. unfold ends_call in E. destruct (o_90 o); [|destruct (o_180 o); [|destruct (o_custom o)]].
    - rewrite (C53_ends_90 g net (o_use_ends o) top cs top' a T ic n oc m W Ht Si R Ee E). unfold turned_ends. cbn [aw ah garea area_of].
      split; intros (i & j & H1 & H2); exists i, j; (split; [apply (ends_in _ _ (left_inside g W)); exact H1|apply (ends_out _ _ _ (bottom_inside g W)); exact H2]).
    - rewrite (C53_ends_180 g net top cs top' a T ic n oc m W Ht Si R Ee E). unfold returning_ends. cbn [aw ah garea area_of].
      split; intros (i & j & H1 & H2); exists i, j; (split; [apply (ends_in _ _ (left_inside g W) true); exact H1|apply (ends_out _ _ _ (left_inside g W) true); exact H2]).
    - unfold pure in E. cbn [obind] in E. apply Some_inj in E. injection E as <- <-. split; [intros _; exact Logic.I|]. intros _. exists a. split; [apply agree_refl|reflexivity].
    - rewrite (C53_ends g net (o_aligned o) (o_use_ends o) top cs top' a T ic n oc m W Ht Si R Ee E). unfold straight_ends. cbn [aw ah garea area_of].
      split; intros (i & j & H1 & H2 & H3); exists i, j; (split; [apply (ends_in _ _ (left_inside g W)); exact H1|]); (split; [apply (ends_out _ _ _ (right_inside g W)); exact H2|]);
        intros Al; specialize (H3 Al); destruct (m <=? n); intros Hlt; specialize (H3 Hlt); lia.
  Qed.

  (** The mirror images. *)
  Lemma takesb_ok t d : takesb t d = true <-> takes t d.
  Proof. destruct t as [| |i o'|e b|e hd|e k|x y]; try destruct b; cbn [takesb takes andb]; try (split; [discriminate|contradiction]); apply dir_eqb_iff. Qed.
  Lemma pushesb_ok t d : pushesb t d = true <-> pushes t d.
  Proof. destruct t as [| |i o'|e b|e hd|e k|x y]; try destruct b; cbn [pushesb pushes andb negb]; try (split; [discriminate|contradiction]); apply dir_eqb_iff. Qed.
  Lemma bits_in p d : inside A p -> evl a (input_dir (tile_at g p) d) = takesb (T p) d.
  Proof.
    intros Hp. apply eq_true_iff_eq. rewrite takesb_ok. apply (sides_used g W net ic n oc m a B So T R Cm p d Hp).
  Qed.
  Lemma bits_out p d : inside A p -> evl a (output_dir (tile_at g p) d) = pushesb (T p) d.
  Proof.
    intros Hp. apply eq_true_iff_eq. rewrite pushesb_ok. apply (sides_used g W net ic n oc m a B So T R Cm p d Hp).
  Qed.
  Lemma values_flat {X} (f : X -> list lit) l : values a (flat_map f l) = flat_map (fun x => values a (f x)) l.
  Proof. unfold values. induction l as [|x l IH]; [reflexivity|]. cbn [flat_map]. rewrite map_app, IH. reflexivity. Qed.
  Lemma flat_ext {X Y} (f k : X -> list Y) l : (forall x, In x l -> f x = k x) -> flat_map f l = flat_map k l.
  Proof. induction l as [|x l IH]; intros H; [reflexivity|]. cbn [flat_map]. rewrite (H x (or_introl eq_refl)), IH by (intros y Hy; apply H; right; exact Hy). reflexivity. Qed.
  Lemma bits_cell p : inside A p -> values a (symmetry_top (tile_at g p)) = cell_bits UP DOWN (T p) /\ values a (symmetry_bottom (tile_at g p)) = cell_bits DOWN UP (T p).
  Proof.
    intros Hp. rewrite P_Mirror.top_eq, P_Mirror.bottom_eq. unfold values. cbn [map].
    rewrite !(bits_in p) by exact Hp. rewrite !(bits_out p) by exact Hp.
    destruct (T_shows g a T R main_rules p Hp) as (_ & K1 & K2 & K3 & K4 & K5 & _). cbn [view_of vb ve vs vui vuo] in *. rewrite K1, K2, K3, K4, K5. destruct (T p) as [| |i o'|e b|e hd|e k|x y]; try destruct b; split; reflexivity.
  Qed.
  Lemma mirror_asked : 2 <= height (geo g) -> (lex_le (values a (P_Mirror.upper_half g)) (values a (P_Mirror.lower_half g)) = true <-> upper_first A T).
  Proof.
    intros Hh. unfold upper_first. cbn [aw ah garea area_of].
    assert (E1 : values a (P_Mirror.upper_half g) = flat_map (fun y => flat_map (fun x => cell_bits UP DOWN (T (x, y))) (map Z.of_nat (seq 0 (Z.to_nat (width (geo g)))))) (map Z.of_nat (seq 0 (Z.to_nat (Z.max 2 (height (geo g) / 2)))))).
    { unfold P_Mirror.upper_half. rewrite values_flat. apply flat_ext. intros y Hy. apply (P_Mirror.compared_in g y Hh) in Hy. unfold P_Mirror.upper_row. rewrite values_flat. apply flat_ext. intros x Hx. apply range_in in Hx.
      apply bits_cell. split; cbn; lia. }
    assert (E2 : values a (P_Mirror.lower_half g) = flat_map (fun y => flat_map (fun x => cell_bits DOWN UP (T (x, height (geo g) - 1 - y))) (map Z.of_nat (seq 0 (Z.to_nat (width (geo g)))))) (map Z.of_nat (seq 0 (Z.to_nat (Z.max 2 (height (geo g) / 2)))))).
    { unfold P_Mirror.lower_half. rewrite values_flat. apply flat_ext. intros y Hy. apply (P_Mirror.compared_in g y Hh) in Hy. unfold P_Mirror.lower_row. rewrite values_flat. apply flat_ext. intros x Hx. apply range_in in Hx.
      apply bits_cell. split; cbn; lia. }
    rewrite E1, E2. reflexivity.
  Qed.
End Solved.
