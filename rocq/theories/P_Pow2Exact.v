(** The layouts that belt_balancer_net_free_power_of_2.py finds, exactly. *)
From Coq Require Import String ZArith QArith List Bool Lia Permutation.
From Verif Require Import P_Network P_Network2 P_Benes P_Nonneg P_Similar T_Network.
From Verif Require Import Spec_Cnf Spec_Tile Spec_Layout Spec_Pattern Spec_Main M_Json M_Tile M_Util M_Card M_Network Spec_Network M_Template M_Grid M_Oracle M_Balancer M_Optimise M_NetFree M_Pow2 M_Main M_Partial
  Spec_Balancer Spec_Flow Spec_Interchange Spec_Pow2 P_Cnf P_Util P_Util3 P_Card P_Tile P_Layout P_List P_Template P_Walk P_Grid P_GridSound P_GridComplete P_Transport T_Grid T_Enumerate P_GridOk P_Gen P_Trace P_Uniq P_FlowWitness
  P_NetEnds P_NetShape P_Balancer T_Lossless P_NetFree P_Pow2 P_Pow2Flow P_Connect P_Main.
From Verif Require P_Lossless.
Import ListNotations.
Open Scope Z_scope.

(** ** The list of calls *)
Lemma length_option_main l partial : length_option l = main_length (fast_options l partial).
Proof. reflexivity. Qed.

Lemma with_partial_split partial r g cs top : with_partial partial r = Some (g, cs, top) ->
  exists cs0, r = Some (g, cs0, top) /\
    (forall G, partial = Some G -> exists c, set_nonempty_tiles g G = Some c) /\
    forall a, sat a cs = true <-> sat a cs0 = true /\ forall G, partial = Some G -> granted a (set_nonempty_tiles g G).
Proof.
  unfold with_partial. intros H. destruct r as [[[g0 cs0] top0]|]; [|discriminate]. cbn [obind] in H. destruct partial as [G|].
  - destruct (set_nonempty_tiles g0 G) as [c|] eqn:Ec; [|discriminate]. cbn [obind] in H. apply Some_inj in H. assert (g0 = g) by congruence. assert (top0 = top) by congruence. assert ((cs0 ++ c)%list = cs) by congruence. subst.
    exists cs0. split; [reflexivity|]. split; [intros G' [= <-]; eauto|]. intros a. rewrite sat_app_iff. split.
    + intros [H1 H2]. split; [exact H1|]. intros G' [= <-]. exists c. auto.
    + intros [H1 H2]. split; [exact H1|]. destruct (H2 G eq_refl) as (c' & E' & S'). congruence.
  - cbn [obind] in H. apply Some_inj in H. assert (g0 = g) by congruence. assert (top0 = top) by congruence. assert ((cs0 ++ [])%list = cs) by congruence. subst.
    exists cs0. split; [reflexivity|]. split; [discriminate|]. intros a. rewrite app_nil_r. split; [intros H1; split; [exact H1|discriminate]|tauto].
Qed.
(** The clauses of main that are not those of create_balancer. *)
Lemma generic_wishes l partial g a : (forall x, In x (wishes (fast_options l partial) g) -> granted a x) <->
  sat a (prevent_intersection g) = true /\ granted a (enforce_maximum_underground_length g) /\ granted a (expand_underground g 1 0 (Some (width (geo g) - 2)) None) /\
  sat a (apply_generic_optimisations g) = true /\ forall G, partial = Some G -> granted a (set_nonempty_tiles g G).
Proof.
  unfold apply_generic_optimisations. rewrite !sat_app_iff. split.
  - intros H.
    assert (K : forall x, In x (wishes (fast_options l partial) g) -> granted a x) by exact H.
    unfold wishes, wishes1, wishes2, wishes3, whenp in K. cbn [fast_options o_edge_belts o_glue o_fast o_expand o_mergeable o_patterns o_partial orb app] in K.
    assert (Q : forall c, In (Some c) [Some (prevent_intersection g); Some (glue_splitters g); Some (glue_partial_splitters g); expand_underground g 1 0 (Some (width (geo g) - 2)) None; Some (prevent_mergeable_underground g);
      Some (prevent_belt_hooks g); Some (prevent_semicircles g); Some (prevent_small_loops g); Some (prevent_underground_hook g); Some (prevent_zigzags g); Some (prevent_belt_parallel_splitter g);
      enforce_maximum_underground_length g; Some (prevent_empty_along_underground g)] -> sat a c = true).
    { intros c Hc. apply granted_some, K. change (In (Some c) ([Some (prevent_intersection g); Some (glue_splitters g); Some (glue_partial_splitters g); expand_underground g 1 0 (Some (width (geo g) - 2)) None; Some (prevent_mergeable_underground g);
      Some (prevent_belt_hooks g); Some (prevent_semicircles g); Some (prevent_small_loops g); Some (prevent_underground_hook g); Some (prevent_zigzags g); Some (prevent_belt_parallel_splitter g);
      enforce_maximum_underground_length g; Some (prevent_empty_along_underground g)] ++ match partial with Some tiles => [set_nonempty_tiles g tiles] | None => [] end)). apply in_or_app. left. exact Hc. }
    split; [apply Q; cbn; tauto|]. split; [apply K; cbn; tauto|]. split; [apply K; cbn; tauto|]. split.
    + repeat split; apply Q; cbn; tauto.
    + intros G ->. apply K. cbn. tauto.
  - intros (H1 & H2 & H3 & (P1 & P2 & P3 & P4 & P5 & P6 & P7 & P8 & P9 & P10) & H5) x Hx.
    unfold wishes, wishes1, wishes2, wishes3, whenp in Hx. cbn [fast_options o_edge_belts o_glue o_fast o_expand o_mergeable o_patterns o_partial orb app] in Hx.
    repeat (destruct Hx as [<-|Hx]; [first [assumption|apply granted_some; assumption]|]).
    destruct partial as [G|]; [|destruct Hx]. destruct Hx as [<-|[]]. apply H5. reflexivity.
Qed.
Lemma pow2_split E w h l partial g cs top : pow2_main E w h l partial = Some (g, cs, top) ->
  0 < w /\ (exists j, 0 < j /\ h = 2 ^ j) /\ (l = -1 \/ 1 <= l) /\ g = pow2_grid w h (length_option l) /\
  (forall x, In x (wishes (fast_options l partial) g) -> exists c, x = Some c) /\
  exists created top0, create_pow2 E w h (length_option l) = Some (g, created, top0) /\
    forall a, sat a cs = true <-> sat a created = true /\ sat a (block_belts_through_edges g (EPair false true)) = true /\
      forall x, In x (wishes (fast_options l partial) g) -> granted a x.
Proof.
  unfold pow2_main. intros H. destruct (with_partial_split _ _ _ _ _ H) as (cs0 & Ep & Pt & Sp). clear H. unfold power_of_two in Ep.
  destruct (create_pow2 E w h (length_option l)) as [[[g' created] t0]|] eqn:Ec; [|discriminate]. cbn [obind] in Ep.
  assert (G : g' = pow2_grid w h (length_option l) /\ 0 < w /\ 0 < h /\ is_power_of_two h = true).
  { unfold create_pow2 in Ec. destruct (Z.ltb_spec 0 w), (Z.ltb_spec 0 h), (is_power_of_two h); cbn [negb andb] in Ec; try discriminate.
    destruct (init_clauses _) as [init|]; [|discriminate]. cbn [obind] in Ec. destruct (seq_gen _ _) as [[c1 t1]|]; [|discriminate]. cbn [obind] in Ec. apply Some_inj in Ec. split; [congruence|auto]. }
  destruct G as (-> & Hw & Hh & Hp). apply is_power_of_two_iff in Hp; [|exact Hh]. destruct Hp as (j & Hj & Ej).
  assert (J : 0 < j).
  { destruct (Z.eq_dec j 0) as [->|]; [|lia]. change (2 ^ 0) with 1 in Ej. subst h. rewrite one_row_none in Ec. discriminate. }
  rewrite !seq_gen_cons in Ep. set (g0 := pow2_grid w h (length_option l)) in *. cbn [pure obind] in Ep.
  destruct (enforce_maximum_underground_length g0) as [lc|] eqn:El; [|discriminate]. cbn [pure obind] in Ep.
  destruct (expand_underground g0 1 0 (Some (width (geo g0) - 2)) None) as [xc|] eqn:Ex; [|discriminate]. cbn [pure obind seq_gen] in Ep.
  apply Some_inj in Ep. assert (g0 = g) by congruence. subst g. assert (t0 = top) by congruence. subst t0.
  assert (cs0 = (created ++ block_belts_through_edges g0 (EPair false true) ++ prevent_intersection g0 ++ lc ++ xc ++ apply_generic_optimisations g0 ++ [])%list) by congruence.
  split; [exact Hw|]. split; [eauto|]. split; [|split; [reflexivity|split]].
  - unfold enforce_maximum_underground_length in El. assert (Gl : glen g0 = length_option l) by reflexivity. rewrite Gl in El. unfold length_option in El. destruct (Z.eqb_spec l (-1)); [left; assumption|]. destruct (Z.leb_spec 1 l); [lia|discriminate].
  - intros x Hx. unfold wishes, wishes1, wishes2, wishes3, whenp in Hx. cbn [fast_options o_edge_belts o_glue o_fast o_expand o_mergeable o_patterns o_partial orb app] in Hx.
    repeat (destruct Hx as [<-|Hx]; [first [eexists; reflexivity|eauto]|]). destruct partial as [G|]; [|destruct Hx]. destruct Hx as [<-|[]]. apply Pt. reflexivity.
  - exists created, top. split; [reflexivity|]. intros a. rewrite Sp. subst cs0. rewrite !sat_app_iff, generic_wishes.
    assert (X1 : granted a (enforce_maximum_underground_length g0) <-> sat a lc = true) by (rewrite El; apply granted_some).
    assert (X2 : granted a (expand_underground g0 1 0 (Some (width (geo g0) - 2)) None) <-> sat a xc = true) by (rewrite Ex; apply granted_some).
    rewrite X1, X2. change (sat a []) with true. tauto.
Qed.

(** ** Sides, when all splitters are connected on both sides *)
Section Full.
  Variable g : grid.
  Hypothesis W : wf_grid g.
  Variable a : assignment.
  Hypothesis So : solves g (EBool true) a.
  Variable T : layout.
  Hypothesis R : reads g a T.
  Notation A := (garea g).
  Notation V p := (view_of a (tile_at g p)).
  Hypothesis Full : forall p d b, inside A p -> T p = Splitter d b -> vi (V p) d = true /\ vo (V p) d = true.
  Lemma full_sides p d : inside A p -> (vi (V p) d = true <-> takes (T p) d) /\ (vo (V p) d = true <-> pushes (T p) d).
  Proof.
    intros Hp. pose proof (T_shows g a T R (proj1 (solves_init_rules g a W) (proj1 So)) p Hp) as S. destruct (T p) as [| |i o|e b|e h|e k|x y] eqn:E.
    - destruct S as ((_ & I & O) & _). rewrite I, O. cbn. intuition discriminate.
    - destruct S as (S & _). contradiction.
    - destruct S as ((_ & I & O & _) & _). cbn [takes pushes]. rewrite I, O. intuition congruence.
    - destruct b; destruct S as ((_ & I & O) & _); cbn [takes pushes]; rewrite I, O; intuition (congruence || discriminate).
    - destruct (Full p e h Hp E) as [F1 F2]. destruct S as ((_ & _ & I & O & _) & _). cbn [takes pushes]. split; (split; [intros X; first [symmetry; apply I; exact X|symmetry; apply O; exact X|apply I; exact X|apply O; exact X]|intros <-; assumption]).
    - destruct S as (S & _). contradiction.
    - destruct S as (S & _). contradiction.
  Qed.
  Lemma full_gets p d : inside A p -> (vi (V p) d = true <-> gets A T p d).
  Proof.
    intros Hp. rewrite (proj1 (full_sides p d Hp)). unfold gets. split; [|tauto]. intros H. split; [exact H|]. intros q Hq.
    assert (Iq : inside A q) by (eapply ahead_inside; exact Hq). apply (proj2 (full_sides q d Iq)). pose proof (neighbour_back _ _ _ _ (WA g W) Hp Hq) as Bk. rewrite opposite_opposite in Bk.
    rewrite (P_Realise.link g W a So q d p Iq Bk). apply (proj1 (full_sides p d Hp)). exact H.
  Qed.
  Lemma full_gives p d : inside A p -> (vo (V p) d = true <-> gives A T p d).
  Proof.
    intros Hp. rewrite (proj2 (full_sides p d Hp)). unfold gives. split; [|tauto]. intros H. split; [exact H|]. intros q Hq.
    assert (Iq : inside A q) by (eapply ahead_inside; exact Hq). apply (proj1 (full_sides q d Iq)).
    rewrite <- (P_Realise.link g W a So p d q Hp Hq). apply (proj2 (full_sides p d Hp)). exact H.
  Qed.
End Full.

(** ** Sets and numbers *)
Fixpoint pack (n : nat) (f : Z -> bool) : Z := match n with O => 0 | S m => 2 * pack m (fun c => f (c + 1)) + Z.b2z (f 0) end.
Lemma pack_testbit n : forall f c, 0 <= c -> Z.testbit (pack n f) c = (c <? Z.of_nat n) && f c.
Proof.
  induction n as [|n IH]; intros f c Hc; cbn [pack].
  - rewrite Z.bits_0. destruct (Z.ltb_spec c (Z.of_nat 0)); [lia|reflexivity].
  - destruct (Z.eq_dec c 0) as [->|N].
    + rewrite Z.testbit_0_r. destruct (Z.ltb_spec 0 (Z.of_nat (S n))); [reflexivity|lia].
    + replace c with (Z.succ (c - 1)) at 1 by lia. rewrite Z.testbit_succ_r by lia. rewrite IH by lia. replace (c - 1 + 1) with c by lia.
      destruct (Z.ltb_spec (c - 1) (Z.of_nat n)), (Z.ltb_spec c (Z.of_nat (S n))); try reflexivity; lia.
Qed.
Lemma pack_range n : forall f, 0 <= pack n f < 2 ^ Z.of_nat n.
Proof.
  induction n as [|n IH]; intros f; cbn [pack]; [cbn; lia|]. rewrite Nat2Z.inj_succ, Z.pow_succ_r by lia. specialize (IH (fun c => f (c + 1))). destruct (f 0); cbn [Z.b2z]; lia.
Qed.
Lemma pack_ext n f k : (forall c, 0 <= c < Z.of_nat n -> f c = k c) -> pack n f = pack n k.
Proof.
  intros H. apply Z.bits_inj'. intros c Hc. rewrite !pack_testbit by exact Hc. destruct (Z.ltb_spec c (Z.of_nat n)); [|reflexivity]. cbn [andb]. apply H. lia.
Qed.
Lemma members_zsum h X n : Z.of_nat n = h / 2 -> members h X = zsum (map (fun c => Z.b2z (X (Z.of_nat c))) (seq 0 n)).
Proof.
  intros En. unfold members. rewrite <- En, Nat2Z.id. clear En h. induction (seq 0 n) as [|c l IH]; [reflexivity|]. cbn [map filter].
  change (zsum (Z.b2z (X (Z.of_nat c)) :: map (fun c => Z.b2z (X (Z.of_nat c))) l)) with (Z.b2z (X (Z.of_nat c)) + zsum (map (fun c => Z.b2z (X (Z.of_nat c))) l)). rewrite <- IH.
  destruct (X (Z.of_nat c)); cbn [length Z.b2z]; lia.
Qed.
Lemma members_count a ls X h : Z.of_nat (List.length ls) = h / 2 -> (forall c, 0 <= c < h / 2 -> X c = Z.testbit (value a ls) c) -> count a ls = members h X.
Proof.
  intros El H. rewrite (members_zsum h X _ El), (count_bits a ls _ eq_refl). apply zsum_ext. intros c Hc. apply in_seq in Hc. f_equal. rewrite H by lia. symmetry. apply value_testbit.
Qed.
Lemma value_ones a ls : count a ls = 1 -> forall i j, (i < List.length ls)%nat -> (j < List.length ls)%nat -> bit_at a ls i = true -> bit_at a ls j = true -> i = j.
Proof.
  intros C i j Hi Hj Bi Bj. rewrite (count_bits a ls _ eq_refl) in C.
  destruct (Nat.eq_dec i j) as [|N]; [assumption|exfalso].
  assert (P : forall l, NoDup l -> In i l -> In j l -> 2 <= zsum (map (fun c => Z.b2z (bit_at a ls c)) l)).
  { assert (Nn : forall l, 0 <= zsum (map (fun c => Z.b2z (bit_at a ls c)) l)) by (induction l as [|c l IH]; [cbn; lia|]; unfold zsum in *; cbn [map fold_right]; destruct (bit_at a ls c); cbn [Z.b2z]; lia).
    assert (P1 : forall x l, bit_at a ls x = true -> In x l -> 1 <= zsum (map (fun c => Z.b2z (bit_at a ls c)) l)).
    { intros x l Bx. induction l as [|c l IH]; [intros []|]. unfold zsum in *. cbn [map fold_right]. intros [->|H]; [rewrite Bx; specialize (Nn l); cbn [Z.b2z]; lia|]. specialize (IH H). destruct (bit_at a ls c); cbn [Z.b2z]; lia. }
    induction l as [|c l IH]; [intros _ []|]. intros Nd Hi' Hj'. inversion Nd as [|? ? Nc Nd']; subst. unfold zsum in *. cbn [map fold_right]. destruct Hi' as [->|Hi'], Hj' as [->|Hj']; [congruence| | |].
    - rewrite Bi. pose proof (P1 j l Bj Hj'). cbn [Z.b2z]. lia.
    - rewrite Bj. pose proof (P1 i l Bi Hi'). cbn [Z.b2z]. lia.
    - specialize (IH Nd' Hi' Hj'). destruct (bit_at a ls c); cbn [Z.b2z]; lia. }
  specialize (P (seq 0 (List.length ls)) (seq_NoDup _ _)). rewrite !in_seq in P. specialize (P ltac:(lia) ltac:(lia)). lia.
Qed.

(** ** The numbers of splitters *)
Section Numbers.
  Variables (w h : Z) (ul : option Z).
  Notation g := (pow2_grid w h ul).
  Hypothesis W : wf_grid g.
  Notation A := (garea g).
  Notation k := (levels h).
  Variables (T : layout) (L : Z) (a : assignment).
  Hypothesis VL : valid_layout A T L.
  Lemma odd_half_inj s s' : is_splitter_at A T s -> is_splitter_at A T s' -> odd_half s = odd_half s' -> s = s'.
  Proof.
    intros H H' E.
    assert (X : forall s, (odd_half s = fst s \/ odd_half s = snd s)) by (intros t; unfold odd_half; destruct (is_odd (fst t)); auto).
    pose proof H as (_ & _ & d & T1 & T2 & N1). pose proof H' as (_ & _ & d' & T1' & T2' & N1'). pose proof H as (P1 & P2 & _). pose proof H' as (P1' & P2' & _).
    destruct s as [s1 s2], s' as [r1 r2]. cbn [fst snd] in *. destruct (X (s1, s2)) as [F1|F1], (X (r1, r2)) as [F2|F2]; rewrite F1, F2 in E; cbn [fst snd] in E; subst; try congruence.
    assert (d = d') by congruence. subst d'. pose proof (neighbour_back _ _ _ _ (WA g W) P1 N1) as B1. pose proof (neighbour_back _ _ _ _ (WA g W) P1' N1') as B2. f_equal. apply Some_inj. exact (eq_trans (eq_sym B1) B2).
  Qed.
  Lemma checker_count (M : pos -> Z) i sp :
    (forall p, inside A p -> (evl a (nth_primary g k i p) = true <-> is_splitter_tile (T p) /\ M p = 2 ^ Z.of_nat i)) ->
    (forall s, is_splitter_at A T s -> M (fst s) = M (snd s)) ->
    NoDup sp -> (forall s, In s sp <-> is_splitter_at A T s /\ M (fst s) = 2 ^ Z.of_nat i) ->
    count a (map (nth_primary g k i) (checkerboard g)) = Z.of_nat (List.length sp).
  Proof.
    intros PI Ms Nd Hs. rewrite (P_Lossless.count_listed a (nth_primary g k i) _ (map odd_half sp)); [rewrite map_length; reflexivity|apply checkerboard_NoDup| |].
    - apply NoDup_map_on; [exact Nd|]. intros s s' H H'. apply Hs in H, H'. apply odd_half_inj; [apply H|apply H'].
    - intros p. rewrite in_map_iff. rewrite (checkerboard_in w h ul p). change (pg w h ul) with g. split.
      + intros (s & <- & H). apply Hs in H. destruct H as [H Ei]. pose proof H as (P1 & P2 & d & T1 & T2 & _). assert (Ip : inside A (odd_half s)) by (unfold odd_half; destruct (is_odd (fst s)); assumption).
        split; [split; [exact Ip|apply Z.eqb_eq, (odd_half_odd w h ul T); exact H]|]. apply (PI _ Ip). pose proof (Ms s H) as Es. unfold odd_half. destruct (is_odd (fst s)); [rewrite T1|rewrite T2]; split; try exact Logic.I; congruence.
      + intros [[Ip Op] Vs]. apply (PI _ Ip) in Vs. destruct Vs as [Sp Ei]. destruct (T p) as [| | | |d b| |] eqn:Tp; try contradiction.
        destruct (splitter_halves A T L (WA g W) VL p d b Ip Tp) as (s & Hin & Eh). apply (splitter_list_at A T L VL) in Hin. exists s. split.
        * symmetry. apply (odd_half_only w h ul T); [exact Hin|destruct b; auto|]. apply Z.eqb_eq. exact Op.
        * apply Hs. split; [exact Hin|]. pose proof (Ms s Hin). destruct b; congruence.
  Qed.
End Numbers.

(** ** Solutions *)
Lemma bit_true a ls i : (i < List.length ls)%nat -> bit_at a ls i = evl a (nth i ls 0).
Proof. intros H. unfold bit_at, values. rewrite (nth_indep (map (evl a) ls) false (evl a 0)) by (rewrite map_length; exact H). apply map_nth. Qed.
Lemma pow_inj i j : 2 ^ Z.of_nat i = 2 ^ Z.of_nat j -> i = j.
Proof. intros H. apply Z.pow_inj_r in H; lia. Qed.
Lemma splitter_list_NoDup A T L : wf_area A -> valid_layout A T L -> NoDup (splitter_list A T).
Proof.
  intros Wa V. unfold splitter_list. apply NoDup_flat_map; [apply iterate_tiles_NoDup| |].
  - intros p _. destruct (T p) as [| | | |d [|]| |]; try constructor. destruct (neighbour A p (anticlockwise d)); repeat constructor. intros [].
  - intros p q s _ _ H1 H2.
    assert (X : forall r, In s (match T r with Splitter d true => match neighbour A r (anticlockwise d) with Some q => [(r, q)] | None => [] end | _ => [] end) -> fst s = r).
    { intros r H. destruct (T r) as [| | | |d [|]| |]; try contradiction. destruct (neighbour A r (anticlockwise d)); [|contradiction]. destruct H as [<-|[]]. reflexivity. }
    rewrite <- (X p H1). apply X. exact H2.
Qed.
Section Sound.
  Variables (w h : Z) (ul : option Z) (a : assignment).
  Hypothesis PF : pow2_facts w h ul a.
  Variable T : layout.
  Notation g := (pow2_grid w h ul).
  Hypothesis R : reads g a T.
  Notation k := (levels h).
  Notation A := (garea g).
  Notation V p := (view_of a (tile_at g p)).
  Notation hue p := (colour (tile_at g p)).
  Notation ML := (max_hidden g).
  Definition carries (p : pos) (c : Z) : bool := Z.testbit (value a (hue p)) c.
  Let Hw : 0 < w := pf_w _ _ _ _ PF.
  Let Hh : 0 < h := proj1 (p2_h _ _ _ _ PF T R).
  Let W : wf_grid g := pow2_wf w h ul Hw Hh (pf_ul _ _ _ _ PF).
  Let PR : pow2_rules w h ul a := pf_rules _ _ _ _ PF.
  Let So : solves g (EBool true) a := p2_solves w h ul a PF.
  Let B1 : Z.of_nat (colour_bits g) = h / 2 := proj1 (p2_bits w h ul a PF T R).
  Lemma carries_bit p c : 0 <= c -> carries p c = bit_at a (hue p) (Z.to_nat c).
  Proof. intros Hc. unfold carries. rewrite <- value_testbit, Z2Nat.id by exact Hc. reflexivity. Qed.
  Lemma carries_count p : count a (hue p) = members h (carries p).
  Proof. apply members_count; [rewrite (hue_length w h ul); exact B1|reflexivity]. Qed.
  Lemma p2_vs p : inside A p -> (vs (V p) = true <-> is_splitter_tile (T p)).
  Proof.
    intros Hp. pose proof (seen g W a (proj1 So) T R p Hp) as (_ & _ & _ & Ss & _). rewrite Ss. destruct (T p); cbn [is_splitter_tile]; intuition (congruence || discriminate).
  Qed.
  Lemma k_log i : 0 <= i < Z.log2 h - 2 <-> 0 <= i /\ (Z.to_nat i < k)%nat.
  Proof. unfold levels. lia. Qed.
  Lemma primary_means p i : inside A p -> (i < k)%nat ->
    (evl a (nth_primary g k i p) = true <-> is_splitter_tile (T p) /\ members h (carries p) = 2 ^ Z.of_nat i).
  Proof.
    intros Hp Hi. destruct (pr_level _ _ _ _ PR p Hp) as (_ & H2 & H3 & H4). destruct (pr_join _ _ _ _ PR p Hp) as [Sz _]. change (pg w h ul) with g in *.
    destruct (level_length w h ul p) as [Ll Lp]. change (pg w h ul) with g in *. unfold size_rule in Sz. change (pg w h ul) with g in Sz.
    rewrite <- (p2_vs p Hp), <- carries_count. unfold nth_primary. rewrite <- bit_true by lia. destruct (vs (V p)) eqn:Ev.
    - assert (Eb : bit_at a (level_primary g k p) i = bit_at a (level g k p) i) by (unfold bit_at; rewrite (H4 eq_refl); reflexivity). rewrite Eb. split.
      + intros X. split; [reflexivity|]. apply Sz; assumption.
      + intros [_ X]. destruct (hot_level a _ (H2 (or_intror eq_refl))) as (j & Hj & Ej). rewrite Ll in Hj. pose proof (Sz j Hj Ej) as Y. assert (j = i) by (apply pow_inj; congruence). subst j. exact Ej.
    - split; [|intuition discriminate]. intros X. exfalso. destruct (H3 eq_refl) as [_ Z0]. assert (P : 0 < count a (level_primary g k p)); [|lia].
      apply count_pos_In. rewrite bit_true in X by lia. eexists. split; [apply nth_In|exact X]. lia.
  Qed.
  Theorem sound_inner : inner_part w h ML T.
  Proof.
    constructor.
    - exact (p2_valid w h ul a PF T R).
    - exact (p2_left w h ul a PF T R).
    - exact (p2_right w h ul a PF T R).
    - exact (p2_inlets w h ul a PF T R).
    - exact (p2_outlets w h ul a PF T R).
    - intros p d b Hp Tp. destruct (p2_full w h ul a PF T R p d b Hp Tp) as [I O]. destruct (p2_border w h ul a PF T R p d b Hp Tp) as [N1 N2].
      pose proof (full_gets g W a So T R (p2_full w h ul a PF T R) p d Hp) as G1. pose proof (full_gives g W a So T R (p2_full w h ul a PF T R) p d Hp) as G2. apply G1 in I. apply G2 in O. split.
      + destruct (neighbour A p d) as [q|] eqn:Eq; [|contradiction]. exists q. split; [exact Eq|]. apply (proj2 O q Eq).
      + destruct (neighbour A p (opposite d)) as [q|] eqn:Eq; [|contradiction]. exists q. split; [exact Eq|]. apply (proj2 I q Eq).
  Qed.
  Theorem sound_grouped : grouped w h ML T carries.
  Proof.
    constructor; change (Spec_Interchange.rectangle w h) with A.
    - intros p q c C Hc. rewrite !carries_bit by lia. apply (p2_carried w h ul a PF T R p q C).
    - intros y c Hy Hc. rewrite carries_bit by lia. rewrite (p2_source w h ul a PF y _ Hy), Z2Nat.id by lia. reflexivity.
    - intros y c Hy Hc. rewrite !carries_bit by lia. apply (p2_pair w h ul a PF); [exact Hy|lia].
    - intros s d p q c Hs Td Np Nq Hc. destruct (p2_splitter w h ul a PF T R s Hs) as (d' & p10 & p11 & i & T1 & T2 & _ & _ & _ & _ & N1 & N2 & _ & _ & _ & _ & _ & _ & _ & J).
      assert (d' = d) by congruence. subst d'. assert (p10 = p) by congruence. assert (p11 = q) by congruence. subst. rewrite !carries_bit by lia. apply J. lia.
    - intros s Hs. destruct (p2_splitter w h ul a PF T R s Hs) as (d' & p10 & p11 & i & T1 & T2 & _ & _ & _ & _ & N1 & N2 & Hi & _ & _ & C1 & C2 & _).
      exists (Z.of_nat i). rewrite <- !carries_count. split; [apply k_log; rewrite Nat2Z.id; lia|]. auto.
    - intros i Hi. apply k_log in Hi. destruct Hi as [H0 Hi]. pose proof (p2_valid w h ul a PF T R) as VL.
      exists (filter (fun s => members h (carries (fst s)) =? 2 ^ i) (splitter_list A T)).
      assert (Nd : NoDup (filter (fun s => members h (carries (fst s)) =? 2 ^ i) (splitter_list A T))) by (apply NoDup_filter; apply (splitter_list_NoDup A T ML (WA g W) VL)).
      assert (Hin : forall s, In s (filter (fun s => members h (carries (fst s)) =? 2 ^ i) (splitter_list A T)) <-> is_splitter_at A T s /\ members h (carries (fst s)) = 2 ^ i).
      { intros s. rewrite filter_In, Z.eqb_eq, (splitter_list_at A T ML VL). reflexivity. }
      split; [exact Nd|]. split; [exact Hin|]. rewrite <- (pr_checker _ _ _ _ PR (Z.to_nat i) Hi). change (pg w h ul) with g. symmetry.
      apply (checker_count w h ul W T ML a VL (fun p => members h (carries p)) (Z.to_nat i)).
      + intros p Hp. apply primary_means; assumption.
      + intros s Hs. destruct (p2_splitter w h ul a PF T R s Hs) as (d' & p10 & p11 & j & T1 & T2 & _ & _ & _ & _ & N1 & N2 & _ & _ & _ & C1 & C2 & _). rewrite <- !carries_count. congruence.
      + exact Nd.
      + rewrite Z2Nat.id by exact H0. exact Hin.
  Qed.
End Sound.

(** ** Layouts *)
Lemma count_zero a ls : (forall l, In l ls -> evl a l = false) -> count a ls = 0.
Proof. induction ls as [|l ls IH]; intros H; [reflexivity|]. rewrite count_cons, (H l (or_introl eq_refl)), IH by (intros; apply H; right; assumption). reflexivity. Qed.
Lemma count_hot a (ls : list lit) n i : List.length ls = n -> (i < n)%nat -> (forall j, (j < n)%nat -> bit_at a ls j = (j =? i)%nat) -> count a ls = 1.
Proof.
  intros El Hi H. rewrite (count_bits a ls n El). rewrite (zsum_ext _ (fun j => if Z.of_nat i =? Z.of_nat j then 1 else 0)).
  - rewrite zsum_pick by lia. destruct (Z.ltb_spec (Z.of_nat i) (Z.of_nat n)); lia.
  - intros j Hj. apply in_seq in Hj. rewrite H by lia. destruct (Nat.eqb_spec j i), (Z.eqb_spec (Z.of_nat i) (Z.of_nat j)); try reflexivity; lia.
Qed.
Section Complete.
  Variables (w h : Z) (ul : option Z).
  Hypothesis Hw : 0 < w.
  Hypothesis Hj : exists j, 0 < j /\ h = 2 ^ j.
  Hypothesis Hul : match ul with Some l => 1 <= l | None => True end.
  Notation g := (pow2_grid w h ul).
  Notation k := (levels h).
  Notation A := (garea g).
  Notation hue p := (colour (tile_at g p)).
  Notation ML := (max_hidden g).
  Variables (T : layout) (S : pos -> Z -> bool).
  Hypothesis Inn : inner_part w h ML T.
  Hypothesis Gr : grouped w h ML T S.
  Lemma c_h : 0 < h /\ h mod 2 = 0.
  Proof. destruct Hj as (j & H & E). split; rewrite E; [apply Z.pow_pos_nonneg; lia|apply pow2_even; exact H]. Qed.
  Let Hh : 0 < h := proj1 c_h.
  Let He : h mod 2 = 0 := proj2 c_h.
  Lemma c_ul : match ul with Some l => 0 <= l | None => True end.
  Proof. destruct ul; [lia|exact Logic.I]. Qed.
  Let W : wf_grid g := pow2_wf w h ul Hw Hh c_ul.
  Let B1 : Z.of_nat (colour_bits g) = h / 2 := pow2_bits w h ul Hh He.
  Let VL : valid_layout A T ML := in_valid _ _ _ _ Inn.
  Notation bits := (colour_bits g).
  Definition packed (p : pos) : Z := pack bits (S p).
  Definition splits (t : tile) : bool := match t with Splitter _ _ => true | _ => false end.
  Definition at_level (p : pos) (i : Z) : bool := splits (T p) && (members h (S p) =? 2 ^ i).
  Definition extra_values (v : Z) : bool :=
    let o := var_offset g v - 20 - 3 * Z.of_nat bits in at_level (var_owner g v) (if o <? Z.of_nat k then o else o - Z.of_nat k).

  Variable a : assignment.
  Hypothesis So : solves g (EBool true) a.
  Hypothesis Cl : solves_colouring g a.
  Hypothesis R : reads g a T.
  Hypothesis Hue : forall p, inside A p -> value a (hue p) = packed p.
  Hypothesis Ext : forall p v, inside A p -> extras_base g p < v <= tile_base g p + tile_size g -> a v = extra_values v.
  Notation V p := (view_of a (tile_at g p)).
  Hypothesis Con : forall p d, inside A p -> (vi (V p) d = true <-> gets A T p d) /\ (vo (V p) d = true <-> gives A T p d).

  Lemma hue_bit p c : inside A p -> (c < bits)%nat -> bit_at a (hue p) c = S p (Z.of_nat c).
  Proof.
    intros Hp Hc. rewrite <- value_testbit, (Hue p Hp). unfold packed. rewrite pack_testbit by lia. destruct (Z.ltb_spec (Z.of_nat c) (Z.of_nat bits)); [reflexivity|lia].
  Qed.
  Lemma hue_count p : inside A p -> count a (hue p) = members h (S p).
  Proof.
    intros Hp. apply members_count; [rewrite (hue_length w h ul); exact B1|]. intros c Hc. rewrite (Hue p Hp). unfold packed. rewrite pack_testbit by lia.
    destruct (Z.ltb_spec c (Z.of_nat bits)); [reflexivity|lia].
  Qed.
  Lemma extra_at p o : inside A p -> 20 + 3 * Z.of_nat bits <= o < tile_size g -> a (tile_base g p + 1 + o) = extra_values (tile_base g p + 1 + o).
  Proof. intros Hp Ho. apply (Ext p); [exact Hp|]. unfold extras_base. lia. Qed.
  Lemma level_bit p i : inside A p -> (i < k)%nat -> bit_at a (level g k p) i = at_level p (Z.of_nat i) /\ bit_at a (level_primary g k p) i = at_level p (Z.of_nat i).
  Proof.
    intros Hp Hi. pose proof (pow2_size w h ul) as Sz. change (pg w h ul) with g in Sz. destruct (level_length w h ul p) as [Ll Lp]. change (pg w h ul) with g in *.
    pose proof (tile_base_nonneg g p W Hp) as Tb. assert (Gt : gtop g = 0) by reflexivity.
    assert (X : forall b, nth i (fresh b k) 0 = b + 1 + Z.of_nat i).
    { intros b. eapply (P_Ends.nth_fresh b k i). apply nth_error_nth'. rewrite fresh_length. exact Hi. }
    assert (Y : forall v, 0 < v -> evl a v = a v) by (intros v Hv; unfold evl; destruct (Z.ltb_spec 0 v); [reflexivity|lia]).
    rewrite !bit_true by lia. unfold level, level_primary. rewrite !X. unfold extras_base. rewrite !Y by lia. split.
    - replace (tile_base g p + 20 + 3 * Z.of_nat bits + 1 + Z.of_nat i) with (tile_base g p + 1 + (20 + 3 * Z.of_nat bits + Z.of_nat i)) by lia.
      rewrite extra_at by (try exact Hp; lia). unfold extra_values. destruct (owner_offset g p (20 + 3 * Z.of_nat bits + Z.of_nat i) W Hp ltac:(lia)) as (_ & O1 & O2). rewrite O1, O2.
      replace (20 + 3 * Z.of_nat bits + Z.of_nat i - 20 - 3 * Z.of_nat bits) with (Z.of_nat i) by lia. destruct (Z.ltb_spec (Z.of_nat i) (Z.of_nat k)); [reflexivity|lia].
    - replace (tile_base g p + 20 + 3 * Z.of_nat bits + Z.of_nat k + 1 + Z.of_nat i) with (tile_base g p + 1 + (20 + 3 * Z.of_nat bits + Z.of_nat k + Z.of_nat i)) by lia.
      rewrite extra_at by (try exact Hp; lia). unfold extra_values. destruct (owner_offset g p (20 + 3 * Z.of_nat bits + Z.of_nat k + Z.of_nat i) W Hp ltac:(lia)) as (_ & O1 & O2). rewrite O1, O2.
      replace (20 + 3 * Z.of_nat bits + Z.of_nat k + Z.of_nat i - 20 - 3 * Z.of_nat bits) with (Z.of_nat k + Z.of_nat i) by lia. destruct (Z.ltb_spec (Z.of_nat k + Z.of_nat i) (Z.of_nat k)); [lia|]. f_equal. lia.
  Qed.
  Lemma levels_equal p : inside A p -> values a (level g k p) = values a (level_primary g k p).
  Proof.
    intros Hp. destruct (level_length w h ul p) as [Ll Lp]. change (pg w h ul) with g in *. apply (nth_ext _ _ false false); [unfold values; rewrite !map_length; congruence|].
    intros i Hi. unfold values in Hi. rewrite map_length, Ll in Hi. change (bit_at a (level g k p) i = bit_at a (level_primary g k p) i). destruct (level_bit p i Hp Hi) as [-> ->]. reflexivity.
  Qed.
  Lemma connected_splitter p d b : inside A p -> T p = Splitter d b -> vi (V p) d = true /\ vo (V p) d = true.
  Proof.
    intros Hp Tp. destruct (in_connected _ _ _ _ Inn p d b Hp Tp) as [(q & Eq & Tq) (r & Er & Tr)]. destruct (Con p d Hp) as [C1 C2]. split.
    - apply C1. split; [rewrite Tp; reflexivity|]. intros r' Er'. assert (r' = r) by (apply Some_inj; exact (eq_trans (eq_sym Er') Er)). subst r'. exact Tr.
    - apply C2. split; [rewrite Tp; reflexivity|]. intros q' Eq'. assert (q' = q) by (apply Some_inj; exact (eq_trans (eq_sym Eq') Eq)). subst q'. exact Tq.
  Qed.
  Lemma splitter_of p : inside A p -> vs (V p) = true -> exists d b, T p = Splitter d b.
  Proof.
    intros Hp Vs. pose proof (seen g W a (proj1 So) T R p Hp) as (_ & _ & _ & Ss & _). rewrite Ss in Vs. destruct (T p); try discriminate. eauto.
  Qed.
  Lemma head_splits p : inside A p -> vh (V p) = true -> exists d, T p = Splitter d true.
  Proof.
    intros Hp Vh. pose proof (seen g W a (proj1 So) T R p Hp) as (_ & _ & _ & _ & _ & _ & Sh). rewrite Vh in Sh. destruct (T p) as [| |i o|d b|d b|d c|x y]; try discriminate. exists d. rewrite <- Sh. reflexivity.
  Qed.
  Lemma half_sizes p d b : inside A p -> T p = Splitter d b -> exists i, (i < k)%nat /\ members h (S p) = 2 ^ Z.of_nat i.
  Proof.
    intros Hp Tp. destruct (splitter_halves A T ML (WA g W) VL p d b Hp Tp) as (s & Hin & Eh). apply (splitter_list_at A T ML VL) in Hin.
    destruct (gr_sizes _ _ _ _ _ Gr s Hin) as (i & Hi & E1 & E2). exists (Z.to_nat i). rewrite Z2Nat.id by lia. split; [unfold levels; lia|]. destruct b; congruence.
  Qed.
  Lemma level_hot p d b i : inside A p -> T p = Splitter d b -> (i < k)%nat -> members h (S p) = 2 ^ Z.of_nat i -> forall j, (j < k)%nat -> bit_at a (level g k p) j = (j =? i)%nat.
  Proof.
    intros Hp Tp Hi E j Hjk. destruct (level_bit p j Hp Hjk) as [-> _]. unfold at_level. rewrite Tp, E. cbn [splits andb].
    destruct (Z.eqb_spec (2 ^ Z.of_nat i) (2 ^ Z.of_nat j)) as [X|X], (Nat.eqb_spec j i) as [Y|Y]; try reflexivity; exfalso.
    - apply Y. symmetry. apply pow_inj. exact X.
    - apply X. rewrite Y. reflexivity.
  Qed.
  Lemma level_rules p : inside A p -> level_rule w h ul a p.
  Proof.
    intros Hp. unfold level_rule. change (pg w h ul) with g. destruct (level_length w h ul p) as [Ll Lp]. change (pg w h ul) with g in *. split; [|split; [|split]].
    - intros Vs. destruct (splitter_of p Hp Vs) as (d & b & Tp). destruct (connected_splitter p d b Hp Tp). split; exists d; assumption.
    - intros H. assert (X : exists d b, T p = Splitter d b) by (destruct H as [H|H]; [destruct (head_splits p Hp H) as [d E]; eauto|apply splitter_of; assumption]). destruct X as (d & b & Tp).
      destruct (half_sizes p d b Hp Tp) as (i & Hi & E). apply (count_hot a _ k i Ll Hi). exact (level_hot p d b i Hp Tp Hi E).
    - intros Vs. assert (Z0 : forall i, (i < k)%nat -> at_level p (Z.of_nat i) = false).
      { intros i _. unfold at_level. pose proof (seen g W a (proj1 So) T R p Hp) as (_ & _ & _ & Ss & _). rewrite Ss in Vs. destruct (T p); try reflexivity; discriminate. }
      split; rewrite (count_bits a _ k) by assumption; (rewrite (zsum_ext _ (fun _ => 0)); [rewrite zsum_const; lia|]); intros i Hi; apply in_seq in Hi; destruct (level_bit p i Hp ltac:(lia)) as [E1 E2]; [rewrite E1|rewrite E2]; rewrite Z0 by lia; reflexivity.
    - intros _. apply levels_equal. exact Hp.
  Qed.
  Lemma border p d b : inside A p -> T p = Splitter d b -> neighbour A p d <> None /\ neighbour A p (opposite d) <> None.
  Proof.
    intros Hp Tp. destruct (in_connected _ _ _ _ Inn p d b Hp Tp) as [(q & Eq & _) (r & Er & _)]. change (Spec_Interchange.rectangle w h) with A in Eq, Er. rewrite Eq, Er. split; discriminate.
  Qed.
  Lemma join_rules p : inside A p -> size_rule w h ul a p /\ forall d, join_rule w h ul a p d.
  Proof.
    intros Hp. split.
    - intros i Hi Hb. change (pg w h ul) with g in *. destruct (level_bit p i Hp Hi) as [E _]. rewrite E in Hb. unfold at_level in Hb. apply andb_true_iff in Hb. destruct Hb as [_ Hb]. apply Z.eqb_eq in Hb. rewrite hue_count by exact Hp. exact Hb.
    - intros d Vh Vi. change (pg w h ul) with g in *. destruct (head_splits p Hp Vh) as [e Tp]. destruct (splitter_seen g W a (proj1 So) T R p e true Hp Tp) as (_ & _ & Oi & _). rewrite (Oi d Vi) in *. clear d Vi.
      destruct (splitter_halves A T ML (WA g W) VL p e true Hp Tp) as (s & Hin & Eh). apply (splitter_list_at A T ML VL) in Hin. subst p.
      destruct (splitter_block g W T border s Hin) as (d' & p10 & p11 & T1 & T2 & P1 & P2 & P3 & P4 & N1 & N2 & Eb). assert (d' = e) by congruence. subst d'. rewrite Eb. split.
      + intros c Hc. rewrite !hue_bit by assumption. apply (gr_joins _ _ _ _ _ Gr s e p10 p11 (Z.of_nat c) Hin Tp N1 N2). lia.
      + destruct (gr_sizes _ _ _ _ _ Gr s Hin) as (i & Hi & E1 & E2). destruct (level_length w h ul (fst s)) as [Ll _]. destruct (level_length w h ul (snd s)) as [Ll' _]. change (pg w h ul) with g in *.
        apply (nth_ext _ _ false false); [unfold values; rewrite !map_length; congruence|]. intros j Hjk. unfold values in Hjk. rewrite map_length, Ll in Hjk.
        change (bit_at a (level g k (fst s)) j = bit_at a (level g k (snd s)) j). rewrite (proj1 (level_bit _ j P1 Hjk)), (proj1 (level_bit _ j P2 Hjk)). unfold at_level. rewrite T1, T2, E1, E2. reflexivity.
  Qed.
  Lemma straight_rules p : inside A p -> T p = Belt RIGHT RIGHT -> straight_rule w h ul a p.
  Proof.
    intros Hp Tp. pose proof (seen g W a (proj1 So) T R p Hp) as Sh. rewrite Tp in Sh. destruct Sh as ((Bb & I & O & _) & _). unfold straight_rule. change (pg w h ul) with g. split; [assumption|]. split; [apply I|apply O]; reflexivity.
  Qed.
  Lemma first_rules y : 0 <= y < h -> first_rule w h ul a y.
  Proof.
    intros Hy. assert (Hp : inside A (0, y)) by (split; cbn; lia). split; [apply straight_rules; [exact Hp|apply (in_first _ _ _ _ Inn y Hy)]|]. change (pg w h ul) with g. rewrite (Hue _ Hp). apply Z.bits_inj'. intros c Hc. unfold packed. rewrite pack_testbit by exact Hc.
    assert (Q : 0 <= y / 2 < h / 2) by (pose proof (Z.div_mod h 2 ltac:(lia)); split; [apply Z.div_pos; lia|apply Z.div_lt_upper_bound; lia]).
    rewrite Z.pow2_bits_eqb by lia. destruct (Z.ltb_spec c (Z.of_nat bits)) as [Lc|Lc]; cbn [andb].
    - rewrite (gr_first _ _ _ _ _ Gr y c Hy) by lia. apply Z.eqb_sym.
    - symmetry. apply Z.eqb_neq. lia.
  Qed.
  Lemma last_rules y : 0 <= y < h -> straight_rule w h ul a (w - 1, y).
  Proof. intros Hy. apply straight_rules; [split; cbn; lia|apply (in_last _ _ _ _ Inn y Hy)]. Qed.
  Lemma pair_rules y : 0 <= y < h / 2 -> pair_rule w h ul a y.
  Proof.
    intros Hy c Hc. change (pg w h ul) with g in *. pose proof (Z.div_mod h 2 ltac:(lia)) as Dm. rewrite He in Dm.
    assert (I1 : inside A (w - 1, 2 * y)) by (unfold inside; change (aw A) with w; change (ah A) with h; cbn [fst snd]; lia).
    assert (I2 : inside A (w - 1, 2 * y + 1)) by (unfold inside; change (aw A) with w; change (ah A) with h; cbn [fst snd]; lia).
    rewrite !hue_bit by assumption. apply (gr_last _ _ _ _ _ Gr); lia.
  Qed.
  Lemma checker_rules i : (i < k)%nat -> count a (map (nth_primary g k i) (checkerboard g)) = h / 2.
  Proof.
    intros Hi. destruct (gr_levels _ _ _ _ _ Gr (Z.of_nat i)) as (sp & Nd & Hs & Le); [unfold levels in Hi; lia|]. rewrite <- Le.
    apply (checker_count w h ul W T ML a VL (fun p => members h (S p)) i sp); [|..|exact Nd|exact Hs].
    - intros p Hp. destruct (level_length w h ul p) as [_ Lp]. change (pg w h ul) with g in *. unfold nth_primary. rewrite <- bit_true by lia. rewrite (proj2 (level_bit p i Hp Hi)). unfold at_level. rewrite andb_true_iff, Z.eqb_eq.
      assert (X : splits (T p) = true <-> is_splitter_tile (T p)) by (destruct (T p); cbn; intuition discriminate). tauto.
    - intros s Hin. destruct (gr_sizes _ _ _ _ _ Gr s Hin) as (j & _ & E1 & E2). congruence.
  Qed.
  Lemma rules : pow2_rules w h ul a.
  Proof.
    constructor; try apply So; try exact Cl.
    - exact level_rules.
    - exact join_rules.
    - exact first_rules.
    - exact last_rules.
    - exact pair_rules.
    - exact checker_rules.
  Qed.
  Lemma edge_none d (p : pos) : inside A p -> (neighbour A p d = None <-> match d with RIGHT => fst p = w - 1 | LEFT => fst p = 0 | UP => snd p = 0 | DOWN => snd p = h - 1 end).
  Proof.
    intros Hp. split.
    - intros N. apply (neighbour_none A p d (WA g W) Hp) in N. destruct N as [_ N]. exact N.
    - intros N. unfold neighbour, ahead, place. change (wrapx A) with false. change (wrapy A) with false. cbv iota. destruct (insideb A _) eqn:Ei; [|reflexivity]. apply insideb_iff in Ei. exfalso.
      destruct Hp as [P1 P2], Ei as [Q1 Q2]. destruct p as [x y]. change (aw A) with w in *. change (ah A) with h in *. cbn [fst snd] in *. destruct d; cbn [step_x step_y] in *; lia.
  Qed.
  Lemma far_in (p : pos) d n q : ahead A p d n = Some q -> inside A q /\ q = far p d n.
  Proof.
    unfold ahead, far, place. change (wrapx A) with false. change (wrapy A) with false. cbv iota. destruct (insideb A _) eqn:Ei; [|discriminate]. intros Eq. apply Some_inj in Eq. apply insideb_iff in Ei. split; [rewrite <- Eq; exact Ei|symmetry; exact Eq].
  Qed.
  Lemma belts_closed : sat a (block_belts_through_edges g (EPair false true)) = true.
  Proof.
    apply (C50_block_belts g a (EPair false true) T W (proj1 So) R). intros p d Hp He'. assert (Nd : neighbour A p d = None).
    { apply (edge_none d p Hp). destruct d; cbn in He'; destruct He' as [Q1 Q2]; try discriminate; exact Q2. }
    assert (Vd : d = UP \/ d = DOWN) by (destruct d; cbn in He'; destruct He' as [Q1 Q2]; try discriminate; tauto).
    assert (Vo : opposite d <> RIGHT /\ d <> RIGHT) by (destruct Vd; subst d; split; discriminate).
    assert (K1 : ~ takes (T p) (opposite d)).
    { intros K. assert (B : begins A T (Enter p) p). { split; [reflexivity|]. split; [exact Hp|]. exists (opposite d). rewrite opposite_opposite. split; assumption. }
      apply (proj2 (in_inlets _ _ _ _ Inn)), rows_in in B; [|lia]. destruct B as [X1 X2]. destruct p as [x y]. cbn [fst snd] in *. subst x. rewrite (in_first _ _ _ _ Inn y) in K by lia. cbn in K. apply (proj1 Vo). congruence. }
    assert (NS : T p <> Splitter d true /\ T p <> Splitter d false).
    { split; intros E; exact (proj1 (border p d _ Hp E) Nd). }
    assert (K2 : ~ pushes (T p) d).
    { intros K. assert (Ns : ~ is_splitter_tile (T p)).
      { intros Sp. destruct (T p) as [| | | |e b| |] eqn:Tp; try contradiction. cbn in K. subst e. destruct b; tauto. }
      assert (B : reaches A T (Leave p) p). { split; [reflexivity|]. split; [exact Hp|]. split; [exact Ns|]. exists d. split; assumption. }
      apply (proj2 (in_outlets _ _ _ _ Inn)), rows_in in B; [|lia]. destruct B as [X1 X2]. destruct p as [x y]. cbn [fst snd] in *. subst x. rewrite (in_last _ _ _ _ Inn y) in K by lia. cbn in K. apply (proj2 Vo). congruence. }
    split; [exact K1|]. split; [exact K2|]. pose proof VL as (_ & _ & _ & _ & _ & _ & Ent & Ex). apply (edge_none d p Hp) in Nd. split; intros Et.
    - destruct (Ent p d Hp Et) as (q & _ & n & Hk & Eq & _). destruct (far_in _ _ _ _ Eq) as [Hq ->]. destruct Hp as [P1 P2], Hq as [Q1 Q2]. unfold far in *. change (aw A) with w in *. change (ah A) with h in *. cbn [fst snd] in *. destruct Vd; subst d; cbn [step_x step_y] in *; lia.
    - destruct (Ex p _ Hp Et) as (q & Hq & _ & n & Hk & Eq & _). destruct (far_in _ _ _ _ Eq) as [_ Ep]. destruct q as [qx qy], p as [x y]. unfold far in Ep. destruct Hp as [P1 P2], Hq as [Q1 Q2]. change (aw A) with w in *. change (ah A) with h in *. cbn [fst snd] in *.
      injection Ep as E1 E2. destruct Vd; subst d; cbn [opposite step_x step_y] in *; lia.
  Qed.
End Complete.

(** ** Both directions *)
Lemma carried_equal w h L T S : grouped w h L T S -> forall n p q, Z.of_nat n = h / 2 -> carried (Spec_Interchange.rectangle w h) T L p q -> pack n (S p) = pack n (S q).
Proof. intros G n p q En C. apply pack_ext. intros c Hc. apply (gr_lines _ _ _ _ _ G p q c C). lia. Qed.
Lemma reads_agree g (W : wf_grid g) a b T : agree (grid_size g) a b -> reads g a T -> reads g b T.
Proof. intros Ab R p Hp. rewrite <- (R p Hp). f_equal. symmetry. apply (P_Lossless.parse_tile_agree (grid_size g) a b _ Ab). apply tile_at_lits; assumption. Qed.
(** A layout of this form is the reading of a solution of all but the patterns. *)
Lemma layout_facts w h ul T S : 0 < w -> (exists j, 0 < j /\ h = 2 ^ j) -> match ul with Some l => 1 <= l | None => True end ->
  inner_part w h (longest w h ul) T -> grouped w h (longest w h ul) T S -> exists a, pow2_facts w h ul a /\ reads (pow2_grid w h ul) a T.
Proof.
  intros Hw Hj Hul1 Inn Gr. pose proof Hj as (j & J0 & Ej).
  assert (Hul : match ul with Some l => 0 <= l | None => True end) by (destruct ul; [lia|exact Logic.I]).
  assert (Hh : 0 < h) by (rewrite Ej; apply Z.pow_pos_nonneg; lia). assert (He : h mod 2 = 0) by (rewrite Ej; apply pow2_even; exact J0).
  pose proof (pow2_wf w h ul Hw Hh Hul) as W. change (pg w h ul) with (pow2_grid w h ul) in W.
  destruct (C49_no_layout_lost (pow2_grid w h ul) (EBool true) T (longest w h ul) (packed w h ul S) (extra_values w h ul T S) W) as (a & So & Cl & R & Hue & _ & Ext & Con & _).
  - split; cbn; discriminate.
  - change (glen (pow2_grid w h ul)) with ul. unfold longest. destruct ul; [lia|exact Logic.I].
  - exact (in_valid _ _ _ _ Inn).
  - intros p Hp. change (gcolours (pow2_grid w h ul)) with (Some (2 ^ (h / 2))). cbv iota. rewrite <- (pow2_bits w h ul Hh He). apply pack_range.
  - intros p q C. apply (carried_equal w h (longest w h ul) T S Gr); [exact (pow2_bits w h ul Hh He)|exact C].
  - assert (Con' : forall p d, inside (garea (pow2_grid w h ul)) p -> (vi (view_of a (tile_at (pow2_grid w h ul) p)) d = true <-> gets (garea (pow2_grid w h ul)) T p d) /\ (vo (view_of a (tile_at (pow2_grid w h ul) p)) d = true <-> gives (garea (pow2_grid w h ul)) T p d)) by exact Con.
    exists a. split; [|exact R]. constructor; try assumption; try apply So.
    + exact (rules w h ul Hw Hj Hul1 T S Inn Gr a So Cl R Hue Ext Con').
    + exact (belts_closed w h ul Hw Hj Hul1 T S Inn Gr a So R).
Qed.
Theorem pow2_exactly E w h l partial g cs top T : honest E -> pow2_main E w h l partial = Some (g, cs, top) ->
  let L := longest w h (length_option l) in
  (exists a, sat a cs = true /\ reads g a T) <->
  inner_part w h L T /\ (exists S, grouped w h L T S) /\ asked (fast_options l partial) (Spec_Interchange.rectangle w h) 0 0 T.
Proof.
  intros HE Hm L. destruct (pow2_split E w h l partial g cs top Hm) as (Hw & Hj & Hl & Eg & Sm & created & top0 & Ec & Sat). subst g.
  set (ul := length_option l) in *.
  assert (Hul1 : match ul with Some l => 1 <= l | None => True end) by (unfold ul, length_option; destruct (Z.eqb_spec l (-1)); [exact Logic.I|lia]).
  assert (Hul : match ul with Some l => 0 <= l | None => True end) by (destruct ul; [lia|exact Logic.I]).
  pose proof Hj as (j & J0 & Ej).
  assert (Hh : 0 < h) by (rewrite Ej; apply Z.pow_pos_nonneg; lia). assert (He : h mod 2 = 0) by (rewrite Ej; apply pow2_even; exact J0).
  pose proof (pow2_wf w h ul Hw Hh Hul) as W. change (pg w h ul) with (pow2_grid w h ul) in W.
  destruct (create_pow2_spec w h ul Hw Hh He Hul E HE _ _ _ Ec) as (_ & Ht & Ok & En & Cp). change (pg w h ul) with (pow2_grid w h ul) in *.
  assert (Gl : glen (pow2_grid w h ul) = main_length (fast_options l partial)) by reflexivity.
  assert (Pl : forall T, plain_asked (pow2_grid w h ul) T (fast_options l partial) <-> asked (fast_options l partial) (Spec_Interchange.rectangle w h) 0 0 T).
  { intros T'. change (garea (pow2_grid w h ul)) with (Spec_Interchange.rectangle w h). split.
    - intros [P1 P2 P3 P4 P5 P6 P7]. constructor; try assumption; try discriminate; exact Logic.I.
    - intros [P1 P2 P3 P4 P5 P6 P7 P8 P9]. constructor; assumption. }
  assert (Facts : forall a, sat a cs = true -> pow2_facts w h ul a).
  { intros a Sa. apply Sat in Sa. destruct Sa as (S1 & S2 & S3). pose proof (proj1 (generic_wishes l partial (pow2_grid w h ul) a) S3) as (G1 & G2 & _). constructor; try assumption. apply En. exact S1. }
  split.
  - intros (a & Sa & R). pose proof (Facts a Sa) as PF. split; [exact (sound_inner w h ul a PF T R)|]. split; [exists (carries w h ul a); exact (sound_grouped w h ul a PF T R)|].
    apply Pl. apply Sat in Sa. destruct Sa as (_ & _ & S3). pose proof (p2_solves w h ul a PF) as So.
    apply (wishes_said _ W a So T R (full_gets _ W a So T R (p2_full w h ul a PF T R)) (full_gives _ W a So T R (p2_full w h ul a PF T R)) _ Gl Sm). exact S3.
  - intros (Inn & (S & Gr) & As).
    destruct (layout_facts w h ul T S Hw Hj Hul1 Inn Gr) as (a & PFa & R).
    destruct (Cp a (pf_rules _ _ _ _ PFa)) as (b & Ab & Sb). pose proof (reads_agree _ W a b T Ab R) as Rb.
    assert (Bc : sat b (block_belts_through_edges (pow2_grid w h ul) (EPair false true)) = true) by (rewrite <- (sat_agree _ a b _ Ab (block_belts_ok _ W _)); apply PFa).
    assert (PF : pow2_facts w h ul b).
    { constructor; try assumption.
      - apply En. exact Sb.
      - rewrite <- (sat_agree _ a b _ Ab (intersection_ok _ W)). apply PFa.
      - destruct (pf_len _ _ _ _ PFa) as (lc & El & Sl). exists lc. split; [exact El|]. rewrite <- (sat_agree _ a b _ Ab (length_ok _ W _ El)). exact Sl. }
    pose proof (p2_solves w h ul b PF) as Sob. exists b. split; [|exact Rb]. apply Sat. split; [exact Sb|]. split; [exact Bc|].
    apply (wishes_said _ W b Sob T Rb (full_gets _ W b Sob T Rb (p2_full w h ul b PF T Rb)) (full_gives _ W b Sob T Rb (p2_full w h ul b PF T Rb)) _ Gl Sm). apply Pl. exact As.
Qed.

(** ** Each layout once, and the beginning *)
Lemma pow2_known_facts E w h l partial g cs top a : honest E -> pow2_main E w h l partial = Some (g, cs, top) -> sat a cs = true ->
  g = pow2_grid w h (length_option l) /\ pow2_facts w h (length_option l) a.
Proof.
  intros HE Hm Sa. unfold pow2_main in Hm. destruct (with_partial_split _ _ _ _ _ Hm) as (cs0 & Ep & _ & Sp). apply Sp in Sa. apply (pow2_known E w h (length_option l) g a HE). exists cs0, top. split; [exact Ep|apply Sa].
Qed.
