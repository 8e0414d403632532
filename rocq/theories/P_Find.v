(** The clauses of solve_balancer as a whole. *)
From Coq Require Import String ZArith List Bool Lia.
From Verif Require Import P_Network P_Network2 P_Benes P_Nonneg P_Similar T_Network.
From Verif Require Import Spec_Cnf Spec_Tile Spec_Layout Spec_Pattern Spec_Main M_Json M_Tile M_Util M_Card M_Network Spec_Network M_Template M_Grid M_Oracle M_Balancer M_Optimise M_Solve M_Main M_Optimal M_Find
  P_Cnf P_Util P_Util3 P_Card P_Tile P_Layout T_Tile P_List P_Template P_Walk P_Grid P_GridSound P_GridComplete P_Transport T_Grid T_Enumerate P_GridOk P_Gen P_Balancer
  Spec_Balancer P_Trace P_Realise P_Ends T_Balancer P_Lossless T_Lossless Spec_Edge P_Edge T_Edge P_Connect P_Main P_Pow2Total P_MainTotal Spec_Optimal Spec_Find.
From Verif Require Import P_OptOk P_Allocate.
From Verif Require P_Cut2 T_Mirror P_NetTotal T_Template P_Colours4.
Import ListNotations.
Open Scope Z_scope.

Lemma generic_split a g : sat a (apply_generic_optimisations g) = true <->
  sat a (prevent_small_loops g) = true /\ sat a (prevent_empty_along_underground g) = true /\ sat a (glue_splitters g) = true /\ sat a (prevent_belt_hooks g) = true /\
  sat a (prevent_mergeable_underground g) = true /\ sat a (prevent_semicircles g) = true /\ sat a (prevent_underground_hook g) = true /\ sat a (prevent_zigzags g) = true /\
  sat a (prevent_belt_parallel_splitter g) = true /\ sat a (glue_partial_splitters g) = true.
Proof. unfold apply_generic_optimisations. rewrite !sat_app_iff. tauto. Qed.

Lemma search_split E net u w h g cs top : search_clauses E net (u, w, h) = Some (g, cs, top) ->
  exists cs0 top0 cn t1 ce, create_balancer E (deduplicate_network net) w h (Some u) = Some (g, cs0, top0) /\
    setup_balancer_ends g (deduplicate_network net) true false top0 = Some (cn, t1) /\
    enforce_edge_splitters E g (deduplicate_network net) t1 = Some (ce, top) /\
    (forall x, In x (wishes (search_options u) g) -> exists c, x = Some c) /\
    (exists r, cs = (cs0 ++ r)%list) /\
    forall a, sat a cs = true <-> sat a cs0 = true /\ sat a cn = true /\ sat a ce = true /\ forall x, In x (wishes (search_options u) g) -> granted a x.
Proof.
  unfold search_clauses. intros H.
  destruct (create_balancer E (deduplicate_network net) w h (Some u)) as [[[g0 cs0] top0]|] eqn:C; [|discriminate]. cbn [obind] in H.
  destruct (seq_gen (search_calls E g0 (deduplicate_network net)) top0) as [[cs' top']|] eqn:Es; [|discriminate]. cbn [obind] in H. apply Some_inj in H.
  assert (g0 = g) by congruence. assert ((cs0 ++ cs')%list = cs) by congruence. assert (top' = top) by congruence. subst g0 cs top'. clear H.
  change (search_calls E g (deduplicate_network net)) with
    (map pure [Some (prevent_intersection g)] ++ when_ true [setup_balancer_ends g (deduplicate_network net) true false] ++
     map pure [expand_underground g 1 0 (Some (width (geo g) - 2)) None; Some (apply_generic_optimisations g)] ++
     when_ true [enforce_edge_splitters E g (deduplicate_network net)] ++ map pure [enforce_maximum_underground_length g] ++ [])%list in Es.
  apply pures_app in Es. destruct Es as (O1 & r1 & tc1 & Es & -> & S1). apply when_app in Es. destruct Es as (cn & t1 & c2 & En & Es & ->).
  apply pures_app in Es. destruct Es as (O2 & r2 & tc2 & Es & -> & S2). apply when_app in Es. destruct Es as (ce & t2 & c3 & Ee & Es & ->).
  apply pures_app in Es. destruct Es as (O3 & r3 & cz & Es & -> & S3). cbn [seq_gen] in Es. apply Some_inj in Es. injection Es as <- <-.
  exists cs0, top0, cn, t1, ce. split; [reflexivity|]. split; [exact En|]. split; [exact Ee|].
  assert (Sm : forall x, In x (wishes (search_options u) g) -> exists c, x = Some c).
  { intros x Hx. cbn in Hx. repeat match type of Hx with _ \/ _ => destruct Hx as [Hx|Hx] end; try contradiction; subst x; eauto; [apply (O2 _ (or_introl eq_refl))|apply (O3 _ (or_introl eq_refl))]. }
  split; [exact Sm|]. split; [eexists; reflexivity|]. intros a. rewrite !sat_app_iff, S1, S2, S3. split.
  - intros (H0 & H1 & H2 & H3 & H4 & H5 & _). split; [exact H0|]. split; [exact H2|]. split; [exact H4|].
    pose proof (H3 _ (or_intror (or_introl eq_refl))) as Gn. rewrite granted_some in Gn. apply generic_split in Gn.
    intros x Hx. cbn in Hx. repeat match type of Hx with _ \/ _ => destruct Hx as [Hx|Hx] end; try contradiction; subst x;
      first [apply granted_some; tauto | apply H1; left; reflexivity | apply H3; left; reflexivity | apply H5; left; reflexivity].
  - intros (H0 & H2 & H4 & K). split; [exact H0|]. split; [intros x [<-|[]]; apply K; left; reflexivity|]. split; [exact H2|]. split; [|split; [exact H4|split; [|reflexivity]]].
    + intros x [<-|[<-|[]]]; [apply K; cbn; tauto|]. apply granted_some, generic_split.
      repeat split; apply granted_some, K; cbn; tauto.
    + intros x [<-|[]]. apply K; cbn; tauto.
Qed.

Lemma slice_ok n ls i j : Forall (lit_ok n) ls -> Forall (lit_ok n) (slice ls i j).
Proof.
  intros H. unfold slice. apply Forall_forall. intros l Hl. rewrite Forall_forall in H. apply H.
  rewrite <- (firstn_skipn (Z.to_nat i) ls). apply in_or_app. right. rewrite <- (firstn_skipn (Z.to_nat (j - i)) (skipn (Z.to_nat i) ls)). apply in_or_app. left. exact Hl.
Qed.
Lemma align_ok k n m starts ends : Forall (lit_ok k) starts -> Forall (lit_ok k) ends -> cnf_ok k (align_clauses n m starts ends).
Proof.
  intros Hs He. unfold align_clauses.
  assert (X : forall xs ys f, Forall (lit_ok k) xs -> Forall (lit_ok k) ys -> cnf_ok k (flat_map (fun il : nat * lit => implies [snd il] [slice ys (Z.of_nat (fst il)) (f (fst il))]) (indexed xs))).
  { intros xs ys f Hx Hy. apply cnf_ok_flat_map. intros [i l] Hin. apply indexed_in in Hin. apply nth_error_In in Hin. cbn [fst snd]. rewrite Forall_forall in Hx.
    apply implies_ok; [constructor; [apply Hx; exact Hin|constructor]|]. apply cnf_ok_cons; [apply slice_ok; exact Hy|constructor]. }
  destruct (m <=? n); [apply (X starts ends (fun i => Z.of_nat i + 1 + n - m))|apply (X ends starts (fun i => Z.of_nat i + 1 + m - n))]; assumption.
Qed.
Lemma ends_gen g net aligned use_ends top cs top' : wf_grid g -> grid_size g <= top -> setup_balancer_ends g net aligned use_ends top = Some (cs, top') -> top <= top' /\ cnf_ok top' cs.
Proof.
  intros W Ht E. unfold setup_balancer_ends in E. destruct (get_input_output_colours (elements net)) as [[[ic n] [oc m]]|]; [|discriminate]. cbn [obind] in E.
  destruct (setup_balancer_input (negb use_ends) (column g 0) RIGHT n top) as [[[cs1 st] t1]|] eqn:E1; [|discriminate]. cbn [obind] in E.
  destruct (setup_balancer_output (negb use_ends) (column g (width (geo g) - 1)) RIGHT m t1) as [[[cs2 en] t2]|] eqn:E2; [|discriminate]. cbn [obind] in E.
  injection E as <- <-. pose proof W as ((Ww & Wh) & _). pose proof (T_Mirror.grid_size_nonneg g W) as Gn.
  assert (Col : forall x k, 0 <= x < width (geo g) -> grid_size g <= k -> Forall (tile_lits k) (column g x)).
  { intros x k Hx Hk. apply (edge_lits g W (fun y => (x, y)) (height (geo g))); [|exact Hk]. intros y Hy. split; cbn; lia. }
  unfold setup_balancer_input in E1. unfold setup_balancer_output in E2.
  destruct (end_sat _ _ _ _ _ top ltac:(lia) (Col 0 top ltac:(lia) Ht) _ _ _ (fun _ => true) E1) as (L1 & O1 & T1 & _).
  destruct (end_sat _ _ _ _ _ t1 ltac:(lia) (Col (width (geo g) - 1) t1 ltac:(lia) ltac:(lia)) _ _ _ (fun _ => true) E2) as (L2 & O2 & T2 & _).
  pose proof (end_ok _ _ _ _ _ top ltac:(lia) (Col 0 top ltac:(lia) Ht) _ _ _ E1) as K1. pose proof (end_ok _ _ _ _ _ t1 ltac:(lia) (Col (width (geo g) - 1) t1 ltac:(lia) ltac:(lia)) _ _ _ E2) as K2.
  split; [lia|]. apply cnf_ok_app; [eapply cnf_ok_mono; [|exact K1]; lia|]. apply cnf_ok_app; [exact K2|]. destruct aligned; [|constructor].
  apply align_ok; subst st en; apply fresh_ok; lia.
Qed.

(** What the search asks of a layout, whatever the order of the clauses. *)
Definition search_asks (net : network) (u w h : Z) (ic n oc m : Z) (T : layout) : Prop :=
  let A := rectangle w h in
  let nodes := elements (deduplicate_network net) in
  valid_layout A T u /\
  (exists P wire, realises_by A T u nodes ic (Z.to_nat n) oc (Z.to_nat m) P wire /\ edges_taken w T P nodes ic oc) /\
  asked (search_options u) A n m T.

Lemma search_exactly E net u w h g cs top T ic n oc m :
  honest E -> nonneg net -> complete net -> 1 <= u ->
  get_input_output_colours net = Some ((ic, n), (oc, m)) ->
  search_clauses E net (u, w, h) = Some (g, cs, top) ->
  (exists a, sat a cs = true /\ reads g a T) <-> search_asks net u w h ic n oc m T.
Proof.
  intros HE Hn Cm Hu Ends Hm. unfold search_asks. set (A := rectangle w h). set (nodes := elements (deduplicate_network net)).
  destruct (search_split E net u w h g cs top Hm) as (cs0 & top0 & cn & t1 & ce & C & En & Ee & Sm & _ & Sat).
  pose proof (dedup_nonneg net Hn) as Hn'. pose proof (dedup_complete net Cm) as Cm'.
  assert (Kn : forall nd k, In (nd, k) (deduplicate_network net) -> 0 <= k).
  { intros nd k Hin. destruct (C29_deduplicate net) as (_ & _ & H & _). destruct (H nd k Hin) as [_ (cp & ot & _ & <- & _)]. lia. }
  assert (Hul : match Some u with Some l => 1 <= l | None => True end) by exact Hu.
  assert (Hul0 : match Some u with Some l => 0 <= l | None => True end) by lia.
  assert (Ends' : get_input_output_colours (elements (deduplicate_network net)) = Some ((ic, n), (oc, m))) by (rewrite deduplicate_ends; exact Ends).
  assert (Wa : wf_area A) by (unfold create_balancer in C; destruct (Z.ltb_spec 0 w), (Z.ltb_spec 0 h); try discriminate; split; assumption).
  destruct (create_balancer_spec E _ w h (Some u) g cs0 top0 HE Hn' Hul0 C) as (ic' & n' & oc' & m' & Ee' & W & (t & _ & Eg & _) & Hs & Ok & En0 & _ & _).
  rewrite Ends' in Ee'. injection Ee' as <- <- <- <-.
  assert (EA : garea g = A) by (subst g; reflexivity). assert (CX : wrap_x (geo g) = false) by (subst g; reflexivity). assert (CY : wrap_y (geo g) = false) by (subst g; reflexivity).
  assert (EL : max_hidden g = u) by (subst g; reflexivity). assert (Hex : gextras g = [("node"%string, TSized OneHot (List.length (deduplicate_network net)))]) by (subst g; reflexivity).
  assert (Gl : glen g = main_length (search_options u)) by (subst g; unfold main_length; cbn; destruct (Z.eqb_spec u (-1)); [lia|reflexivity]).
  assert (Ew : width (geo g) = w) by (subst g; reflexivity). clear Eg.
  assert (Ne : elements (deduplicate_network net) <> []) by (eapply ends_nonempty; exact Ends'). pose proof (T_Mirror.grid_size_nonneg g W) as Gn.
  destruct (ends_gen g _ true false top0 cn t1 W Hs En) as [T01 Kc].
  assert (Edge : 2 <= width (geo g) -> t1 <= top /\ cnf_ok top ce /\ encodes t1 ce (fun a =>
      edge_rule g (deduplicate_network net) a fst ic 1 (belts_of ic (map snd (elements (deduplicate_network net)))) /\
      edge_rule g (deduplicate_network net) a snd oc (width (geo g) - 2) (belts_of oc (map fst (elements (deduplicate_network net)))))).
  { intros W2. destruct (edge_gen E g _ ic n oc m HE W Hex W2 Ends') as [_ Gk]. apply (Gk t1 ce top ltac:(lia) Ee). }
  split.
  - intros (a & Sa & R). apply Sat in Sa. destruct Sa as (S0 & S3 & S1 & Gr). pose proof (proj1 En0 a S0) as B.
    assert (So : solves g (EBool true) a).
    { split; [apply B|]. split; [apply granted_some, Gr; left; reflexivity|]. split; [apply B|]. split; [apply B|]. destruct (Gr (enforce_maximum_underground_length g)) as (lc & El & Sl); [|exists lc; auto].
      unfold wishes, wishes3. rewrite !in_app_iff. right. right. right. left. left. reflexivity. }
    pose proof (size2 g W CX CY _ ic n oc m a B So T R Ne) as [W2 H2]. destruct (Edge W2) as (T12 & Ke & Se & _).
    pose proof (proj1 (wishes_asked g W _ ic n oc m a B So T R Cm' (search_options u) Gl Sm) Gr) as PA. destruct PA as [P1 P2 P3 P4 P5 P6 P7].
    pose proof (proj1 (ends_asked g W _ ic n oc m a B So T R Cm' (search_options u) top0 cn t1 Hs Ends' En) (ex_intro _ a (conj (agree_refl top0 a) S3))) as En'.
    rewrite EA in *. split; [rewrite <- EL, <- EA; apply (VL g W a So T R)|]. split.
    + destruct (realisation_at g W CX CY _ ic n oc m a B So T R Ne) as (P & wire & HP & HR & _). exists P, wire. rewrite EL, EA in HR. split; [exact HR|].
      pose proof (hs_placed g _ ic n oc m a B T P HP) as Pn. destruct (Se a S1) as [R1 R2]. unfold edges_taken. rewrite <- Ew. destruct HR as (Sl & Sd & Sa & _). rewrite <- EA in Sa.
      split.
      * apply (edge_iff g W _ Kn ic n oc m a B So T R P Sl Sd Sa Pn fst (or_introl eq_refl)); [lia|exact R1].
      * apply (edge_iff g W _ Kn ic n oc m a B So T R P Sl Sd Sa Pn snd (or_intror eq_refl)); [lia|exact R2].
    + constructor; try assumption. discriminate.
  - intros (V & (P & wire & HR & Ed) & As).
    assert (HL : forall s f, joined A T u s f -> exists k, sink_colour nodes oc (Z.to_nat m) k <> None /\ finish_of P k = Some f) by (eapply complete_lines; eauto).
    destruct (realisation_solved E _ w h (Some u) g cs0 top0 T ic n oc m P wire HE Hn' Kn Hul C Ends' V HR HL) as (a & Sb & R & _ & Pn).
    destruct Sb as (cs1 & top1 & C1 & S & Ix & Ls). rewrite C in C1. apply Some_inj in C1. assert (cs0 = cs1) by congruence. assert (top0 = top1) by congruence. subst cs1 top1. clear C1.
    pose proof (proj1 En0 a S) as B.
    assert (So : solves g (EBool true) a) by (split; [apply B|split; [exact Ix|split; [apply B|split; [apply B|exact Ls]]]]).
    pose proof (size2 g W CX CY _ ic n oc m a B So T R Ne) as [W2 H2]. destruct (Edge W2) as (T12 & Ke & _ & Ce).
    assert (Keep : forall b, agree top0 a b -> sat b cs0 = true /\ balancer_rules g (deduplicate_network net) ic n oc m b /\ solves g (EBool true) b /\ reads g b T).
    { intros b Ab. assert (Ag : agree (grid_size g) a b) by (eapply agree_mono; [exact Hs|exact Ab]).
      assert (S' : sat b cs0 = true) by (rewrite <- (sat_agree top0 a b _ Ab Ok); exact S). pose proof (proj1 En0 b S') as B'. split; [exact S'|]. split; [exact B'|]. split.
      - split; [apply B'|]. split; [rewrite <- (sat_agree (grid_size g) a b _ Ag (intersection_ok g W)); exact Ix|]. split; [apply B'|]. split; [apply B'|].
        destruct Ls as (lc & El & Sl'). exists lc. split; [exact El|]. rewrite <- (sat_agree (grid_size g) a b _ Ag (length_ok g W _ El)). exact Sl'.
      - intros p Hp; rewrite <- (R p Hp); f_equal; symmetry; apply (parse_tile_agree (grid_size g) a b _ Ag); apply tile_at_lits; assumption. }
    destruct (proj2 (ends_asked g W _ ic n oc m a B So T R Cm' (search_options u) top0 cn t1 Hs Ends' En)) as (b & Ab & Sb); [rewrite EA; apply As|].
    destruct (Keep b Ab) as (_ & Bb & Sob & Rb).
    destruct (Ce b) as (c & Ac & Sc).
    { destruct HR as (Sl & Sd & Sa & _). rewrite <- EA in Sa. destruct Ed as [Ed1 Ed2]. rewrite <- Ew in Ed2.
      assert (Pn' : placed_nodes g (deduplicate_network net) P b).
      { intros p i Hp Hi. rewrite <- (Pn p i Hp Hi), (evl_agree (grid_size g) a b); [reflexivity|eapply agree_mono; [exact Hs|exact Ab]|]. apply (node_ok g W _ Hex); assumption. }
      split.
      - apply (edge_iff g W _ Kn ic n oc m b Bb Sob T Rb P Sl Sd Sa Pn' fst (or_introl eq_refl)); [lia|exact Ed1].
      - apply (edge_iff g W _ Kn ic n oc m b Bb Sob T Rb P Sl Sd Sa Pn' snd (or_intror eq_refl)); [lia|exact Ed2]. }
    assert (Ac0 : agree top0 a c) by (eapply agree_trans; [exact Ab|eapply agree_mono; [exact T01|exact Ac]]). destruct (Keep c Ac0) as (S0 & Bc & Soc & Rc).
    exists c. split; [|exact Rc]. apply Sat. split; [exact S0|]. split; [rewrite <- (sat_agree t1 b c _ Ac Kc); exact Sb|]. split; [exact Sc|].
    apply (wishes_asked g W _ ic n oc m c Bc Soc T Rc Cm' (search_options u) Gl Sm). destruct As as [P1 P2 P3 P4 P5 P6 P7 P8 P9]. rewrite <- EA in *. constructor; assumption.
Qed.

(** ** The literals and the variables of the clauses *)
Lemma search_ok E net u w h g cs top : honest E -> nonneg net -> 1 <= u -> 2 <= w -> search_clauses E net (u, w, h) = Some (g, cs, top) -> cnf_ok top cs.
Proof.
  intros HE Hn Hu Hw Hm. unfold search_clauses in Hm. pose proof (dedup_nonneg net Hn) as Hn'. assert (Hul0 : match Some u with Some l => 0 <= l | None => True end) by lia.
  destruct (create_balancer E (deduplicate_network net) w h (Some u)) as [[[g0 cs0] top0]|] eqn:C; [|discriminate]. cbn [obind] in Hm.
  destruct (create_balancer_spec E _ w h (Some u) g0 cs0 top0 HE Hn' Hul0 C) as (ic & n & oc & m & Ends' & W & (t & _ & Eg & _) & Hs & Ok & _).
  assert (Hex : gextras g0 = [("node"%string, TSized OneHot (List.length (deduplicate_network net)))]) by (subst g0; reflexivity). assert (Ew : width (geo g0) = w) by (subst g0; reflexivity). clear Eg.
  destruct (seq_gen (search_calls E g0 (deduplicate_network net)) top0) as [[cs' top']|] eqn:Es; [|discriminate]. cbn [obind] in Hm. apply Some_inj in Hm.
  assert ((cs0 ++ cs')%list = cs) by congruence. assert (top' = top) by congruence. subst cs top'. clear Hm.
  assert (K : forall l tp c t', (forall f, In f l -> forall tp c t', grid_size g0 <= tp -> f tp = Some (c, t') -> tp <= t' /\ cnf_ok t' c) -> grid_size g0 <= tp -> seq_gen l tp = Some (c, t') -> tp <= t' /\ cnf_ok t' c).
  { clear. induction l as [|f l IH]; intros tp c t' H Hs E; cbn [seq_gen] in E; [apply Some_inj in E; injection E as <- <-; split; [lia|constructor]|].
    destruct (f tp) as [[c1 t1]|] eqn:Ef; [|discriminate]. cbn [obind] in E. destruct (seq_gen l t1) as [[c2 t2]|] eqn:El; [|discriminate]. cbn [obind] in E. apply Some_inj in E. injection E as <- <-.
    destruct (H f (or_introl eq_refl) tp c1 t1 Hs Ef) as [A1 A2]. destruct (IH t1 c2 t2 (fun f0 Hf => H f0 (or_intror Hf)) ltac:(lia) El) as [B1 B2]. split; [lia|]. apply cnf_ok_app; [eapply cnf_ok_mono; [|exact A2]; lia|exact B2]. }
  assert (Pu : forall o c tp t', (forall c0, o = Some c0 -> cnf_ok (grid_size g0) c0) -> grid_size g0 <= tp -> pure o tp = Some (c, t') -> tp <= t' /\ cnf_ok t' c).
  { intros o c tp t' H Ht E0. unfold pure in E0. destruct o as [c0|]; [|discriminate]. cbn [obind] in E0. apply Some_inj in E0. injection E0 as <- <-. split; [lia|]. eapply cnf_ok_mono; [exact Ht|apply H; reflexivity]. }
  assert (Ff : forall f, In f (search_calls E g0 (deduplicate_network net)) -> forall tp c t', grid_size g0 <= tp -> f tp = Some (c, t') -> tp <= t' /\ cnf_ok t' c).
  { intros f Hf tp c t' Ht Ef. unfold search_calls in Hf. cbn [In] in Hf. destruct Hf as [<-|[<-|[<-|[<-|[<-|[<-|[]]]]]]].
    - eapply Pu; [|exact Ht|exact Ef]. intros c0 [= <-]. apply intersection_ok. exact W.
    - eapply ends_gen; [exact W|exact Ht|exact Ef].
    - eapply Pu; [|exact Ht|exact Ef]. intros c0 Ec. eapply expand_ok; [exact W|exact Ec].
    - eapply Pu; [|exact Ht|exact Ef]. intros c0 [= <-]. apply generic_ok. exact W.
    - destruct (edge_gen E g0 _ ic n oc m HE W Hex ltac:(lia) Ends') as [_ Gk]. destruct (Gk tp c t' Ht Ef) as (A1 & A2 & _). split; assumption.
    - eapply Pu; [|exact Ht|exact Ef]. intros c0 Ec. eapply length_ok; [exact W|exact Ec]. }
  destruct (K _ top0 cs' top Ff Hs Es) as [K1 K2]. apply cnf_ok_app; [eapply cnf_ok_mono; [exact K1|exact Ok]|exact K2].
Qed.

Lemma seq_gen_incl l tp c t' c0 : seq_gen l tp = Some (c, t') -> In (pure (Some c0)) l -> incl c0 c.
Proof.
  revert tp c t'. induction l as [|f l IH]; intros tp c t' E H; [destruct H|]. cbn [seq_gen] in E. destruct (f tp) as [[c1 t1]|] eqn:Ef; [|discriminate]. cbn [obind] in E.
  destruct (seq_gen l t1) as [[c2 t2]|] eqn:El; [|discriminate]. cbn [obind] in E. apply Some_inj in E. injection E as <- <-. destruct H as [->|H].
  - unfold pure in Ef. cbn [obind] in Ef. apply Some_inj in Ef. injection Ef as <- <-. apply incl_appl, incl_refl.
  - apply incl_appr. eapply IH; [exact El|exact H].
Qed.
Lemma last_variable E net w h ul g cs top : wf_grid g -> (0 < List.length net)%nat -> create_balancer E net w h ul = Some (g, cs, top) -> gextras g = [("node"%string, TSized OneHot (List.length net))] ->
  exists c l, In c cs /\ In l c /\ Z.abs l = grid_size g.
Proof.
  intros W Hk C Hex. unfold create_balancer in C. destruct (Z.ltb_spec 0 w) as [Hw|]; [|discriminate]. destruct (Z.ltb_spec 0 h) as [Hh|]; [|discriminate]. cbn [andb negb] in C.
  destruct (list_max (all_colours net)) as [t|] eqn:Et; [|discriminate]. cbn [obind] in C.
  destruct (init_clauses (balancer_grid net w h ul t)) as [init|] eqn:Ei; [|discriminate]. cbn [obind] in C.
  destruct (balancer_clauses E (balancer_grid net w h ul t) net t (grid_top (balancer_grid net w h ul t))) as [[c1 t1]|] eqn:Eb; [|discriminate].
  cbn [obind] in C. injection C as E1 E2 E3. subst t1. rewrite E1 in *.
  unfold balancer_clauses in Eb.
  match type of Eb with obind (seq_gen ?l _) _ = _ => set (before := l) in *; destruct (seq_gen before (grid_top g)) as [[b1 tb]|] eqn:Eb1; [|discriminate] end.
  cbn [obind] in Eb. destruct (get_input_output_colours (elements net)) as [[[ic n] [oc m]]|]; [|discriminate]. cbn [obind] in Eb.
  match type of Eb with obind ?x _ = _ => destruct x as [[b2 tb2]|]; [|discriminate] end. cbn [obind] in Eb. injection Eb as <- <-.
  assert (I : In (- is_splitter_head (tile_at g (w - 1, h - 1)) :: nodes g (List.length net) (w - 1, h - 1)) b1).
  { eapply seq_gen_incl; [exact Eb1|unfold before; rewrite !in_app_iff; right; right; left; reflexivity|]. apply in_flat_map. exists (w - 1, h - 1). split.
    - rewrite <- E1. cbn [geo balancer_grid width height]. unfold cells. apply in_flat_map. exists (w - 1). split; [apply range_in; lia|]. apply in_map_iff. exists (h - 1). split; [reflexivity|apply range_in; lia].
    - unfold quadratic_one. apply in_or_app. right. left. reflexivity. }
  exists (- is_splitter_head (tile_at g (w - 1, h - 1)) :: nodes g (List.length net) (w - 1, h - 1)), (node g (w - 1, h - 1) (List.length net - 1)). split; [subst cs; apply in_or_app; right; apply in_or_app; left; exact I|]. split.
  - right. unfold nodes. apply in_map_iff. exists (List.length net - 1)%nat. split; [reflexivity|apply in_seq; lia].
  - pose proof (node_size g _ Hex) as Sz. pose proof (tile_size_pos g) as Sp. assert (Ew : width (geo g) = w) by (rewrite <- E1; reflexivity). assert (Eh : height (geo g) = h) by (rewrite <- E1; reflexivity).
    destruct W as (_ & Ht & _). unfold node, extras_base, grid_size, tile_base. cbn [fst snd]. rewrite Ew, Eh.
    assert (Em : (h - 1) * w + (w - 1) = w * h - 1) by nia. rewrite Em. assert (0 < w * h) by nia. nia.
Qed.
