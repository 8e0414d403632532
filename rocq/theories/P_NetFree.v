(** What the clauses of the network-free balancer say. *)
From Coq Require Import String ZArith QArith List Bool Lia.
From Verif Require Import Spec_Cnf Spec_Tile Spec_Layout M_Json M_Tile M_Util M_Card M_Network Spec_Network M_Template M_Grid M_Oracle M_Balancer M_Optimise M_NetFree
  Spec_Balancer Spec_Flow P_Cnf P_Util P_Util2 P_Tile P_Layout P_List P_Template P_Walk P_Grid P_GridSound P_GridComplete P_Transport T_Grid P_GridOk P_Gen P_Trace P_Uniq P_FlowWitness
  P_NetArith P_NetClause P_NetEnds P_NetShape.
Import ListNotations.
Open Scope Z_scope.

(** [a] satisfies the clauses of main. *)
Definition solves_net_free (w h : Z) (ul : option Z) (n m : Z) (aligned : bool) (g : grid) (a : assignment) : Prop :=
  exists cs top, net_free w h ul n m aligned = Some (g, cs, top) /\ sat a cs = true.

(** A solution of all but the patterns. *)
Definition net_parts (w h : Z) (ul : option Z) (n m : Z) (al : bool) (g : grid) (a : assignment) : Prop :=
  (exists created, create_n_to_m_balancer w h ul n m = Some (g, created) /\ sat a created = true) /\
  (exists ends top, setup_free_ends g n m al (grid_top g) = Some (ends, top) /\ sat a ends = true) /\
  sat a (block_belts_through_edges g (EPair false true)) = true /\ sat a (prevent_intersection g) = true /\ solves_length g a.
Lemma net_free_parts w h ul n m al g a : solves_net_free w h ul n m al g a -> net_parts w h ul n m al g a.
Proof.
  intros (cs & top & E & Sa). unfold net_free in E. destruct (create_n_to_m_balancer w h ul n m) as [[g' created]|] eqn:Ec; [|discriminate]. cbn [obind] in E.
  rewrite !seq_gen_cons in E. destruct (setup_free_ends g' n m al (grid_top g')) as [[ends t1]|] eqn:Ee; [|discriminate].
  cbn [pure obind] in E. destruct (enforce_maximum_underground_length g') as [lc|] eqn:El; [|discriminate]. cbn [pure obind] in E.
  destruct (expand_underground g' 1 0 (Some (width (geo g') - 2)) None) as [xc|] eqn:Ex; [|discriminate]. cbn [pure obind] in E.
  destruct (prevent_double_edge_belts g') as [dc|] eqn:Ed; [|discriminate]. cbn [pure obind seq_gen] in E.
  assert (g' = g) by congruence. subst g'.
  assert (cs = (created ++ ends ++ block_belts_through_edges g (EPair false true) ++ prevent_intersection g ++ lc ++ xc ++ apply_generic_optimisations g ++ dc ++ [])%list) by congruence.
  subst cs. rewrite !sat_app_iff in Sa. destruct Sa as (H1 & H2 & H3 & H4 & H5 & _).
  split; [eauto|]. split; [eauto|]. split; [exact H3|]. split; [exact H4|]. exists lc. auto.
Qed.

(** ** Flow variables *)
Section Flow.
  Variable g : grid.
  Hypothesis W : wf_grid g.
  Variable a : assignment.
  Variable f : flows.
  Notation A := (garea g).
  Lemma flow_base_nonneg p : inside A p -> 0 <= flow_base g f p.
  Proof. intros Hp. pose proof (tile_base_nonneg g p W Hp). destruct W as (_ & Ht & _). unfold flow_base, extras_base. lia. Qed.
  Lemma flow_length p c : List.length (flow g f p c) = fl_bits f.
  Proof. apply component_length. Qed.
  Lemma flow_nonzero p c : inside A p -> Forall nonzero (flow g f p c).
  Proof. intros Hp. apply component_nonzero, flow_base_nonneg. exact Hp. Qed.
  Lemma flow_carry_length p c : List.length (flow_carry g f p c) = fl_cbits f.
  Proof. apply component_length. Qed.
  Lemma flow_carry_nonzero p c : inside A p -> Forall nonzero (flow_carry g f p c).
  Proof. intros Hp. apply component_nonzero. pose proof (flow_base_nonneg p Hp). unfold size_of. lia. Qed.
  Lemma all_flow_ok p : inside A p -> List.length (all_flow g f p) = (fl_count f * fl_bits f)%nat /\ Forall nonzero (all_flow g f p).
  Proof. intros Hp. split; [apply components_length|apply components_nonzero, flow_base_nonneg; exact Hp]. Qed.
  Lemma flow_diff_ok p : inside A p -> List.length (flow_diff g f p) = (fl_count f * fl_bits f)%nat /\ Forall nonzero (flow_diff g f p).
  Proof. intros Hp. split; [apply components_length|apply components_nonzero]. pose proof (flow_base_nonneg p Hp). unfold size_of. lia. Qed.
  Lemma flow_ux_ok p : inside A p -> List.length (flow_ux g f p) = (fl_count f * fl_bits f)%nat /\ Forall nonzero (flow_ux g f p).
  Proof. intros Hp. split; [apply components_length|apply components_nonzero]. pose proof (flow_base_nonneg p Hp). unfold size_of, carry_size. lia. Qed.
  Lemma flow_uy_ok p : inside A p -> List.length (flow_uy g f p) = (fl_count f * fl_bits f)%nat /\ Forall nonzero (flow_uy g f p).
  Proof. intros Hp. split; [apply components_length|apply components_nonzero]. pose proof (flow_base_nonneg p Hp). unfold size_of, carry_size. lia. Qed.

  Lemma for_components_sat (F : nat -> option cnf) cs : for_components f F = Some cs -> sat a cs = true ->
    forall c, (c < fl_count f)%nat -> exists k, F c = Some k /\ sat a k = true.
  Proof.
    intros E Sa c Hc. apply (proj1 (sat_oflat a _ _ _ E) Sa). apply in_seq. lia.
  Qed.

  Variable T : layout.
  Hypothesis R : reads g a T.
  Hypothesis So : solves g (EBool true) a.
  Lemma flow_carried moved : transport_quantity g (all_flow g f) (flow_ux g f) (flow_uy g f) = Some moved -> sat a moved = true ->
    forall L c p q, (c < fl_count f)%nat -> carried A T L p q -> value a (flow g f p c) = value a (flow g f q c).
  Proof.
    intros Em Sm L c p q Hc C. destruct So as (S & Ix & U & Eb & (lc & El & Sl)).
    destruct (transport_sat g W a (all_flow g f) (flow_ux g f) (flow_uy g f) _ all_flow_ok flow_ux_ok flow_uy_ok) as (cs & E & Q).
    rewrite Em in E. apply Some_inj in E. subst cs. pose proof (proj1 Q Sm) as TR.
    apply (components_equal a _ _ (fl_bits f) (fl_count f)); [|exact Hc].
    apply (carried_same g W a T R (proj1 (solves_init_rules g a W) S) (proj1 (undergrounding_sat g W a) U)
      (all_flow g f) (flow_ux g f) (flow_uy g f) TR L p q C).
  Qed.
End Flow.

(** ** The tiles around a splitter *)
Lemma block_at g (W : wf_grid g) p d p10 p01 p11 : inside (garea g) p ->
  neighbour (garea g) p d = Some p10 -> neighbour (garea g) p (anticlockwise d) = Some p01 -> neighbour (garea g) p01 d = Some p11 ->
  block_of g p d = Some (p10, p01, p11).
Proof.
  intros Hp E1 E2 E3. unfold block_of. rewrite !(offset_neighbour g W). rewrite E1. rewrite next_ac, E2.
  rewrite offset_place by apply W. fold (garea g). unfold neighbour, ahead in E2, E3.
  rewrite (place_shift (garea g) _ p01 _ _ (WA g W) E2) in E3. cbn [fst snd] in E3.
  assert (X : place (garea g) (fst p + (dx d + dx (anticlockwise d)), snd p + (dy d + dy (anticlockwise d))) = Some p11).
  { rewrite <- E3. f_equal. rewrite !dx_step, !dy_step. f_equal; ring. }
  rewrite X. reflexivity.
Qed.

Lemma edge_flow_sat g (W : wf_grid g) a fs x y cs : inside (garea g) (x, y) -> edge_flow g fs x y = Some cs -> sat a cs = true ->
  vs (view_of a (tile_at g (x, y))) = false /\
  forall f v, In (f, v) fs -> forall c, (c < fl_count f)%nat -> 0 <= v y c -> value a (flow g f (x, y) c) = v y c.
Proof.
  intros Hp E Sa. unfold edge_flow in E. destruct (omap _ fs) as [css|] eqn:Ef; [|discriminate]. cbn [obind] in E. apply Some_inj in E. subst cs.
  rewrite sat_cons_iff, satc_one in Sa. destruct Sa as [S1 S2]. pose proof (tile_at_ok g _ W Hp) as O. rewrite P_Cnf.evl_neg, negb_true_iff in S1 by apply O.
  split; [exact S1|]. intros f v Hin c Hc H0.
  assert (X : oflat (fun fv : flows * (Z -> nat -> Z) => for_components (fst fv) (fun c => set_number (snd fv y c) (flow g (fst fv) (x, y) c))) fs = Some (List.concat css)) by (unfold oflat; rewrite Ef; reflexivity).
  destruct (proj1 (sat_oflat a _ _ _ X) S2 (f, v) Hin) as (k & Ek & Sk). cbn [fst snd] in Ek.
  destruct (for_components_sat a f _ k Ek Sk c Hc) as (k' & Ek' & Sk'). pose proof (flow_nonzero g W f (x, y) c Hp) as N.
  pose proof (proj1 (set_number_some (v y c) (flow g f (x, y) c)) (ex_intro _ _ Ek')) as B.
  rewrite (proj1 (set_number_spec _ _ _ N Ek' a) Sk'). apply Z.mod_small. lia.
Qed.

(** ** n to n *)
Record n_to_n_facts (w h : Z) (size : Z) (g : grid) (a : assignment) : Prop := {
  nn_w : 0 < w; nn_h : 0 < h; nn_size : 0 < size;
  nn_wf : wf_grid g; nn_wd : width (geo g) = w; nn_hg : height (geo g) = h; nn_cx : wrap_x (geo g) = false; nn_cy : wrap_y (geo g) = false;
  nn_init : solves_init g a;
  nn_edges : sat a (block_underground_through_edges g (EBool true)) = true;
  nn_under : sat a (prevent_bad_undergrounding g) = true;
  nn_used : forall p, inside (garea g) p -> vs (view_of a (tile_at g p)) = true ->
    (exists e, vi (view_of a (tile_at g p)) e = true) /\ exists e, vo (view_of a (tile_at g p)) e = true;
  nn_max : forall p c, inside (garea g) p -> (c < fl_count (n_flows size))%nat -> value a (flow g (n_flows size) p c) <= full_flow size;
  nn_moved : exists moved, transport_quantity g (all_flow g (n_flows size)) (flow_ux g (n_flows size)) (flow_uy g (n_flows size)) = Some moved /\ sat a moved = true;
  nn_splitter : forall p d, inside (garea g) p -> exists k, splitter_flow g (n_flows size) p d = Some k /\ sat a k = true;
  nn_first : forall y, 0 <= y < h -> vs (view_of a (tile_at g (0, y))) = false /\
    forall c, (c < fl_count (n_flows size))%nat -> value a (flow g (n_flows size) (0, y) c) = if y mod size =? Z.of_nat c then full_flow size else 0;
  nn_final : forall y, 0 <= y < h -> vs (view_of a (tile_at g (w - 1, y))) = false /\
    forall c, (c < fl_count (n_flows size))%nat -> value a (flow g (n_flows size) (w - 1, y) c) = denominator size }.

Lemma n_to_n_wf w h ul size : 0 < w -> 0 < h -> match ul with Some l => 0 <= l | None => True end -> wf_grid (n_to_n_grid w h ul size).
Proof. intros Hw Hh Hu. unfold wf_grid, n_to_n_grid. cbn [geo gtop gcolours glen width height]. repeat split; cbn [width height]; try lia. exact Hu. Qed.

Lemma n_to_n_parts w h ul size g a created : match ul with Some l => 0 <= l | None => True end ->
  create_n_to_n_balancer w h ul size = Some (g, created) -> sat a created = true -> n_to_n_facts w h size g a.
Proof.
  intros Hul E Sa. unfold create_n_to_n_balancer in E.
  destruct (Z.ltb_spec 0 w) as [Hw|]; [|discriminate]. destruct (Z.ltb_spec 0 h) as [Hh|]; [|discriminate]. destruct (Z.ltb_spec 0 size) as [Hs|]; [|discriminate].
  cbn [negb andb] in E. pose proof (n_to_n_wf w h ul size Hw Hh Hul) as W. set (g0 := n_to_n_grid w h ul size) in *.
  assert (G1 : width (geo g0) = w) by reflexivity. assert (G2 : height (geo g0) = h) by reflexivity.
  assert (G3 : wrap_x (geo g0) = false) by reflexivity. assert (G4 : wrap_y (geo g0) = false) by reflexivity.
  assert (G5 : iterate_tiles (geo g0) = cells w h) by reflexivity. clearbody g0.
  destruct (init_clauses g0) as [init|] eqn:Ei; [|discriminate]. cbn [obind] in E.
  destruct (oflat _ (iterate_tiles (geo g0))) as [tiles|] eqn:Et; [|discriminate]. cbn [obind] in E.
  destruct (transport_quantity _ _ _ _) as [moved|] eqn:Em; [|discriminate]. cbn [obind] in E.
  destruct (oflat _ (cells w h)) as [splitters|] eqn:Esp; [|discriminate]. cbn [obind] in E.
  destruct (oflat (edge_flow g0 _ 0) (range h)) as [first|] eqn:Ef; [|discriminate]. cbn [obind] in E.
  destruct (oflat (edge_flow g0 _ (w - 1)) (range h)) as [final|] eqn:El; [|discriminate]. cbn [obind] in E.
  assert (g0 = g) by congruence. subst g0.
  assert (Ec : created = (init ++ block_underground_through_edges g (EBool true) ++ prevent_bad_undergrounding g ++ tiles ++ moved ++ splitters ++ first ++ final)%list) by congruence.
  subst created. clear E. rewrite !sat_app_iff in Sa. destruct Sa as (S1 & S2 & S3 & S4 & S5 & S6 & S7 & S8).
  destruct (denominator_exact size Hs) as (D0 & _ & F0 & _).
  assert (Left : forall y, 0 <= y < h -> inside (garea g) (0, y)) by (intros y Hy; split; cbn [garea area_of aw ah fst snd]; lia).
  assert (Right : forall y, 0 <= y < h -> inside (garea g) (w - 1, y)) by (intros y Hy; split; cbn [garea area_of aw ah fst snd]; lia).
  assert (TI : forall p, inside (garea g) p ->
    (vs (view_of a (tile_at g p)) = true -> (exists e, vi (view_of a (tile_at g p)) e = true) /\ exists e, vo (view_of a (tile_at g p)) e = true) /\
    forall c, (c < fl_count (n_flows size))%nat -> value a (flow g (n_flows size) p c) <= full_flow size).
  { intros p Hp. destruct (proj1 (sat_oflat a _ _ _ Et) S4 p) as (k & Ek & Sk); [apply iterate_tiles_in; exact Hp|].
    destruct (for_components _ _) as [bound|] eqn:Eb; [|discriminate]. cbn [obind] in Ek. apply Some_inj in Ek. subst k.
    rewrite sat_app_iff in Sk. destruct Sk as [K1 K2]. pose proof (tile_at_ok g p W Hp) as O. split.
    - rewrite sat_implies1 in K1 by apply O. intros V. specialize (K1 V). rewrite !sat_cons_iff in K1. destruct K1 as (K3 & K4 & _).
      unfold inputs, outputs in *. rewrite satc_dirs in K3, K4. auto.
    - intros c Hc. destruct (for_components_sat a _ _ _ Eb K2 c Hc) as (k & Ek & Sk).
      apply (set_maximum_spec _ _ _ (flow_nonzero g W (n_flows size) p c Hp) Ek). exact Sk. }
  constructor; auto.
  - exists init. auto.
  - intros p Hp. apply TI. exact Hp.
  - intros p c Hp. apply TI. exact Hp.
  - exists moved. auto.
  - intros p d Hp. destruct (proj1 (sat_oflat a _ _ _ Esp) S6 p) as (k & Ek & Sk); [rewrite <- G5; apply iterate_tiles_in; exact Hp|].
    apply (proj1 (sat_oflat a _ _ _ Ek) Sk d). apply directions_all.
  - intros y Hy. destruct (proj1 (sat_oflat a _ _ _ Ef) S7 y) as (k & Ek & Sk); [apply range_in; exact Hy|].
    destruct (edge_flow_sat g W a _ 0 y k (Left y Hy) Ek Sk) as [V1 V2]. split; [exact V1|]. intros c Hc.
    apply (V2 (n_flows size) (source_flow size (full_flow size)) (or_introl eq_refl) c Hc). unfold source_flow. destruct (_ =? _); lia.
  - intros y Hy. destruct (proj1 (sat_oflat a _ _ _ El) S8 y) as (k & Ek & Sk); [apply range_in; exact Hy|].
    destruct (edge_flow_sat g W a _ (w - 1) y k (Right y Hy) Ek Sk) as [V1 V2]. split; [exact V1|]. intros c Hc.
    apply (V2 (n_flows size) (fun _ _ => denominator size) (or_introl eq_refl) c Hc). lia.
Qed.

(** Sums of integers. *)
Definition zsum (l : list Z) : Z := fold_right Z.add 0 l.
Lemma zsum_app l k : zsum (l ++ k) = zsum l + zsum k.
Proof. induction l as [|x l IH]; [reflexivity|]. cbn [app]. change (x + zsum (l ++ k) = x + zsum l + zsum k). lia. Qed.
Lemma zsum_ext {X} (u v : X -> Z) l : (forall x, In x l -> u x = v x) -> zsum (map u l) = zsum (map v l).
Proof. intros H. f_equal. apply map_ext_in. exact H. Qed.
Lemma zsum_add {X} (u v : X -> Z) l : zsum (map (fun x => u x + v x) l) = zsum (map u l) + zsum (map v l).
Proof. induction l as [|x l IH]; [reflexivity|]. cbn [map]. change (u x + v x + zsum (map (fun x => u x + v x) l) = u x + zsum (map u l) + (v x + zsum (map v l))). lia. Qed.
Lemma zsum_mul {X} (u : X -> Z) k l : zsum (map (fun x => k * u x) l) = k * zsum (map u l).
Proof. induction l as [|x l IH]; [cbn; lia|]. cbn [map]. change (k * u x + zsum (map (fun x => k * u x) l) = k * (u x + zsum (map u l))). lia. Qed.
Lemma zsum_const {X} (k : Z) (l : list X) : zsum (map (fun _ => k) l) = Z.of_nat (List.length l) * k.
Proof. induction l as [|x l IH]; [reflexivity|]. cbn [map List.length]. change (k + zsum (map (fun _ => k) l) = Z.of_nat (S (List.length l)) * k). lia. Qed.
Lemma zsum_pick r v k : 0 <= r -> zsum (map (fun c => if r =? Z.of_nat c then v else 0) (seq 0 k)) = if r <? Z.of_nat k then v else 0.
Proof.
  intros Hr. induction k as [|k IH]; [cbn; destruct (Z.ltb_spec r 0); lia|]. rewrite seq_S, map_app, zsum_app, IH. cbn [map plus zsum fold_right].
  destruct (Z.ltb_spec r (Z.of_nat k)), (Z.eqb_spec r (Z.of_nat k)), (Z.ltb_spec r (Z.of_nat (S k))); lia.
Qed.

Section Common.
  Variable g : grid.
  Hypothesis W : wf_grid g.
  Variable a : assignment.
  Hypothesis So : solves g (EBool true) a.
  Variable T : layout.
  Hypothesis R : reads g a T.
  Notation A := (garea g).
  Notation V p := (view_of a (tile_at g p)).

  Lemma not_splitter p : inside A p -> vs (V p) = false -> ~ is_splitter_tile (T p).
  Proof.
    intros Hp E Sp. pose proof (seen g W a (proj1 So) T R p Hp) as (_ & _ & _ & H & _). rewrite E in H. destruct (T p); try contradiction. discriminate.
  Qed.
  Hypothesis BR : forall p d k, inside A p -> T p = Splitter d k -> neighbour A p d <> None /\ neighbour A p (opposite d) <> None.
  Lemma splitter_block s : is_splitter_at A T s -> exists d p10 p11,
    T (fst s) = Splitter d true /\ T (snd s) = Splitter d false /\ inside A (fst s) /\ inside A (snd s) /\ inside A p10 /\ inside A p11 /\
    neighbour A (fst s) d = Some p10 /\ neighbour A (snd s) d = Some p11 /\ block_of g (fst s) d = Some (p10, snd s, p11).
  Proof.
    intros (P1 & P2 & d & T1 & T2 & En). destruct (BR _ _ _ P1 T1) as [N1 _]. destruct (BR _ _ _ P2 T2) as [N2 _].
    destruct (neighbour A (fst s) d) as [p10|] eqn:E1; [|contradiction]. destruct (neighbour A (snd s) d) as [p11|] eqn:E2; [|contradiction].
    exists d, p10, p11. repeat (split; [assumption || (eapply ahead_inside; eassumption) || reflexivity|]). apply block_at; assumption.
  Qed.
End Common.

Section NN.
  Variables (w h size : Z) (ul : option Z) (al : bool) (g : grid) (a : assignment).
  Hypothesis Hul : match ul with Some l => 0 <= l | None => True end.
  Hypothesis Sol : net_parts w h ul size size al g a.
  Variable T : layout.
  Hypothesis R : reads g a T.
  Notation A := (garea g).
  Notation V p := (view_of a (tile_at g p)).
  Notation f := (n_flows size).

  Lemma nn_facts : n_to_n_facts w h size g a.
  Proof.
    pose proof Sol as ((created & Ec & Sc) & _). unfold create_n_to_m_balancer in Ec. rewrite Z.eqb_refl in Ec.
    destruct (negb _); [discriminate|]. eapply n_to_n_parts; eauto.
  Qed.
  Let W : wf_grid g := nn_wf _ _ _ _ _ nn_facts.
  Lemma nn_solves : solves g (EBool true) a.
  Proof.
    pose proof Sol as (_ & _ & _ & Ix & Ls). pose proof nn_facts as F.
    split; [apply F|]. split; [exact Ix|]. split; [apply F|]. split; [apply F|exact Ls].
  Qed.
  Lemma nn_belts : edge_belt_rule g a (EPair false true).
  Proof. apply (block_belts_sat g W a). apply Sol. Qed.
  Lemma nn_edge y : 0 <= y < height (geo g) -> ~ is_splitter_tile (T (0, y)) /\ ~ is_splitter_tile (T (width (geo g) - 1, y)).
  Proof.
    pose proof nn_facts as F. rewrite (nn_hg _ _ _ _ _ F), (nn_wd _ _ _ _ _ F). intros Hy. pose proof (nn_w _ _ _ _ _ F).
    split; apply (not_splitter g W a nn_solves T R).
    - split; cbn [garea area_of aw ah fst snd]; rewrite ?(nn_hg _ _ _ _ _ F), ?(nn_wd _ _ _ _ _ F); lia.
    - apply (nn_first _ _ _ _ _ F y Hy).
    - split; cbn [garea area_of aw ah fst snd]; rewrite ?(nn_hg _ _ _ _ _ F), ?(nn_wd _ _ _ _ _ F); lia.
    - apply (nn_final _ _ _ _ _ F y Hy).
  Qed.
  Lemma nn_border p d k : inside A p -> T p = Splitter d k -> neighbour A p d <> None /\ neighbour A p (opposite d) <> None.
  Proof. apply (no_border_splitter g W a nn_solves T R nn_belts nn_edge). Qed.

  (** Both sides of both halves of every splitter are connected. *)
  Lemma nn_full p d k : inside A p -> T p = Splitter d k -> vi (V p) d = true /\ vo (V p) d = true.
  Proof.
    intros Hp Tp. destruct (splitter_seen g W a (proj1 nn_solves) T R p d k Hp Tp) as (Vs & _ & Oi & Oo & _).
    destruct (nn_used _ _ _ _ _ nn_facts p Hp Vs) as [(e & He) (e' & He')]. rewrite (Oi e He) in He. rewrite (Oo e' He') in He'. auto.
  Qed.
  Lemma nn_ends : exists i j, straight_ends T (fun y => (0, y)) h size i /\ straight_ends T (fun y => (w - 1, y)) h size j /\ (al = true -> i = j).
  Proof.
    pose proof Sol as (_ & (ends & top & Ee & Se) & _). pose proof nn_facts as F.
    assert (Ht : grid_size g <= grid_top g) by (unfold grid_size, grid_top; lia).
    destruct (proj1 (free_ends g W a (proj1 nn_solves) T R size size (grid_top g) Ht nn_edge al ends top Ee)) as (i & j & E1 & E2 & E3).
    { exists a. split; [apply agree_refl|exact Se]. }
    rewrite (nn_hg _ _ _ _ _ F), ?(nn_wd _ _ _ _ _ F) in *. exists i, j. split; [exact E1|]. split; [exact E2|]. intros Ha. specialize (E3 Ha). rewrite Z.leb_refl in E3. lia.
  Qed.

  (** Numbers in units of the shares of the sources 0 .. n-2 ... *)
  Definition share_of (c : nat) (p : pos) : Z := value a (flow g f p c).
  Lemma nn_halves s : is_splitter_at A T s -> forall d p10 p11, T (fst s) = Splitter d true -> neighbour A (fst s) d = Some p10 -> neighbour A (snd s) d = Some p11 ->
    forall c, (c < fl_count f)%nat -> share_of c (fst s) + share_of c (snd s) = 2 * share_of c p10 /\ share_of c p11 = share_of c p10.
  Proof.
    intros Hs d p10 p11 T1 N1 N2 c Hc. destruct (splitter_block g W T nn_border s Hs) as (d' & q10 & q11 & T1' & T2 & P1 & P2 & P3 & P4 & N1' & N2' & Eb).
    assert (d' = d) by congruence. subst d'. assert (q10 = p10) by congruence. assert (q11 = p11) by congruence. subst q10 q11.
    destruct (nn_splitter _ _ _ _ _ nn_facts (fst s) d P1) as (k & Ek & Sk). unfold splitter_flow in Ek. rewrite Eb in Ek.
    destruct (for_components f _) as [cs|] eqn:Ef; [|discriminate]. cbn [obind] in Ek. apply Some_inj in Ek. subst k. rewrite sat_app_iff in Sk. destruct Sk as [S1 _].
    destruct (for_components_sat a f _ cs Ef S1 c Hc) as (k & Ek & Sk). destruct (halve _ _ _ _ _) as [hc|] eqn:Eh; [|discriminate]. cbn [obind] in Ek. apply Some_inj in Ek. subst k.
    pose proof (tile_at_ok g _ W P1) as O. rewrite sat_implies2 in Sk by apply O.
    eapply halve_sound; [..|exact Eh|apply Sk].
    - apply flow_nonzero; assumption.
    - apply flow_nonzero; assumption.
    - apply flow_nonzero; assumption.
    - apply flow_nonzero; assumption.
    - apply flow_carry_nonzero; assumption.
    - change (vh (V (fst s)) = true). apply (splitter_seen g W a (proj1 nn_solves) T R (fst s) d true P1 T1).
    - change (vi (V (fst s)) d = true). apply (nn_full (fst s) d true P1 T1).
  Qed.
  Lemma nn_distinct s : is_splitter_at A T s -> exists c, (c < fl_count f)%nat /\ share_of c (fst s) <> share_of c (snd s).
  Proof.
    intros Hs. destruct (splitter_block g W T nn_border s Hs) as (d & p10 & p11 & T1 & T2 & P1 & P2 & P3 & P4 & N1 & N2 & Eb).
    destruct (nn_splitter _ _ _ _ _ nn_facts (fst s) d P1) as (k & Ek & Sk). unfold splitter_flow in Ek. rewrite Eb in Ek.
    destruct (for_components f _) as [cs|] eqn:Ef; [|discriminate]. cbn [obind] in Ek. apply Some_inj in Ek. subst k. rewrite sat_app_iff in Sk. destruct Sk as [_ S2].
    pose proof (tile_at_ok g _ W P1) as O. destruct (all_flow_ok g W f _ P1) as [L1 Z1]. destruct (all_flow_ok g W f _ P2) as [L2 Z2]. destruct (flow_diff_ok g W f _ P1) as [L3 Z3].
    assert (D : value a (all_flow g f (fst s)) <> value a (all_flow g f (snd s))).
    { eapply differ_sound; [| | | | | |exact S2|]; auto; try lia.
      - constructor; [apply O|]. constructor; [apply O|constructor].
      - intros l [<-|[<-|[]]].
        + change (vh (V (fst s)) = true). apply (splitter_seen g W a (proj1 nn_solves) T R (fst s) d true P1 T1).
        + change (vi (V (fst s)) d = true). apply (nn_full (fst s) d true P1 T1). }
    destruct (in_dec Bool.bool_dec true (map (fun c => negb (share_of c (fst s) =? share_of c (snd s))) (seq 0 (fl_count f)))) as [H|H].
    - apply in_map_iff in H. destruct H as (c & E & Hc). apply in_seq in Hc. exists c. split; [lia|]. apply negb_true_iff, Z.eqb_neq in E. exact E.
    - exfalso. apply D. unfold all_flow, components. assert (X : forall c, (c < fl_count f)%nat -> share_of c (fst s) = share_of c (snd s)).
      { intros c Hc. destruct (Z.eq_dec (share_of c (fst s)) (share_of c (snd s))) as [E|N]; [exact E|]. exfalso. apply H. apply in_map_iff. exists c. split; [apply negb_true_iff, Z.eqb_neq; exact N|apply in_seq; lia]. }
      revert X. generalize (fl_count f) as k. intros k X.
      assert (Y : forall l, (forall c, In c l -> (c < k)%nat) -> value a (flat_map (component (flow_base g f (fst s)) (fl_bits f)) l) = value a (flat_map (component (flow_base g f (snd s)) (fl_bits f)) l)).
      { induction l as [|c l IH]; intros Hl; [reflexivity|]. cbn [flat_map]. rewrite !value_app. unfold len. rewrite !component_length. rewrite (IH (fun x Hx => Hl x (or_intror Hx))).
        pose proof (X c (Hl c (or_introl eq_refl))) as Xc. unfold share_of, flow in Xc. rewrite Xc. reflexivity. }
      apply Y. intros c Hc. apply in_seq in Hc. lia.
  Qed.
  (** ... and of the last source, which has no variables. *)
  Definition source_share (c : nat) (p : pos) : Z :=
    if Nat.ltb c (fl_count f) then share_of c p else full_flow size - zsum (map (fun c => share_of c p) (seq 0 (fl_count f))).

  Lemma nn_count : fl_count f = Z.to_nat (size - 1).
  Proof. reflexivity. Qed.
  Lemma source_halves s : is_splitter_at A T s -> forall d p10 p11, T (fst s) = Splitter d true -> neighbour A (fst s) d = Some p10 -> neighbour A (snd s) d = Some p11 ->
    forall c, source_share c (fst s) + source_share c (snd s) = 2 * source_share c p10 /\ source_share c p11 = source_share c p10.
  Proof.
    intros Hs d p10 p11 T1 N1 N2 c. pose proof (nn_halves s Hs d p10 p11 T1 N1 N2) as H. unfold source_share. destruct (Nat.ltb_spec c (fl_count f)); [apply H; assumption|].
    assert (E1 : zsum (map (fun c => share_of c (fst s)) (seq 0 (fl_count f))) + zsum (map (fun c => share_of c (snd s)) (seq 0 (fl_count f))) = 2 * zsum (map (fun c => share_of c p10) (seq 0 (fl_count f)))).
    { rewrite <- zsum_add, <- zsum_mul. apply zsum_ext. intros x Hx. apply in_seq in Hx. apply H. lia. }
    assert (E2 : zsum (map (fun c => share_of c p11) (seq 0 (fl_count f))) = zsum (map (fun c => share_of c p10) (seq 0 (fl_count f)))).
    { apply zsum_ext. intros x Hx. apply in_seq in Hx. apply H. lia. }
    split; lia.
  Qed.
  Lemma source_carried c p q : carried A T (max_hidden g) p q -> source_share c p = source_share c q.
  Proof.
    intros C. destruct (nn_moved _ _ _ _ _ nn_facts) as (moved & Em & Sm).
    assert (X : forall c, (c < fl_count f)%nat -> share_of c p = share_of c q) by (intros x Hx; apply (flow_carried g W a f T R nn_solves moved Em Sm (max_hidden g) x p q Hx C)).
    unfold source_share. destruct (Nat.ltb_spec c (fl_count f)); [apply X; assumption|]. f_equal. apply zsum_ext. intros x Hx. apply in_seq in Hx. apply X. lia.
  Qed.
  Lemma source_left c y : (c < Z.to_nat size)%nat -> 0 <= y < h -> source_share c (0, y) = if y mod size =? Z.of_nat c then full_flow size else 0.
  Proof.
    intros Hc Hy. pose proof nn_facts as F. destruct (nn_first _ _ _ _ _ F y Hy) as [_ H]. pose proof (nn_size _ _ _ _ _ F) as Hs. pose proof (Z.mod_pos_bound y size Hs).
    unfold source_share. destruct (Nat.ltb_spec c (fl_count f)) as [Hl|Hl]; [apply H; assumption|].
    rewrite (zsum_ext _ (fun c => if y mod size =? Z.of_nat c then full_flow size else 0)) by (intros x Hx; apply in_seq in Hx; apply H; lia).
    rewrite zsum_pick by lia. rewrite nn_count in *. destruct (Z.ltb_spec (y mod size) (Z.of_nat (Z.to_nat (size - 1)))), (Z.eqb_spec (y mod size) (Z.of_nat c)); lia.
  Qed.
  Lemma source_right c y : (c < Z.to_nat size)%nat -> 0 <= y < h -> source_share c (w - 1, y) = denominator size.
  Proof.
    intros Hc Hy. pose proof nn_facts as F. destruct (nn_final _ _ _ _ _ F y Hy) as [_ H]. pose proof (nn_size _ _ _ _ _ F) as Hs.
    unfold source_share. destruct (Nat.ltb_spec c (fl_count f)) as [Hl|Hl]; [apply H; assumption|].
    rewrite (zsum_ext _ (fun c => denominator size)) by (intros x Hx; apply in_seq in Hx; apply H; lia).
    rewrite zsum_const, seq_length, nn_count. unfold full_flow. rewrite Z2Nat.id by lia. ring.
  Qed.

  Lemma nn_shares : shares_equally A T (max_hidden g).
  Proof.
    pose proof nn_facts as F. destruct nn_ends as (i & j & E1 & E2 & _). pose proof (nn_size _ _ _ _ _ F) as Hs. destruct (denominator_exact size Hs) as (D0 & _ & F0 & _).
    assert (NT : no_touching g a T) by (intros p d k q k' Hp Tp _ _; apply (nn_full p d k Hp Tp)).
    rewrite <- (nn_hg _ _ _ _ _ F) in E1, E2. rewrite <- (nn_wd _ _ _ _ _ F) in E2.
    apply (equal_shares g W (nn_cx _ _ _ _ _ F) (nn_cy _ _ _ _ _ F) a nn_solves T R nn_belts nn_edge size size i j Hs Hs E1 E2 source_share (full_flow size) (denominator size) F0).
    - unfold full_flow. ring.
    - intros c p q _. apply source_carried.
    - intros c y Hc Hy. rewrite (nn_hg _ _ _ _ _ F) in Hy. apply source_left; assumption.
    - intros c y Hc Hy. rewrite (nn_hg _ _ _ _ _ F) in Hy. rewrite (nn_wd _ _ _ _ _ F). apply source_right; assumption.
    - exact NT.
    - intros c s Hc Hs'. destruct (splitter_block g W T nn_border s Hs') as (d & p10 & p11 & T1 & T2 & P1 & P2 & P3 & P4 & N1 & N2 & _).
      destruct (source_halves s Hs' d p10 p11 T1 N1 N2 c) as [Q1 Q2]. destruct (nn_full _ _ _ P1 T1) as [I1 O1]. destruct (nn_full _ _ _ P2 T2) as [I2 O2].
      cbn [into_of from_of]. rewrite T1, T2, I1, I2, O1, O2, N1, N2. split; [lia|]. intros _ _ _ _. lia.
  Qed.
  Lemma nn_all_used p : inside A p -> is_splitter_tile (T p) -> exit_used A T (max_hidden g) p /\ entrance_used A T (max_hidden g) p.
  Proof.
    intros Hp Sp. destruct (T p) as [| | | |d k| |] eqn:Tp; try contradiction. destruct (nn_full p d k Hp Tp) as [I O].
    assert (NT : no_touching g a T) by (intros q e k' r k'' Hq Tq _ _; apply (nn_full q e k' Hq Tq)).
    pose proof (closed_valid g W a nn_solves T R) as VL.
    split; [apply (exit_used_vo g W a (proj1 nn_solves) (proj1 (proj2 nn_solves)) T R (max_hidden g) VL nn_border NT p d k Hp Tp)|
            apply (entrance_used_vi g W a (proj1 nn_solves) (proj1 (proj2 nn_solves)) T R (max_hidden g) VL nn_border NT p d k Hp Tp)]; assumption.
  Qed.
  Lemma nn_balanced : balanced_layout A T (max_hidden g).
  Proof.
    intros into from ins outs [S1 S2] Hi Ho. apply nn_shares; [|exact Hi|exact Ho]. split; [exact S1|]. split.
    - intros p Hp Sp. destruct (nn_all_used p Hp Sp). split; contradiction.
    - intros s Hs. destruct (S2 s Hs) as [Q1 Q2]. split; [exact Q2|auto].
  Qed.
End NN.
