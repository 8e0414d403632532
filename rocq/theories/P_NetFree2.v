(** What the clauses of the network-free balancer say when the numbers of inputs
    and outputs differ. *)
From Coq Require Import String ZArith QArith List Bool Lia.
From Verif Require Import Spec_Cnf Spec_Tile Spec_Layout M_Json M_Tile M_Util M_Card M_Network Spec_Network M_Template M_Grid M_Oracle M_Balancer M_Optimise M_NetFree
  Spec_Balancer Spec_Flow P_Cnf P_Util P_Util2 P_Tile P_Layout P_List P_Template P_Walk P_Grid P_GridSound P_GridComplete P_Transport T_Grid P_GridOk P_Gen P_Trace P_Uniq P_FlowWitness
  P_NetArith P_NetClause P_NetEnds P_NetShape P_NetFree.
Import ListNotations.
Open Scope Z_scope.

Record n_to_m_facts (w h n m M : Z) (g : grid) (a : assignment) : Prop := {
  nm_w : 0 < w; nm_h : 0 < h; nm_n : 0 < n; nm_m : 0 < m; nm_M : max_belt_flow n m = Some M;
  nm_wf : wf_grid g; nm_wd : width (geo g) = w; nm_hg : height (geo g) = h; nm_cx : wrap_x (geo g) = false; nm_cy : wrap_y (geo g) = false;
  nm_init : solves_init g a;
  nm_edges : sat a (block_underground_through_edges g (EBool true)) = true;
  nm_under : sat a (prevent_bad_undergrounding g) = true;
  nm_max : forall f p c, In f [forward_flows n M; backward_flows n m M] -> inside (garea g) p -> (c < fl_count f)%nat -> value a (flow g f p c) <= M;
  nm_moved : forall f, In f [forward_flows n M; backward_flows n m M] ->
    exists moved, transport_quantity g (all_flow g f) (flow_ux g f) (flow_uy g f) = Some moved /\ sat a moved = true;
  nm_splitter : forall p d, inside (garea g) p -> exists k, n_to_m_splitter g (forward_flows n M) (backward_flows n m M) p d = Some k /\ sat a k = true;
  nm_first : forall y, 0 <= y < h -> vs (view_of a (tile_at g (0, y))) = false /\
    (forall c, (c < Z.to_nat n)%nat -> value a (flow g (forward_flows n M) (0, y) c) = if y mod n =? Z.of_nat c then forward_input n m M else 0) /\
    (forall c, (c < Z.to_nat m)%nat -> value a (flow g (backward_flows n m M) (0, y) c) = backward_output n m M);
  nm_final : forall y, 0 <= y < h -> vs (view_of a (tile_at g (w - 1, y))) = false /\
    (forall c, (c < Z.to_nat n)%nat -> value a (flow g (forward_flows n M) (w - 1, y) c) = forward_output n m M) /\
    (forall c, (c < Z.to_nat m)%nat -> value a (flow g (backward_flows n m M) (w - 1, y) c) = if y mod m =? Z.of_nat c then backward_input n m M else 0) }.

Lemma n_to_m_wf w h ul n m M : 0 < w -> 0 < h -> match ul with Some l => 0 <= l | None => True end -> wf_grid (n_to_m_grid w h ul n m M).
Proof. intros Hw Hh Hu. unfold wf_grid, n_to_m_grid. cbn [geo gtop gcolours glen width height]. repeat split; cbn [width height]; try lia. exact Hu. Qed.

Lemma n_to_m_parts w h ul n m g a created : match ul with Some l => 0 <= l | None => True end -> n <> m ->
  create_n_to_m_balancer w h ul n m = Some (g, created) -> sat a created = true -> exists M, n_to_m_facts w h n m M g a.
Proof.
  intros Hul Hnm E Sa. unfold create_n_to_m_balancer in E.
  destruct (Z.ltb_spec 0 w) as [Hw|]; [|discriminate]. destruct (Z.ltb_spec 0 h) as [Hh|]; [|discriminate].
  destruct (Z.ltb_spec 0 n) as [Hn|]; [|discriminate]. destruct (Z.ltb_spec 0 m) as [Hm|]; [|discriminate].
  cbn [negb andb] in E. destruct (Z.eqb_spec n m); [contradiction|].
  destruct (max_belt_flow n m) as [M|] eqn:EM; [|discriminate]. cbn [obind] in E. exists M.
  pose proof (n_to_m_wf w h ul n m M Hw Hh Hul) as W. set (g0 := n_to_m_grid w h ul n m M) in *.
  assert (G1 : width (geo g0) = w) by reflexivity. assert (G2 : height (geo g0) = h) by reflexivity.
  assert (G3 : wrap_x (geo g0) = false) by reflexivity. assert (G4 : wrap_y (geo g0) = false) by reflexivity.
  assert (G5 : iterate_tiles (geo g0) = cells w h) by reflexivity. clearbody g0.
  destruct (init_clauses g0) as [init|] eqn:Ei; [|discriminate]. cbn [obind] in E.
  destruct (oflat _ (iterate_tiles (geo g0))) as [tiles|] eqn:Et; [|discriminate]. cbn [obind] in E.
  destruct (transport_quantity _ _ _ _) as [mf|] eqn:Em; [|discriminate]. cbn [obind] in E.
  destruct (transport_quantity _ (all_flow g0 (backward_flows n m M)) _ _) as [mb|] eqn:Em2; [|discriminate]. cbn [obind] in E.
  destruct (oflat _ (cells w h)) as [splitters|] eqn:Esp; [|discriminate]. cbn [obind] in E.
  destruct (oflat (edge_flow g0 _ 0) (range h)) as [first|] eqn:Ef; [|discriminate]. cbn [obind] in E.
  destruct (oflat (edge_flow g0 _ (w - 1)) (range h)) as [final|] eqn:El; [|discriminate]. cbn [obind] in E.
  assert (g0 = g) by congruence. subst g0.
  assert (Ec : created = (init ++ block_underground_through_edges g (EBool true) ++ prevent_bad_undergrounding g ++ tiles ++ mf ++ mb ++ splitters ++ first ++ final)%list) by congruence.
  subst created. clear E. rewrite !sat_app_iff in Sa. destruct Sa as (S1 & S2 & S3 & S4 & S5 & S5' & S6 & S7 & S8).
  destruct (forward_numbers n m M Hn Hm EM) as (_ & _ & F1 & F2 & _). destruct (backward_numbers n m M Hn Hm EM) as (_ & _ & B1 & B2 & _).
  assert (Left : forall y, 0 <= y < h -> inside (garea g) (0, y)) by (intros y Hy; split; cbn [garea area_of aw ah fst snd]; lia).
  assert (Right : forall y, 0 <= y < h -> inside (garea g) (w - 1, y)) by (intros y Hy; split; cbn [garea area_of aw ah fst snd]; lia).
  constructor; auto.
  - exists init. auto.
  - intros f p c Hf Hp Hc. destruct (proj1 (sat_oflat a _ _ _ Et) S4 p) as (k & Ek & Sk); [apply iterate_tiles_in; exact Hp|].
    destruct (for_components (forward_flows n M) _) as [b1|] eqn:E1; [|discriminate]. cbn [obind] in Ek.
    destruct (for_components (backward_flows n m M) _) as [b2|] eqn:E2; [|discriminate]. cbn [obind] in Ek. apply Some_inj in Ek. subst k.
    rewrite !sat_app_iff in Sk. destruct Sk as (K1 & K2 & _). destruct Hf as [<-|[<-|[]]].
    + destruct (for_components_sat a _ _ _ E1 K1 c Hc) as (k & Ek & Sk). apply (set_maximum_spec _ _ _ (flow_nonzero g W _ p c Hp) Ek). exact Sk.
    + destruct (for_components_sat a _ _ _ E2 K2 c Hc) as (k & Ek & Sk). apply (set_maximum_spec _ _ _ (flow_nonzero g W _ p c Hp) Ek). exact Sk.
  - intros f [<-|[<-|[]]]; [exists mf|exists mb]; auto.
  - intros p d Hp. destruct (proj1 (sat_oflat a _ _ _ Esp) S6 p) as (k & Ek & Sk); [rewrite <- G5; apply iterate_tiles_in; exact Hp|].
    apply (proj1 (sat_oflat a _ _ _ Ek) Sk d). apply directions_all.
  - intros y Hy. destruct (proj1 (sat_oflat a _ _ _ Ef) S7 y) as (k & Ek & Sk); [apply range_in; exact Hy|].
    destruct (edge_flow_sat g W a _ 0 y k (Left y Hy) Ek Sk) as [V1 V2]. split; [exact V1|]. split; intros c Hc.
    + apply (V2 _ _ (or_introl eq_refl) c Hc). unfold source_flow. destruct (_ =? _); lia.
    + apply (V2 _ _ (or_intror (or_introl eq_refl)) c Hc). lia.
  - intros y Hy. destruct (proj1 (sat_oflat a _ _ _ El) S8 y) as (k & Ek & Sk); [apply range_in; exact Hy|].
    destruct (edge_flow_sat g W a _ (w - 1) y k (Right y Hy) Ek Sk) as [V1 V2]. split; [exact V1|]. split; intros c Hc.
    + apply (V2 _ _ (or_introl eq_refl) c Hc). lia.
    + apply (V2 _ _ (or_intror (or_introl eq_refl)) c Hc). unfold source_flow. destruct (_ =? _); lia.
Qed.

(** Adding and splitting, guarded by conditions. *)
Lemma guarded a pre s k : Forall nonzero pre -> sat a (implies pre s) = true -> s = k -> (forall l, In l pre -> evl a l = true) -> sat a k = true.
Proof.
  intros NP Sa <- H. rewrite sat_implies in Sa by exact NP. apply orb_true_iff in Sa. destruct Sa as [Sa|Sa]; [|exact Sa].
  apply negb_true_iff in Sa. rewrite <- not_true_iff_false in Sa. exfalso. apply Sa. apply forallb_forall. exact H.
Qed.

Section NM.
  Variables (w h n m M : Z) (ul : option Z) (al : bool) (g : grid) (a : assignment).
  Hypothesis Sol : net_parts w h ul n m al g a.
  Hypothesis F : n_to_m_facts w h n m M g a.
  Variable T : layout.
  Hypothesis R : reads g a T.
  Notation A := (garea g).
  Notation V p := (view_of a (tile_at g p)).
  Notation ff := (forward_flows n M).
  Notation fb := (backward_flows n m M).
  Let W : wf_grid g := nm_wf _ _ _ _ _ _ _ F.

  Lemma nm_solves : solves g (EBool true) a.
  Proof.
    pose proof Sol as (_ & _ & _ & Ix & Ls).
    split; [apply F|]. split; [exact Ix|]. split; [apply F|]. split; [apply F|exact Ls].
  Qed.
  Lemma nm_belts : edge_belt_rule g a (EPair false true).
  Proof. apply (block_belts_sat g W a). apply Sol. Qed.
  Lemma nm_edge y : 0 <= y < height (geo g) -> ~ is_splitter_tile (T (0, y)) /\ ~ is_splitter_tile (T (width (geo g) - 1, y)).
  Proof.
    rewrite (nm_hg _ _ _ _ _ _ _ F), (nm_wd _ _ _ _ _ _ _ F). intros Hy. pose proof (nm_w _ _ _ _ _ _ _ F).
    split; apply (not_splitter g W a nm_solves T R).
    - split; cbn [garea area_of aw ah fst snd]; rewrite ?(nm_hg _ _ _ _ _ _ _ F), ?(nm_wd _ _ _ _ _ _ _ F); lia.
    - apply (nm_first _ _ _ _ _ _ _ F y Hy).
    - split; cbn [garea area_of aw ah fst snd]; rewrite ?(nm_hg _ _ _ _ _ _ _ F), ?(nm_wd _ _ _ _ _ _ _ F); lia.
    - apply (nm_final _ _ _ _ _ _ _ F y Hy).
  Qed.
  Lemma nm_border p d k : inside A p -> T p = Splitter d k -> neighbour A p d <> None /\ neighbour A p (opposite d) <> None.
  Proof. apply (no_border_splitter g W a nm_solves T R nm_belts nm_edge). Qed.
  Lemma nm_ends : exists i j, straight_ends T (fun y => (0, y)) h n i /\ straight_ends T (fun y => (w - 1, y)) h m j /\
    (al = true -> if m <=? n then i <= j <= i + n - m else j <= i <= j + m - n).
  Proof.
    pose proof Sol as (_ & (ends & top & Ee & Se) & _).
    assert (Ht : grid_size g <= grid_top g) by (unfold grid_size, grid_top; lia).
    destruct (proj1 (free_ends g W a (proj1 nm_solves) T R n m (grid_top g) Ht nm_edge al ends top Ee)) as (i & j & E1 & E2 & E3).
    { exists a. split; [apply agree_refl|exact Se]. }
    rewrite (nm_hg _ _ _ _ _ _ _ F), ?(nm_wd _ _ _ _ _ _ _ F) in *. exists i, j. auto.
  Qed.

  (** The values of the components of both quantities. *)
  Definition fwd (c : nat) (p : pos) : Z := value a (flow g ff p c).
  Definition bwd (c : nat) (p : pos) : Z := value a (flow g fb p c).
  Definition halved (u : nat -> pos -> Z) (k : Z) (x0 x1 y0 y1 : pos) : Prop :=
    forall c, (c < Z.to_nat k)%nat -> u c x0 + u c x1 = 2 * u c y0 /\ u c y1 = u c y0.
  Definition split_in_two (u : nat -> pos -> Z) (k : Z) (x y0 y1 : pos) : Prop :=
    forall c, (c < Z.to_nat k)%nat -> u c x = 2 * u c y0 /\ u c y1 = u c y0.
  Definition added_up (u : nat -> pos -> Z) (k : Z) (x0 x1 y : pos) : Prop :=
    forall c, (c < Z.to_nat k)%nat -> u c x0 + u c x1 = u c y.
  (** What holds at a splitter at [p] and [q] facing [d], with [p10] and [p11] in
      front of it: at most one of the four sides is not connected, and each
      quantity is split or merged accordingly. *)
  Definition connected_well (p q p10 p11 : pos) (d : dir) : Prop :=
    let i0 := vi (V p) d in let i1 := vi (V q) d in let o0 := vo (V p) d in let o1 := vo (V q) d in
    (i0 = true /\ i1 = true /\ o0 = true /\ o1 = true /\ halved fwd n p q p10 p11 /\ halved bwd m p10 p11 p q) \/
    (o0 = true /\ o1 = true /\ exists s, (s = p /\ i0 = true /\ i1 = false \/ s = q /\ i0 = false /\ i1 = true) /\
       split_in_two fwd n s p10 p11 /\ added_up bwd m p10 p11 s) \/
    (i0 = true /\ i1 = true /\ exists s, (s = p10 /\ o0 = true /\ o1 = false \/ s = p11 /\ o0 = false /\ o1 = true) /\
       added_up fwd n p q s /\ split_in_two bwd m s p q).

  Lemma split_component f x y0 y1 c pre s : inside A x -> inside A y0 -> inside A y1 -> Forall nonzero pre -> (forall l, In l pre -> evl a l = true) ->
    (let* s := split_flow (flow g f x c) (flow g f y0 c) (flow g f y1 c) in Some (implies pre s)) = Some s -> sat a s = true ->
    value a (flow g f x c) = 2 * value a (flow g f y0 c) /\ value a (flow g f y1 c) = value a (flow g f y0 c).
  Proof.
    intros H1 H2 H3 NP HP E Sa. destruct (split_flow _ _ _) as [k|] eqn:Ek; [|discriminate]. cbn [obind] in E. apply Some_inj in E. subst s.
    pose proof (guarded a pre k k NP Sa eq_refl HP) as Sk.
    eapply split_sound; [..|exact Ek|exact Sk]; try (apply flow_nonzero; assumption); rewrite !flow_length; reflexivity.
  Qed.
  Lemma halve_component f x0 x1 y0 y1 z c pre s : inside A x0 -> inside A x1 -> inside A y0 -> inside A y1 -> inside A z -> Forall nonzero pre -> (forall l, In l pre -> evl a l = true) ->
    (let* s := halve (flow g f x0 c) (flow g f x1 c) (flow g f y0 c) (flow g f y1 c) (flow_carry g f z c) in Some (implies pre s)) = Some s -> sat a s = true ->
    value a (flow g f x0 c) + value a (flow g f x1 c) = 2 * value a (flow g f y0 c) /\ value a (flow g f y1 c) = value a (flow g f y0 c).
  Proof.
    intros H1 H2 H3 H4 H5 NP HP E Sa. destruct (halve _ _ _ _ _) as [k|] eqn:Ek; [|discriminate]. cbn [obind] in E. apply Some_inj in E. subst s.
    pose proof (guarded a pre k k NP Sa eq_refl HP) as Sk.
    eapply halve_sound; [..|exact Ek|exact Sk]; try (apply flow_nonzero; assumption). apply flow_carry_nonzero; assumption.
  Qed.
  Lemma add_component f x0 x1 y z c pre s : inside A x0 -> inside A x1 -> inside A y -> inside A z -> Forall nonzero pre -> (forall l, In l pre -> evl a l = true) ->
    (let* s := add_numbers (flow g f x0 c) (flow g f x1 c) (flow g f y c) (flow_carry g f z c) None false in Some (implies pre s)) = Some s -> sat a s = true ->
    value a (flow g f x0 c) + value a (flow g f x1 c) = value a (flow g f y c).
  Proof.
    intros H1 H2 H3 H4 NP HP E Sa. destruct (add_numbers _ _ _ _ _ _) as [k|] eqn:Ek; [|discriminate]. cbn [obind] in E. apply Some_inj in E. subst s.
    pose proof (guarded a pre k k NP Sa eq_refl HP) as Sk.
    assert (Q : add_sem (flow g f x0 c) (flow g f x1 c) (flow g f y c) None false a).
    { eapply add_numbers_sound; [..|exact Ek|exact Sk]; try (apply flow_nonzero; assumption); [apply flow_carry_nonzero; assumption|exact Logic.I]. }
    unfold add_sem in Q. cbn [cval] in Q. lia.
  Qed.
  Lemma partial_sound p p10 p01 p11 d side cs : inside A p -> inside A p10 -> inside A p01 -> inside A p11 ->
    partial_splitter_flow g ff fb p p10 p01 p11 d side = Some cs -> sat a cs = true -> vh (V p) = true ->
    let c := if side then p01 else p in let co := if side then p11 else p10 in let u := if side then p else p01 in
    (vo (V p) d = true -> vi (V c) d = true -> vi (V u) d = false -> split_in_two fwd n c p10 p11 /\ added_up bwd m p10 p11 c) /\
    (vi (V p) d = true -> vo (V c) d = true -> vo (V u) d = false -> added_up fwd n p p01 co /\ split_in_two bwd m co p p01).
  Proof.
    intros H0 H1 H2 H3 E Sa Vh c co u. unfold partial_splitter_flow in E.
    assert (E' : (if side then ((p01 : Z * Z), (p11 : Z * Z), (p : Z * Z)) else ((p : Z * Z), (p10 : Z * Z), (p01 : Z * Z))) = (c, co, u)) by (unfold c, co, u; destruct side; reflexivity). rewrite E' in E. clear E'.
    assert (Hc : inside A c) by (unfold c; destruct side; assumption). assert (Hco : inside A co) by (unfold co; destruct side; assumption). assert (Hu : inside A u) by (unfold u; destruct side; assumption).
    clearbody c co u.
    destruct (for_components ff _) as [c1|] eqn:E1; [|discriminate]. cbn [obind] in E.
    destruct (for_components fb _) as [c2|] eqn:E2; [|discriminate]. cbn [obind] in E.
    destruct (for_components ff (fun c0 => obind (add_numbers _ _ _ _ _ _) _)) as [c3|] eqn:E3; [|discriminate]. cbn [obind] in E.
    destruct (for_components fb (fun c0 => obind (split_flow _ _ _) _)) as [c4|] eqn:E4; [|discriminate]. cbn [obind] in E.
    apply Some_inj in E. subst cs. rewrite !sat_app_iff in Sa. destruct Sa as (S1 & S2 & S3 & S4).
    pose proof (tile_at_ok g _ W H0) as O. pose proof (tile_at_ok g _ W Hc) as Oc. pose proof (tile_at_ok g _ W Hu) as Ou.
    split; intros A1 A2 A3.
    - assert (NP : Forall nonzero [is_splitter_head (tile_at g p); output_dir (tile_at g p) d; input_dir (tile_at g c) d; - input_dir (tile_at g u) d]).
      { repeat constructor; unfold nonzero; try apply O; try apply Oc. assert (input_dir (tile_at g u) d <> 0) by apply Ou. lia. }
      assert (HP : forall l, In l [is_splitter_head (tile_at g p); output_dir (tile_at g p) d; input_dir (tile_at g c) d; - input_dir (tile_at g u) d] -> evl a l = true).
      { intros l [<-|[<-|[<-|[<-|[]]]]]; [exact Vh|exact A1|exact A2|]. rewrite P_Cnf.evl_neg by apply Ou. apply negb_true_iff. exact A3. }
      split; intros x Hx.
      + destruct (for_components_sat a _ _ _ E1 S1 x Hx) as (k & Ek & Sk). exact (split_component ff c p10 p11 x _ k Hc H1 H3 NP HP Ek Sk).
      + destruct (for_components_sat a _ _ _ E2 S2 x Hx) as (k & Ek & Sk). exact (add_component fb p10 p11 c p x _ k H1 H3 Hc H0 NP HP Ek Sk).
    - assert (NP : Forall nonzero [is_splitter_head (tile_at g p); input_dir (tile_at g p) d; output_dir (tile_at g c) d; - output_dir (tile_at g u) d]).
      { repeat constructor; unfold nonzero; try apply O; try apply Oc. assert (output_dir (tile_at g u) d <> 0) by apply Ou. lia. }
      assert (HP : forall l, In l [is_splitter_head (tile_at g p); input_dir (tile_at g p) d; output_dir (tile_at g c) d; - output_dir (tile_at g u) d] -> evl a l = true).
      { intros l [<-|[<-|[<-|[<-|[]]]]]; [exact Vh|exact A1|exact A2|]. rewrite P_Cnf.evl_neg by apply Ou. apply negb_true_iff. exact A3. }
      split; intros x Hx.
      + destruct (for_components_sat a _ _ _ E3 S3 x Hx) as (k & Ek & Sk). exact (add_component ff p p01 co p x _ k H0 H2 Hco H0 NP HP Ek Sk).
      + destruct (for_components_sat a _ _ _ E4 S4 x Hx) as (k & Ek & Sk). exact (split_component fb co p p01 x _ k Hco H0 H2 NP HP Ek Sk).
  Qed.

  Lemma nm_connected s : is_splitter_at A T s -> exists d p10 p11, T (fst s) = Splitter d true /\ T (snd s) = Splitter d false /\
    inside A (fst s) /\ inside A (snd s) /\ neighbour A (fst s) d = Some p10 /\ neighbour A (snd s) d = Some p11 /\ connected_well (fst s) (snd s) p10 p11 d.
  Proof.
    intros Hs. destruct (splitter_block g W T nm_border s Hs) as (d & p10 & p11 & T1 & T2 & P1 & P2 & P3 & P4 & N1 & N2 & Eb).
    exists d, p10, p11. repeat (split; [assumption|]).
    destruct (nm_splitter _ _ _ _ _ _ _ F (fst s) d P1) as (k & Ek & Sk). unfold n_to_m_splitter in Ek. rewrite Eb in Ek. destruct s as [p q]. cbn [fst snd] in *.
    destruct (for_components ff _) as [c1|] eqn:E1; [|discriminate]. cbn [obind] in Ek.
    destruct (for_components fb _) as [c2|] eqn:E2; [|discriminate]. cbn [obind] in Ek.
    destruct (partial_splitter_flow g ff fb p p10 q p11 d false) as [c3|] eqn:E3; [|discriminate]. cbn [obind] in Ek.
    destruct (partial_splitter_flow g ff fb p p10 q p11 d true) as [c4|] eqn:E4; [|discriminate]. cbn [obind] in Ek.
    apply Some_inj in Ek. subst k. rewrite !sat_app_iff in Sk. destruct Sk as (S0 & S1 & S2 & _ & S3 & S4).
    destruct (splitter_seen g W a (proj1 nm_solves) T R p d true P1 T1) as (_ & Vh & _ & _ & U1).
    destruct (splitter_seen g W a (proj1 nm_solves) T R q d false P2 T2) as (_ & _ & _ & _ & U2).
    pose proof (partial_sound p p10 q p11 d false c3 P1 P3 P2 P4 E3 S3 Vh) as [Q1 Q2]. pose proof (partial_sound p p10 q p11 d true c4 P1 P3 P2 P4 E4 S4 Vh) as [Q3 Q4].
    pose proof (tile_at_ok g _ W P1) as O1. pose proof (tile_at_ok g _ W P2) as O2.
    assert (N1' : is_splitter_head (tile_at g p) <> 0) by apply O1. assert (N2' : input_dir (tile_at g p) d <> 0) by apply O1. assert (N3' : output_dir (tile_at g p) d <> 0) by apply O1.
    unfold connected_well.
    rewrite !sat_cons_iff in S0. destruct S0 as (B1 & B2 & B3 & B4 & _). rewrite satc_In in B1, B2, B3, B4.
    assert (C1 : vi (V p) d = true -> vo (V p) d = true \/ vo (V q) d = true).
    { intros X. destruct B1 as (l & [<-|[<-|[<-|[<-|[]]]]] & El); auto; rewrite P_Cnf.evl_neg in El by assumption; [change (negb (vh (V p)) = true) in El; rewrite Vh in El; discriminate|].
      change (negb (vi (V p) d) = true) in El. rewrite X in El. discriminate. }
    assert (C2 : vi (V p) d = true -> vo (V p) d = true \/ vi (V q) d = true).
    { intros X. destruct B2 as (l & [<-|[<-|[<-|[<-|[]]]]] & El); auto; rewrite P_Cnf.evl_neg in El by assumption; [change (negb (vh (V p)) = true) in El; rewrite Vh in El; discriminate|].
      change (negb (vi (V p) d) = true) in El. rewrite X in El. discriminate. }
    assert (C3 : vo (V p) d = true -> vi (V p) d = true \/ vi (V q) d = true).
    { intros X. destruct B3 as (l & [<-|[<-|[<-|[<-|[]]]]] & El); auto; rewrite P_Cnf.evl_neg in El by assumption; [change (negb (vh (V p)) = true) in El; rewrite Vh in El; discriminate|].
      change (negb (vo (V p) d) = true) in El. rewrite X in El. discriminate. }
    assert (C4 : vo (V p) d = true -> vi (V p) d = true \/ vo (V q) d = true).
    { intros X. destruct B4 as (l & [<-|[<-|[<-|[<-|[]]]]] & El); auto; rewrite P_Cnf.evl_neg in El by assumption; [change (negb (vh (V p)) = true) in El; rewrite Vh in El; discriminate|].
      change (negb (vo (V p) d) = true) in El. rewrite X in El. discriminate. }
    clear B1 B2 B3 B4.
    assert (Full : vi (V p) d = true -> vi (V q) d = true -> vo (V p) d = true -> vo (V q) d = true -> halved fwd n p q p10 p11 /\ halved bwd m p10 p11 p q).
    { intros X1 X2 X3 X4.
      assert (NP : Forall nonzero [is_splitter_head (tile_at g p); input_dir (tile_at g p) d; input_dir (tile_at g q) d; output_dir (tile_at g p) d; output_dir (tile_at g q) d])
        by (repeat constructor; unfold nonzero; try apply O1; apply O2).
      assert (HP : forall l, In l [is_splitter_head (tile_at g p); input_dir (tile_at g p) d; input_dir (tile_at g q) d; output_dir (tile_at g p) d; output_dir (tile_at g q) d] -> evl a l = true)
        by (intros l [<-|[<-|[<-|[<-|[<-|[]]]]]]; assumption).
      split; intros x Hx.
      - destruct (for_components_sat a _ _ _ E1 S1 x Hx) as (k & Ek & Sk). exact (halve_component ff p q p10 p11 p x _ k P1 P2 P3 P4 P1 NP HP Ek Sk).
      - destruct (for_components_sat a _ _ _ E2 S2 x Hx) as (k & Ek & Sk). exact (halve_component fb p10 p11 p q p x _ k P3 P4 P1 P2 P1 NP HP Ek Sk). }
    clear - U1 U2 Q1 Q2 Q3 Q4 C1 C2 C3 C4 Full. cbn [fst snd] in *.
    destruct (vi (V p) d), (vi (V q) d), (vo (V p) d), (vo (V q) d); cbn in *;
      try (exfalso; intuition discriminate).
    - left. destruct (Full eq_refl eq_refl eq_refl eq_refl). auto 10.
    - right. right. split; [reflexivity|]. split; [reflexivity|]. exists p10. split; [auto|]. apply Q2; reflexivity.
    - right. right. split; [reflexivity|]. split; [reflexivity|]. exists p11. split; [auto|]. apply Q4; reflexivity.
    - right. left. split; [reflexivity|]. split; [reflexivity|]. exists p. split; [auto|]. apply Q1; reflexivity.
    - right. left. split; [reflexivity|]. split; [reflexivity|]. exists q. split; [auto|]. apply Q3; reflexivity.
  Qed.

  Lemma nm_shares : no_touching g a T -> shares_equally A T (max_hidden g).
  Proof.
    intros NT. destruct nm_ends as (i & j & E1 & E2 & _). pose proof (nm_n _ _ _ _ _ _ _ F) as Hn. pose proof (nm_m _ _ _ _ _ _ _ F) as Hm.
    destruct (forward_numbers n m M Hn Hm (nm_M _ _ _ _ _ _ _ F)) as (_ & Sh & _ & F0 & _).
    rewrite <- (nm_hg _ _ _ _ _ _ _ F) in E1, E2. rewrite <- (nm_wd _ _ _ _ _ _ _ F) in E2.
    apply (equal_shares g W (nm_cx _ _ _ _ _ _ _ F) (nm_cy _ _ _ _ _ _ _ F) a nm_solves T R nm_belts nm_edge n m i j Hn Hm E1 E2 fwd (forward_input n m M) (forward_output n m M) (proj1 F0) Sh).
    - intros c p q Hc C. destruct (nm_moved _ _ _ _ _ _ _ F ff (or_introl eq_refl)) as (moved & Em & Sm).
      apply (flow_carried g W a ff T R nm_solves moved Em Sm (max_hidden g) c p q Hc C).
    - intros c y Hc Hy. rewrite (nm_hg _ _ _ _ _ _ _ F) in Hy. apply (nm_first _ _ _ _ _ _ _ F y Hy); assumption.
    - intros c y Hc Hy. rewrite (nm_hg _ _ _ _ _ _ _ F) in Hy. rewrite (nm_wd _ _ _ _ _ _ _ F). apply (nm_final _ _ _ _ _ _ _ F y Hy); assumption.
    - exact NT.
    - intros c s Hc Hs. destruct (nm_connected s Hs) as (d & p10 & p11 & T1 & T2 & P1 & P2 & N1 & N2 & C).
      cbn [into_of from_of]. rewrite T1, T2, N1, N2. unfold connected_well in C. cbn [fst snd] in *.
      destruct C as [(I0 & I1 & O0 & O1 & H & _)|[(O0 & O1 & x & Hx & H & _)|(I0 & I1 & x & Hx & H & _)]]; specialize (H c Hc).
      + rewrite I0, I1, O0, O1. split; [lia|]. intros _ _ _ _. lia.
      + destruct Hx as [(-> & I0 & I1)|(-> & I0 & I1)]; rewrite I0, I1, O0, O1; (split; [lia|]; intros _ _ _ _; lia).
      + destruct Hx as [(-> & O0 & O1)|(-> & O0 & O1)]; rewrite I0, I1, O0, O1; (split; [lia|]; intros e Te X Y; congruence).
  Qed.
End NM.
