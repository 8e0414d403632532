(** The network-free balancer builds its clauses without an error. *)
From Coq Require Import String ZArith QArith List Bool Lia.
From Verif Require Import Spec_Cnf Spec_Tile Spec_Layout Spec_Pattern M_Json M_Tile M_Util M_Card M_Network Spec_Network M_Template M_Grid M_Oracle M_Balancer M_Optimise M_NetFree
  Spec_Balancer Spec_Flow P_Cnf P_Util P_Util2 P_Tile P_Layout P_List P_Template P_Walk P_Grid P_GridSound P_GridComplete P_Transport T_Grid P_GridOk P_Gen P_Trace P_Pattern
  P_NetArith P_NetClause P_NetEnds P_NetShape P_NetFree P_NetFree2.
Import ListNotations.
Open Scope Z_scope.

Lemma for_some f F : (forall c, (c < fl_count f)%nat -> exists k, F c = Some k) -> exists cs, for_components f F = Some cs.
Proof. intros H. unfold for_components. apply oflat_some. intros c Hc. apply in_seq in Hc. apply H. lia. Qed.
Lemma implied_some o pre : (exists k : cnf, o = Some k) -> exists k, (let* s := o in Some (implies pre s)) = Some k.
Proof. intros [k ->]. eexists. reflexivity. Qed.

Section Total.
  Variable g : grid.
  Hypothesis W : wf_grid g.

  Lemma expand_total min_x min_y mx my : 0 <= min_x -> 0 <= min_y -> upper (width (geo g)) mx < width (geo g) -> upper (height (geo g)) my < height (geo g) ->
    exists cs, expand_underground g min_x min_y mx my = Some cs.
  Proof.
    set (max_x := upper (width (geo g)) mx). set (max_y := upper (height (geo g)) my). intros H1 H2 H3 H4.
    assert (L : forall p d k, 1 <= k -> in_region min_x min_y max_x max_y p -> in_region min_x min_y max_x max_y (far p d k) ->
      present_tiles g (line_of g p d (k + 1)) = Some (map (fun i => tile_at g (cellat g p d i)) (range (k + 1)))).
    { intros p d k Hk Hp Hq. assert (Ip : inside (garea g) p) by (unfold in_region in Hp; split; cbn; lia).
      destruct (line_tiles g W p d (k + 1) Ip) as [(_ & i & Hi & Ei)|(E & _)]; [|exact E].
      exfalso. assert (R : in_region min_x min_y max_x max_y (far p d i)) by (apply (region_line _ _ _ _ p d k); auto; lia).
      unfold ahead in Ei. fold (far p d i) in Ei. rewrite place_self in Ei; [discriminate|]. unfold in_region in R. split; [change (0 <= fst (far p d i) < width (geo g))|change (0 <= snd (far p d i) < height (geo g))]; lia. }
    unfold expand_underground. destruct (glen g) as [l|].
    - fold max_x max_y. apply oflat_some. intros k Hk. apply range_from_in in Hk. apply oflat_some. intros p Hp. apply region_in in Hp. apply oflat_some. intros d _.
      replace (fst p + dx d * (k + 1)) with (fst (far p d (k + 1))) by (unfold far; cbn [fst]; rewrite dx_step; ring).
      replace (snd p + dy d * (k + 1)) with (snd (far p d (k + 1))) by (unfold far; cbn [snd]; rewrite dy_step; ring).
      destruct (out_of_region _ _ _ _ _ _) eqn:Eo; [eexists; reflexivity|]. apply out_of_region_iff in Eo. rewrite <- surjective_pairing in Eo.
      replace (k + 2) with (k + 1 + 1) by ring. rewrite (L p d (k + 1)) by (auto; lia). cbn [obind].
      pose proof (expand_list (fun i => tile_at g (cellat g p d (Z.of_nat i))) d (Z.to_nat (k - 1))) as EL. rewrite <- line_nat in EL.
      replace (Z.of_nat (S (Z.to_nat (k - 1)) + 2)) with (k + 1 + 1) in EL by lia. eexists. exact EL.
    - unfold expand_underground_infinite. fold max_x max_y. apply oflat_some. intros p Hp. apply region_in in Hp. apply oflat_some. intros d _.
      replace (fst p + dx d * 1) with (fst (far p d 1)) by (unfold far; cbn [fst]; rewrite dx_step; ring).
      replace (snd p + dy d * 1) with (snd (far p d 1)) by (unfold far; cbn [snd]; rewrite dy_step; ring).
      destruct (out_of_region _ _ _ _ _ _) eqn:Eo; [eexists; reflexivity|]. apply out_of_region_iff in Eo. rewrite <- surjective_pairing in Eo.
      change 2 with (1 + 1). rewrite (L p d 1) by (auto; lia). cbn [obind]. eexists. reflexivity.
  Qed.

  Variable a : assignment.
  Lemma moved_total f : exists moved, transport_quantity g (all_flow g f) (flow_ux g f) (flow_uy g f) = Some moved.
  Proof.
    destruct (transport_sat g W a (all_flow g f) (flow_ux g f) (flow_uy g f) _ (all_flow_ok g W f) (flow_ux_ok g W f) (flow_uy_ok g W f)) as (cs & E & _). eauto.
  Qed.
  Lemma edge_total fs x y : (forall f v c, In (f, v) fs -> (c < fl_count f)%nat -> v y c < 2 ^ Z.of_nat (fl_bits f)) -> exists cs, edge_flow g fs x y = Some cs.
  Proof.
    intros H. unfold edge_flow.
    assert (X : exists css, omap (fun fv => for_components (fst fv) (fun c => set_number (snd fv y c) (flow g (fst fv) (x, y) c))) fs = Some css).
    { induction fs as [|[f v] fs IH]; [eexists; reflexivity|]. cbn [omap fst snd].
      destruct (for_some f (fun c => set_number (v y c) (flow g f (x, y) c))) as [k ->].
      - intros c Hc. apply set_number_some. unfold len. rewrite flow_length. apply H; [left; reflexivity|exact Hc].
      - cbn [obind]. destruct IH as [css ->]; [intros f' v' c Hf; apply H; right; exact Hf|]. eexists. reflexivity. }
    destruct X as [css ->]. eexists. reflexivity.
  Qed.
  Lemma halve_total f x0 x1 y0 y1 z c : (0 < fl_bits f)%nat -> (fl_bits f - 1 <= fl_cbits f)%nat ->
    exists cs, halve (flow g f x0 c) (flow g f x1 c) (flow g f y0 c) (flow g f y1 c) (flow_carry g f z c) = Some cs.
  Proof. intros H1 H2. apply halve_some; rewrite ?flow_length, ?flow_carry_length; lia. Qed.
  Lemma split_total f x y0 y1 c : (0 < fl_bits f)%nat -> exists cs, split_flow (flow g f x c) (flow g f y0 c) (flow g f y1 c) = Some cs.
  Proof. intros H1. apply split_some; rewrite ?flow_length; lia. Qed.
  Lemma add_total f x0 x1 y z c : (0 < fl_bits f)%nat -> (fl_bits f <= fl_cbits f)%nat ->
    exists cs, add_numbers (flow g f x0 c) (flow g f x1 c) (flow g f y c) (flow_carry g f z c) None false = Some cs.
  Proof.
    intros H1 H2. apply add_some; rewrite ?flow_length, ?flow_carry_length; try lia. right. intros E. apply (f_equal (@List.length _)) in E. rewrite flow_length in E. cbn in E. lia.
  Qed.
  Lemma splitter_flow_total f p d : (0 < fl_bits f)%nat -> (fl_bits f - 1 <= fl_cbits f)%nat -> exists cs, splitter_flow g f p d = Some cs.
  Proof.
    intros H1 H2. unfold splitter_flow. destruct (block_of g p d) as [[[p10 p01] p11]|]; [|eauto].
    destruct (for_some f (fun c => let* h := halve (flow g f p c) (flow g f p01 c) (flow g f p10 c) (flow g f p11 c) (flow_carry g f p c) in
        Some (implies [is_splitter_head (tile_at g p); input_dir (tile_at g p) d] h))) as [k ->]; [|cbn [obind]; eauto].
    intros c _. apply implied_some. apply halve_total; assumption.
  Qed.
  Lemma partial_total f b p p10 p01 p11 d side : (0 < fl_bits f)%nat -> (fl_bits f <= fl_cbits f)%nat -> (0 < fl_bits b)%nat -> (fl_bits b <= fl_cbits b)%nat ->
    exists cs, partial_splitter_flow g f b p p10 p01 p11 d side = Some cs.
  Proof.
    intros H1 H2 H3 H4. unfold partial_splitter_flow.
    destruct (if side then (p01, p11, p) else (p, p10, p01)) as [[c co] u].
    match goal with |- exists cs, obind ?x _ = _ => assert (E : exists k, x = Some k) by (apply for_some; intros i _; apply implied_some, split_total; assumption); destruct E as [k1 ->]; cbn [obind] end.
    match goal with |- exists cs, obind ?x _ = _ => assert (E : exists k, x = Some k) by (apply for_some; intros i _; apply implied_some, add_total; assumption); destruct E as [k2 ->]; cbn [obind] end.
    match goal with |- exists cs, obind ?x _ = _ => assert (E : exists k, x = Some k) by (apply for_some; intros i _; apply implied_some, add_total; assumption); destruct E as [k3 ->]; cbn [obind] end.
    match goal with |- exists cs, obind ?x _ = _ => assert (E : exists k, x = Some k) by (apply for_some; intros i _; apply implied_some, split_total; assumption); destruct E as [k4 ->]; cbn [obind] end.
    eauto.
  Qed.
  Lemma n_to_m_splitter_total f b p d : (0 < fl_bits f)%nat -> (fl_bits f <= fl_cbits f)%nat -> (0 < fl_bits b)%nat -> (fl_bits b <= fl_cbits b)%nat ->
    exists cs, n_to_m_splitter g f b p d = Some cs.
  Proof.
    intros H1 H2 H3 H4. unfold n_to_m_splitter. destruct (block_of g p d) as [[[p10 p01] p11]|]; [|eauto].
    match goal with |- exists cs, obind ?x _ = _ => assert (E : exists k, x = Some k) by (apply for_some; intros i _; apply implied_some, halve_total; lia); destruct E as [k1 ->]; cbn [obind] end.
    match goal with |- exists cs, obind ?x _ = _ => assert (E : exists k, x = Some k) by (apply for_some; intros i _; apply implied_some, halve_total; lia); destruct E as [k2 ->]; cbn [obind] end.
    destruct (partial_total f b p p10 p01 p11 d false H1 H2 H3 H4) as [k3 ->]. destruct (partial_total f b p p10 p01 p11 d true H1 H2 H3 H4) as [k4 ->]. cbn [obind]. eauto.
  Qed.
End Total.

Definition some_assignment : assignment := fun _ => false.

Lemma create_n_to_n_total w h ul size : 0 < w -> 0 < h -> 0 < size -> match ul with Some l => 0 <= l | None => True end ->
  exists created, create_n_to_n_balancer w h ul size = Some (n_to_n_grid w h ul size, created).
Proof.
  intros Hw Hh Hs Hu. pose proof (n_to_n_wf w h ul size Hw Hh Hu) as W. destruct (denominator_exact size Hs) as (D0 & _ & F0 & _).
  unfold create_n_to_n_balancer. rewrite (proj2 (Z.ltb_lt 0 w) Hw), (proj2 (Z.ltb_lt 0 h) Hh), (proj2 (Z.ltb_lt 0 size) Hs). cbn [negb andb].
  assert (Fit : full_flow size < 2 ^ Z.of_nat (fl_bits (n_flows size))) by (apply fits; lia).
  assert (Den : denominator size <= full_flow size) by (unfold full_flow; nia).
  assert (B0 : (0 < fl_bits (n_flows size))%nat) by (apply some_bits; lia).
  set (g := n_to_n_grid w h ul size) in *. clearbody g.
  destruct (init_sat g W some_assignment) as (init & -> & _). cbn [obind].
  match goal with |- exists cs, obind ?x _ = _ => assert (E : exists k, x = Some k); [|destruct E as [k1 ->]; cbn [obind]] end.
  { apply oflat_some. intros p _. destruct (for_some (n_flows size) (fun c => set_maximum (full_flow size) (flow g (n_flows size) p c))) as [k ->]; [|cbn [obind]; eauto].
    intros c _. apply set_maximum_some. unfold len. rewrite flow_length. lia. }
  destruct (moved_total g W some_assignment (n_flows size)) as [moved ->]. cbn [obind].
  match goal with |- exists cs, obind ?x _ = _ => assert (E : exists k, x = Some k); [|destruct E as [k2 ->]; cbn [obind]] end.
  { apply oflat_some. intros p _. apply oflat_some. intros d _. apply splitter_flow_total; [exact B0|cbn; lia]. }
  match goal with |- exists cs, obind ?x _ = _ => assert (E : exists k, x = Some k); [|destruct E as [k3 ->]; cbn [obind]] end.
  { apply oflat_some. intros y _. apply edge_total. intros f v c [E|[]] Hc. injection E as <- <-. unfold source_flow. destruct (_ =? _); lia. }
  match goal with |- exists cs, obind ?x _ = _ => assert (E : exists k, x = Some k); [|destruct E as [k4 ->]; cbn [obind]] end.
  { apply oflat_some. intros y _. apply edge_total. intros f v c [E|[]] Hc. injection E as <- <-. lia. }
  eauto.
Qed.

Lemma create_n_to_m_total w h ul n m : 0 < w -> 0 < h -> 0 < n -> 0 < m -> match ul with Some l => 0 <= l | None => True end ->
  exists g created, create_n_to_m_balancer w h ul n m = Some (g, created) /\ wf_grid g /\ width (geo g) = w /\ height (geo g) = h /\ glen g = ul /\ wrap_x (geo g) = false /\ wrap_y (geo g) = false.
Proof.
  intros Hw Hh Hn Hm Hu. unfold create_n_to_m_balancer.
  rewrite (proj2 (Z.ltb_lt 0 w) Hw), (proj2 (Z.ltb_lt 0 h) Hh), (proj2 (Z.ltb_lt 0 n) Hn), (proj2 (Z.ltb_lt 0 m) Hm). cbn [negb andb].
  destruct (Z.eqb_spec n m) as [->|Nm].
  { destruct (create_n_to_n_total w h ul m Hw Hh Hm Hu) as [created E]. rewrite E. eexists _, _. split; [reflexivity|]. split; [apply n_to_n_wf; assumption|]. repeat (split; [reflexivity|]). reflexivity. }
  assert (EM : exists M, max_belt_flow n m = Some M) by (unfold max_belt_flow; cbn [lcm obind]; eauto). destruct EM as [M EM]. rewrite EM. cbn [obind].
  pose proof (n_to_m_wf w h ul n m M Hw Hh Hu) as W.
  destruct (forward_numbers n m M Hn Hm EM) as (_ & _ & F1 & F2 & F3). destruct (backward_numbers n m M Hn Hm EM) as (_ & _ & B1 & B2 & B3).
  assert (Fit : M < 2 ^ Z.of_nat (Z.to_nat (bit_length M))) by (apply fits; lia).
  assert (Bits : (0 < Z.to_nat (bit_length M))%nat) by (apply some_bits; lia).
  set (g := n_to_m_grid w h ul n m M) in *. 
  destruct (init_sat g W some_assignment) as (init & -> & _). cbn [obind].
  match goal with |- exists g' cs, obind ?x _ = _ /\ _ => assert (E : exists k, x = Some k); [|destruct E as [k1 ->]; cbn [obind]] end.
  { apply oflat_some. intros p _.
    destruct (for_some (forward_flows n M) (fun c => set_maximum M (flow g (forward_flows n M) p c))) as [k ->].
    { intros c _. apply set_maximum_some. unfold len. rewrite flow_length. cbn [forward_flows fl_bits]. lia. }
    destruct (for_some (backward_flows n m M) (fun c => set_maximum M (flow g (backward_flows n m M) p c))) as [k' ->].
    { intros c _. apply set_maximum_some. unfold len. rewrite flow_length. cbn [backward_flows fl_bits]. lia. }
    cbn [obind]. eauto. }
  destruct (moved_total g W some_assignment (forward_flows n M)) as [m1 ->]. cbn [obind].
  destruct (moved_total g W some_assignment (backward_flows n m M)) as [m2 ->]. cbn [obind].
  match goal with |- exists g' cs, obind ?x _ = _ /\ _ => assert (E : exists k, x = Some k); [|destruct E as [k2 ->]; cbn [obind]] end.
  { apply oflat_some. intros p _. apply oflat_some. intros d _. apply n_to_m_splitter_total; cbn [forward_flows backward_flows fl_bits fl_cbits]; lia. }
  match goal with |- exists g' cs, obind ?x _ = _ /\ _ => assert (E : exists k, x = Some k); [|destruct E as [k3 ->]; cbn [obind]] end.
  { apply oflat_some. intros y _. apply edge_total. intros f v c [E|[E|[]]] Hc; injection E as <- <-; cbn [forward_flows backward_flows fl_bits]; [unfold source_flow; destruct (_ =? _)|]; lia. }
  match goal with |- exists g' cs, obind ?x _ = _ /\ _ => assert (E : exists k, x = Some k); [|destruct E as [k4 ->]; cbn [obind]] end.
  { apply oflat_some. intros y _. apply edge_total. intros f v c [E|[E|[]]] Hc; injection E as <- <-; cbn [forward_flows backward_flows fl_bits]; [|unfold source_flow; destruct (_ =? _)]; lia. }
  eexists _, _. split; [reflexivity|]. split; [exact W|]. repeat (split; [reflexivity|]). reflexivity.
Qed.

Lemma double_edge_total g : wf_grid g -> 2 <= width (geo g) -> exists cs, prevent_double_edge_belts g = Some cs.
Proof.
  intros W H. unfold prevent_double_edge_belts. apply oflat_some. intros x Hx. apply oflat_some. intros y Hy. apply range_in in Hy.
  assert (Bx : 0 <= x < width (geo g)) by (destruct Hx as [<-|[<-|[]]]; lia).
  unfold double_edge_clause. assert (E : in_grid g x y && in_grid g x (y + 1) = true).
  { unfold in_grid. rewrite !andb_true_iff, ?Z.leb_le, ?Z.ltb_lt. lia. }
  rewrite E. eauto.
Qed.

Lemma net_free_total w h ul n m al : 2 <= w -> 0 < h -> 0 < n -> 0 < m -> match ul with Some l => 1 <= l | None => True end ->
  exists g cs top, net_free w h ul n m al = Some (g, cs, top).
Proof.
  intros Hw Hh Hn Hm Hu. destruct (create_n_to_m_total w h ul n m ltac:(lia) Hh Hn Hm ltac:(destruct ul; [lia|exact Logic.I])) as (g & created & E & W & G1 & G2 & G3 & G4 & G5).
  unfold net_free. rewrite E. cbn [obind]. rewrite !seq_gen_cons.
  assert (EE : exists ends t, setup_free_ends g n m al (grid_top g) = Some (ends, t)).
  { unfold setup_free_ends. destruct (setup_end _ _ _) as [[c1 s1] t1]. destruct (setup_end _ _ _) as [[c2 s2] t2]. eauto. }
  destruct EE as (ends & t1 & ->). cbn [pure obind].
  assert (EL : exists lc, enforce_maximum_underground_length g = Some lc).
  { unfold enforce_maximum_underground_length. rewrite G3. destruct ul as [l|]; [|eauto]. rewrite (proj2 (Z.leb_le 1 l) Hu). cbn [negb]. eauto. }
  destruct EL as [lc ->]. cbn [pure obind].
  destruct (expand_total g W 1 0 (Some (width (geo g) - 2)) None ltac:(lia) ltac:(lia)) as [xc ->]; [cbn; lia|cbn; lia|]. cbn [pure obind].
  destruct (double_edge_total g W ltac:(lia)) as [dc ->]. cbn [pure obind seq_gen]. eauto.
Qed.
