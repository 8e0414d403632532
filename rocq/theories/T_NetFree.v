(** Property theorems C57, C60 and C71: the balancers that
    belt_balancer_net_free.py finds without a network of splitters. *)
From Coq Require Import String ZArith QArith List Bool Lia.
From Verif Require Import Spec_Cnf Spec_Tile Spec_Layout M_Json M_Tile M_Util M_Card M_Network Spec_Network M_Template M_Grid M_Oracle M_Balancer M_Optimise M_NetFree
  Spec_Balancer Spec_Flow P_Cnf P_Util P_Util2 P_Tile P_Layout P_List P_Template P_Walk P_Grid P_GridSound P_GridComplete P_Transport T_Grid P_GridOk P_Gen P_Trace P_Uniq P_FlowWitness
  P_Allocate P_NetArith P_NetClause P_NetEnds P_NetShape P_NetFree P_NetFree2 P_NetVars P_NetTotal.
Import ListNotations.
Local Open Scope string_scope.
Open Scope Z_scope.

(** [solves_net_free w h ul n m aligned g a]: [a] satisfies the clauses that main
    builds for a [w] x [h] grid with [n] inputs and [m] outputs (P_NetFree). *)

(** ** C60 *)
(** next_power_of_two gives the least power of two that is not smaller. *)
Theorem C60_next_power_of_two x :
  (exists k, 0 <= k /\ next_power_of_two x = 2 ^ k) /\ x <= next_power_of_two x /\
  forall k, 0 <= k -> x <= 2 ^ k -> next_power_of_two x <= 2 ^ k.
Proof. destruct (next_power_of_two_least x) as (k & H0 & -> & H1 & H2). split; [eauto|]. auto. Qed.
(** lcm gives the least positive common multiple of positive numbers. *)
Theorem C60_lcm args : args <> [] -> Forall (fun x => 0 < x) args -> exists l, lcm args = Some l /\ 0 < l /\
  (forall x, In x args -> (x | l)) /\ forall k, 0 < k -> (forall x, In x args -> (x | k)) -> l <= k.
Proof.
  intros N H. destruct (lcm_least args N) as (l & E & L0 & L1 & L2); [rewrite Forall_forall in H; exact H|]. exists l. repeat (split; [assumption|]).
  intros k Hk D. apply Z.divide_pos_le; [exact Hk|apply L2; exact D].
Qed.
(** The unit of the n to n balancer is the least one: [full_flow] is the least
    number that [size] and the power of two both divide, and no division of the
    code leaves a rest. *)
Theorem C60_n_to_n size : 0 < size ->
  (denominator size * Z.gcd (next_power_of_two size) size = next_power_of_two size /\ full_flow size = size * denominator size) /\
  0 < full_flow size /\ (size | full_flow size) /\ (next_power_of_two size | full_flow size) /\
  (forall k, 0 < k -> (size | k) -> (next_power_of_two size | k) -> full_flow size <= k).
Proof.
  intros H. destruct (denominator_exact size H) as (D0 & D1 & F0 & F1 & F2 & F3). split; [split; [exact D1|reflexivity]|].
  repeat (split; [assumption|]). intros k Hk K1 K2. apply Z.divide_pos_le; [exact Hk|apply F3; assumption].
Qed.
(** The divisions of the n to m balancer leave no rest, the inputs together carry
    as much as the outputs together, and no number exceeds a full belt. *)
Theorem C60_n_to_m n m M : 0 < n -> 0 < m -> max_belt_flow n m = Some M ->
  (forward_input n m M * n = M * Z.min n m /\ forward_output n m M * m = forward_input n m M /\
   0 <= forward_output n m M <= M /\ 0 < forward_input n m M <= M) /\
  (backward_input n m M * m = M * Z.min n m /\ backward_output n m M * n = backward_input n m M /\
   0 <= backward_output n m M <= M /\ 0 < backward_input n m M <= M).
Proof.
  intros Hn Hm EM. destruct (forward_numbers n m M Hn Hm EM) as (F0 & F1 & F2 & F3 & F4). destruct (backward_numbers n m M Hn Hm EM) as (B0 & B1 & B2 & B3 & B4). lia.
Qed.
(** The numbers of bits suffice and the program builds its clauses: no
    assertion fails, no index is out of range, no number is too large for its
    literals, and no carry is missing. *)
Theorem C60_builds w h ul n m aligned : 2 <= w -> 0 < h -> 0 < n -> 0 < m -> match ul with Some l => 1 <= l | None => True end ->
  exists g cs top, net_free w h ul n m aligned = Some (g, cs, top).
Proof. apply net_free_total. Qed.
(** A grid one tile wide has no column 1; main raises. *)
Theorem C60_narrow_refuted : ~ forall w h n m, 0 < w -> 0 < h -> 0 < n -> 0 < m -> net_free w h None n m false <> None.
Proof. intros H. apply (H 1 2 1 1); [lia|lia|lia|lia|]. vm_compute. reflexivity. Qed.
Example C60_numbers : (map next_power_of_two [0; 1; 2; 3; 5; 8; 9], lcm [4; 6; 10], map full_flow [1; 2; 3; 5; 6], max_belt_flow 3 4, forward_output 3 4 12, backward_output 3 4 12)
  = ([1; 1; 2; 4; 8; 8; 16], Some 60, [1; 2; 12; 40; 24], Some 12, 3, 3).
Proof. vm_compute. reflexivity. Qed.

(** ** C57: as many outputs as inputs *)
Lemma solves_length_ok w h ul n m al g a : solves_net_free w h ul n m al g a -> match ul with Some l => 0 <= l | None => True end.
Proof.
  intros (cs & top & E & _). unfold net_free in E. destruct (create_n_to_m_balancer w h ul n m) as [[g' created]|] eqn:Ec; [|discriminate]. cbn [obind] in E.
  assert (G : glen g' = ul).
  { unfold create_n_to_m_balancer in Ec. destruct (negb _); [discriminate|]. destruct (n =? m).
    - unfold create_n_to_n_balancer in Ec. destruct (negb _); [discriminate|]. set (g0 := n_to_n_grid w h ul n) in *. assert (E0 : glen g0 = ul) by reflexivity. clearbody g0.
      repeat (match type of Ec with obind ?x _ = _ => destruct x; [|discriminate]; cbn [obind] in Ec end). congruence.
    - destruct (max_belt_flow n m) as [M|]; [|discriminate]. cbn [obind] in Ec. set (g0 := n_to_m_grid w h ul n m M) in *. assert (E0 : glen g0 = ul) by reflexivity. clearbody g0.
      repeat (match type of Ec with obind ?x _ = _ => destruct x; [|discriminate]; cbn [obind] in Ec end). congruence. }
  rewrite !seq_gen_cons in E. destruct (setup_free_ends g' n m al (grid_top g')) as [[ends t1]|]; [|discriminate]. cbn [pure obind] in E.
  unfold enforce_maximum_underground_length in E. rewrite G in E. destruct ul as [l|]; [|exact Logic.I]. destruct (Z.leb_spec 1 l); [lia|discriminate].
Qed.

(** What belt_balancer_net_free.py calls tile.flow and its companions are the
    numbers that the template makes of the variables of the tile. *)
Theorem C57_variables w h ul size x y : 0 < w -> 0 < h -> match ul with Some l => 0 <= l | None => True end ->
  let g := n_to_n_grid w h ul size in let f := n_flows size in
  inside (garea g) (x, y) ->
  exists fields, tile_instance (grid_tiles g) x y = Some (IRec fields) /\
    assoc "flow" fields = Some (IList (map (fun c => IList (map ILit (flow g f (x, y) c))) (seq 0 (Z.to_nat (size - 1))))) /\
    (exists i, assoc "flow_diff" fields = Some i /\ flatten i = flow_diff g f (x, y)) /\
    assoc "flow_carry" fields = Some (IList (map (fun c => IList (map ILit (flow_carry g f (x, y) c))) (seq 0 (Z.to_nat (size - 1))))) /\
    (exists i, assoc "flow_ux" fields = Some i /\ flatten i = flow_ux g f (x, y)) /\
    (exists i, assoc "flow_uy" fields = Some i /\ flatten i = flow_uy g f (x, y)).
Proof.
  intros Hw Hh Hu g f Hp. pose proof (n_to_n_wf w h ul size Hw Hh Hu) as W. destruct (Hp) as [Hx Hy]. cbn [garea area_of aw ah fst snd] in Hx, Hy.
  unfold grid_tiles. rewrite tile_instance_spec by assumption.
  change (gtop g + (y * width (geo g) + x) * Z.of_nat (variable_count (tile_template g))) with (tile_base g (x, y)). rewrite instantiate_tile.
  change (gextras g) with (flow_fields "flow" [""; "_diff"; "_carry"; "_ux"; "_uy"] f). rewrite group_members by reflexivity. cbn [fst].
  change (tile_base g (x, y) + 20 + 3 * Z.of_nat (colour_bits g)) with (extras_base g (x, y)).
  assert (B : flow_base g f (x, y) = extras_base g (x, y)) by (unfold flow_base; cbn [fl_off n_flows f]; lia).
  eexists. split; [reflexivity|]. unfold flow, flow_diff, flow_carry, flow_ux, flow_uy. rewrite B.
  split; [reflexivity|]. split; [eexists; split; [reflexivity|apply flatten_numbers]|]. split; [reflexivity|].
  split; (eexists; split; [reflexivity|apply flatten_numbers]).
Qed.

(** The layout is valid, items enter at [n] neighbouring cells of the left edge
    and leave at [n] neighbouring cells of the right edge, and nowhere else; with
    --aligned these are the same rows. *)
Theorem C57_layout w h ul n al g a T : solves_net_free w h ul n n al g a -> reads g a T ->
  valid_layout (garea g) T (max_hidden g) /\
  exists i j, (0 <= i <= h - n /\ 0 <= j <= h - n /\ (al = true -> i = j)) /\
    straight_ends T (fun y => (0, y)) h n i /\ straight_ends T (fun y => (w - 1, y)) h n j /\
    inlets (garea g) T (rows 0 i n) /\ outlets (garea g) T (rows (w - 1) j n).
Proof.
  intros Sol R. pose proof (solves_length_ok _ _ _ _ _ _ _ _ Sol) as Hu. pose proof (nn_facts w h n ul al g a Hu (net_free_parts _ _ _ _ _ _ _ _ Sol)) as F. pose proof (nn_wf _ _ _ _ _ F) as W.
  pose proof (nn_solves w h n ul al g a Hu (net_free_parts _ _ _ _ _ _ _ _ Sol)) as So. split; [apply (closed_valid g W a So T R)|].
  destruct (nn_ends w h n ul al g a Hu (net_free_parts _ _ _ _ _ _ _ _ Sol) T R) as (i & j & E1 & E2 & E3). exists i, j. split; [split; [apply E1|split; [apply E2|exact E3]]|]. split; [exact E1|]. split; [exact E2|].
  pose proof (nn_size _ _ _ _ _ F) as Hs. pose proof (nn_edge w h n ul al g a Hu (net_free_parts _ _ _ _ _ _ _ _ Sol) T R) as NS. pose proof (nn_belts w h n ul al g a Hu (net_free_parts _ _ _ _ _ _ _ _ Sol)) as BE.
  rewrite <- (nn_hg _ _ _ _ _ F) in E1, E2. rewrite <- (nn_wd _ _ _ _ _ F) in *.
  split; [eapply entries_list|eapply departures_list]; eauto using nn_cx, nn_cy.
Qed.

(** The number that follows the source [c] is constant along lines of belts and
    tunnels, ... *)
Theorem C57_constant w h ul n al g a T c p q : solves_net_free w h ul n n al g a -> reads g a T ->
  (c < Z.to_nat (n - 1))%nat -> carried (garea g) T (max_hidden g) p q ->
  value a (flow g (n_flows n) p c) = value a (flow g (n_flows n) q c).
Proof.
  intros Sol R Hc C. pose proof (solves_length_ok _ _ _ _ _ _ _ _ Sol) as Hu.
  pose proof (source_carried w h n ul al g a Hu (net_free_parts _ _ _ _ _ _ _ _ Sol) T R c p q C) as E. unfold source_share in E. cbn [fl_count n_flows] in E.
  destruct (Nat.ltb_spec c (Z.to_nat (n - 1))); [exact E|lia].
Qed.
(** ... is halved by every splitter, all four of whose sides are connected, ... *)
Theorem C57_halves w h ul n al g a T s : solves_net_free w h ul n n al g a -> reads g a T -> is_splitter_at (garea g) T s ->
  (forall p, p = fst s \/ p = snd s -> exit_used (garea g) T (max_hidden g) p /\ entrance_used (garea g) T (max_hidden g) p) /\
  exists d p10 p11, T (fst s) = Splitter d true /\ neighbour (garea g) (fst s) d = Some p10 /\ neighbour (garea g) (snd s) d = Some p11 /\
  forall c, (c < Z.to_nat (n - 1))%nat ->
    value a (flow g (n_flows n) (fst s) c) + value a (flow g (n_flows n) (snd s) c) = 2 * value a (flow g (n_flows n) p10 c) /\
    value a (flow g (n_flows n) p11 c) = value a (flow g (n_flows n) p10 c).
Proof.
  intros Sol R Hs. pose proof (solves_length_ok _ _ _ _ _ _ _ _ Sol) as Hu. pose proof (nn_facts w h n ul al g a Hu (net_free_parts _ _ _ _ _ _ _ _ Sol)) as F. pose proof (nn_wf _ _ _ _ _ F) as W.
  destruct (splitter_block g W T (nn_border w h n ul al g a Hu (net_free_parts _ _ _ _ _ _ _ _ Sol) T R) s Hs) as (d & p10 & p11 & T1 & T2 & P1 & P2 & P3 & P4 & N1 & N2 & _). split.
  - intros p [-> | ->]; apply (nn_all_used w h n ul al g a Hu (net_free_parts _ _ _ _ _ _ _ _ Sol) T R); auto; [rewrite T1|rewrite T2]; exact Logic.I.
  - exists d, p10, p11. repeat (split; [assumption|]). exact (nn_halves w h n ul al g a Hu (net_free_parts _ _ _ _ _ _ _ _ Sol) T R s Hs d p10 p11 T1 N1 N2).
Qed.
(** ... starts as a whole belt at the source [c] and nothing elsewhere, and is the
    same at every output: one [n]-th of the belt. *)
Theorem C57_ends w h ul n al g a T c y : solves_net_free w h ul n n al g a -> reads g a T ->
  (c < Z.to_nat (n - 1))%nat -> 0 <= y < h ->
  value a (flow g (n_flows n) (0, y) c) = (if y mod n =? Z.of_nat c then full_flow n else 0) /\
  n * value a (flow g (n_flows n) (w - 1, y) c) = full_flow n.
Proof.
  intros Sol R Hc Hy. pose proof (solves_length_ok _ _ _ _ _ _ _ _ Sol) as Hu. pose proof (nn_facts w h n ul al g a Hu (net_free_parts _ _ _ _ _ _ _ _ Sol)) as F.
  destruct (nn_first _ _ _ _ _ F y Hy) as [_ E1]. destruct (nn_final _ _ _ _ _ F y Hy) as [_ E2]. rewrite E1, E2 by exact Hc. split; reflexivity.
Qed.
(** A splitter whose inputs carry the same numbers would be useless; none is. *)
Theorem C57_no_useless_splitter w h ul n al g a T s : solves_net_free w h ul n n al g a -> reads g a T -> is_splitter_at (garea g) T s ->
  exists c, (c < Z.to_nat (n - 1))%nat /\ value a (flow g (n_flows n) (fst s) c) <> value a (flow g (n_flows n) (snd s) c).
Proof.
  intros Sol R Hs. pose proof (solves_length_ok _ _ _ _ _ _ _ _ Sol) as Hu. exact (nn_distinct w h n ul al g a Hu (net_free_parts _ _ _ _ _ _ _ _ Sol) T R s Hs).
Qed.
(** The solver's numbers are what really flows: in every steady flow through the
    layout, whatever enters at the inlets, every outlet carries one [n]-th of it. *)
Theorem C57_balanced w h ul n al g a T : solves_net_free w h ul n n al g a -> reads g a T -> balanced_layout (garea g) T (max_hidden g).
Proof. intros Sol R. pose proof (solves_length_ok _ _ _ _ _ _ _ _ Sol) as Hu. exact (nn_balanced w h n ul al g a Hu (net_free_parts _ _ _ _ _ _ _ _ Sol) T R). Qed.
(** The clauses of setup_balancer_ends can be satisfied by a choice of their own
    variables if and only if the edges have this shape. *)
Theorem C57_setup_ends g a T n m top al cs top2 : wf_grid g -> solves_init g a -> reads g a T -> grid_size g <= top ->
  (forall y, 0 <= y < height (geo g) -> ~ is_splitter_tile (T (0, y)) /\ ~ is_splitter_tile (T (width (geo g) - 1, y))) ->
  setup_free_ends g n m al top = Some (cs, top2) ->
  ((exists b, agree top a b /\ sat b cs = true) <->
   exists i j, straight_ends T (fun y => (0, y)) (height (geo g)) n i /\ straight_ends T (fun y => (width (geo g) - 1, y)) (height (geo g)) m j /\
     (al = true -> if m <=? n then i <= j <= i + n - m else j <= i <= j + m - n)).
Proof. intros W S R Ht NS. exact (free_ends g W a S T R n m top Ht NS al cs top2). Qed.

(** ** C71: the numbers of inputs and outputs differ *)
Lemma nm_known w h ul n m al g a : n <> m -> solves_net_free w h ul n m al g a -> exists M, n_to_m_facts w h n m M g a.
Proof.
  intros Nm Sol. pose proof (solves_length_ok _ _ _ _ _ _ _ _ Sol) as Hu. destruct (net_free_parts _ _ _ _ _ _ _ _ Sol) as ((created & Ec & Sc) & _). eapply n_to_m_parts; eauto.
Qed.
Theorem C71_layout w h ul n m al g a T : n <> m -> solves_net_free w h ul n m al g a -> reads g a T ->
  valid_layout (garea g) T (max_hidden g) /\
  exists i j, (0 <= i <= h - n /\ 0 <= j <= h - m /\ (al = true -> if m <=? n then i <= j /\ j + m <= i + n else j <= i /\ i + n <= j + m)) /\
    straight_ends T (fun y => (0, y)) h n i /\ straight_ends T (fun y => (w - 1, y)) h m j /\
    inlets (garea g) T (rows 0 i n) /\ outlets (garea g) T (rows (w - 1) j m).
Proof.
  intros Nm Sol R. destruct (nm_known _ _ _ _ _ _ _ _ Nm Sol) as [M F]. pose proof (nm_wf _ _ _ _ _ _ _ F) as W.
  pose proof (nm_solves w h n m M ul al g a (net_free_parts _ _ _ _ _ _ _ _ Sol) F) as So. split; [apply (closed_valid g W a So T R)|].
  destruct (nm_ends w h n m M ul al g a (net_free_parts _ _ _ _ _ _ _ _ Sol) F T R) as (i & j & E1 & E2 & E3). exists i, j.
  split; [split; [apply E1|split; [apply E2|intros Ha; specialize (E3 Ha); destruct (m <=? n); lia]]|]. split; [exact E1|]. split; [exact E2|].
  pose proof (nm_n _ _ _ _ _ _ _ F) as Hn. pose proof (nm_m _ _ _ _ _ _ _ F) as Hm. pose proof (nm_edge w h n m M ul al g a (net_free_parts _ _ _ _ _ _ _ _ Sol) F T R) as NS. pose proof (nm_belts w h n m M ul al g a (net_free_parts _ _ _ _ _ _ _ _ Sol) F) as BE.
  rewrite <- (nm_hg _ _ _ _ _ _ _ F) in E1, E2. rewrite <- (nm_wd _ _ _ _ _ _ _ F) in *.
  split; [eapply entries_list|eapply departures_list]; eauto using nm_cx, nm_cy.
Qed.
(** At most one side of a splitter is not connected in the solution; each source
    is shared equally between the outputs when both are connected, and passes to
    the connected one otherwise; each sink is followed in the opposite sense. *)
Theorem C71_splitters w h ul n m al g a T s M : n <> m -> solves_net_free w h ul n m al g a -> reads g a T -> max_belt_flow n m = Some M ->
  is_splitter_at (garea g) T s ->
  let fwd c p := value a (flow g (forward_flows n M) p c) in let bwd c p := value a (flow g (backward_flows n m M) p c) in
  exists d p10 p11, T (fst s) = Splitter d true /\ neighbour (garea g) (fst s) d = Some p10 /\ neighbour (garea g) (snd s) d = Some p11 /\
  let input p := evl a (input_dir (tile_at g p) d) in let output p := evl a (output_dir (tile_at g p) d) in
  let p := fst s in let q := snd s in
  (input p = true /\ input q = true /\ output p = true /\ output q = true /\
   (forall c, (c < Z.to_nat n)%nat -> fwd c p + fwd c q = 2 * fwd c p10 /\ fwd c p11 = fwd c p10) /\
   (forall c, (c < Z.to_nat m)%nat -> bwd c p10 + bwd c p11 = 2 * bwd c p /\ bwd c q = bwd c p)) \/
  (output p = true /\ output q = true /\ exists i, (i = p /\ input p = true /\ input q = false \/ i = q /\ input p = false /\ input q = true) /\
   (forall c, (c < Z.to_nat n)%nat -> fwd c i = 2 * fwd c p10 /\ fwd c p11 = fwd c p10) /\
   (forall c, (c < Z.to_nat m)%nat -> bwd c p10 + bwd c p11 = bwd c i)) \/
  (input p = true /\ input q = true /\ exists o, (o = p10 /\ output p = true /\ output q = false \/ o = p11 /\ output p = false /\ output q = true) /\
   (forall c, (c < Z.to_nat n)%nat -> fwd c p + fwd c q = fwd c o) /\
   (forall c, (c < Z.to_nat m)%nat -> bwd c o = 2 * bwd c p /\ bwd c q = bwd c p)).
Proof.
  intros Nm Sol R EM Hs. destruct (nm_known _ _ _ _ _ _ _ _ Nm Sol) as [M' F]. assert (M' = M) by (pose proof (nm_M _ _ _ _ _ _ _ F); congruence). subst M'.
  destruct (nm_connected w h n m M ul al g a (net_free_parts _ _ _ _ _ _ _ _ Sol) F T R s Hs) as (d & p10 & p11 & T1 & T2 & P1 & P2 & N1 & N2 & C). cbn zeta. exists d, p10, p11.
  repeat (split; [assumption|]). exact C.
Qed.
(** Every number is constant along lines and has these values at the edges. *)
Theorem C71_ends w h ul n m al g a T M : n <> m -> solves_net_free w h ul n m al g a -> reads g a T -> max_belt_flow n m = Some M ->
  let fwd c p := value a (flow g (forward_flows n M) p c) in let bwd c p := value a (flow g (backward_flows n m M) p c) in
  (forall c p q, carried (garea g) T (max_hidden g) p q ->
     ((c < Z.to_nat n)%nat -> fwd c p = fwd c q) /\ ((c < Z.to_nat m)%nat -> bwd c p = bwd c q)) /\
  (forall c y, 0 <= y < h -> (c < Z.to_nat n)%nat ->
     fwd c (0, y) = (if y mod n =? Z.of_nat c then forward_input n m M else 0) /\ m * fwd c (w - 1, y) = forward_input n m M) /\
  (forall c y, 0 <= y < h -> (c < Z.to_nat m)%nat ->
     bwd c (w - 1, y) = (if y mod m =? Z.of_nat c then backward_input n m M else 0) /\ n * bwd c (0, y) = backward_input n m M).
Proof.
  intros Nm Sol R EM. destruct (nm_known _ _ _ _ _ _ _ _ Nm Sol) as [M' F]. assert (M' = M) by (pose proof (nm_M _ _ _ _ _ _ _ F); congruence). subst M'.
  pose proof (nm_wf _ _ _ _ _ _ _ F) as W. pose proof (nm_solves w h n m M ul al g a (net_free_parts _ _ _ _ _ _ _ _ Sol) F) as So.
  destruct (C60_n_to_m n m M (nm_n _ _ _ _ _ _ _ F) (nm_m _ _ _ _ _ _ _ F) EM) as [(_ & F1 & _) (_ & B1 & _)]. cbn zeta. split; [|split].
  - intros c p q C. split; intros Hc.
    + destruct (nm_moved _ _ _ _ _ _ _ F (forward_flows n M) (or_introl eq_refl)) as (moved & Em & Sm). apply (flow_carried g W a _ T R So moved Em Sm (max_hidden g) c p q Hc C).
    + destruct (nm_moved _ _ _ _ _ _ _ F (backward_flows n m M) (or_intror (or_introl eq_refl))) as (moved & Em & Sm). apply (flow_carried g W a _ T R So moved Em Sm (max_hidden g) c p q Hc C).
  - intros c y Hy Hc. destruct (nm_first _ _ _ _ _ _ _ F y Hy) as (_ & E1 & _). destruct (nm_final _ _ _ _ _ _ _ F y Hy) as (_ & E2 & _). rewrite E1, E2 by exact Hc. split; [reflexivity|lia].
  - intros c y Hy Hc. destruct (nm_first _ _ _ _ _ _ _ F y Hy) as (_ & _ & E1). destruct (nm_final _ _ _ _ _ _ _ F y Hy) as (_ & _ & E2). rewrite E1, E2 by exact Hc. split; [reflexivity|lia].
Qed.
(** If no splitter stands right behind another one without being connected to
    it, then in every steady flow every outlet carries one [m]-th of what enters.
    The full statement has no such condition; the code does not enforce it, and
    warns that the results are not always correct (belt_balancer_net_free.py
    381-383). *)
Theorem C71_shares_partial w h ul n m al g a T : n <> m -> solves_net_free w h ul n m al g a -> reads g a T ->
  (forall p d k q k', inside (garea g) p -> T p = Splitter d k -> neighbour (garea g) p d = Some q -> T q = Splitter d k' -> evl a (output_dir (tile_at g p) d) = true) ->
  shares_equally (garea g) T (max_hidden g).
Proof. intros Nm Sol R NT. destruct (nm_known _ _ _ _ _ _ _ _ Nm Sol) as [M F]. exact (nm_shares w h n m M ul al g a (net_free_parts _ _ _ _ _ _ _ _ Sol) F T R NT). Qed.

Print Assumptions C60_next_power_of_two.
Print Assumptions C60_lcm.
Print Assumptions C60_n_to_n.
Print Assumptions C60_n_to_m.
Print Assumptions C60_builds.
Print Assumptions C60_narrow_refuted.
Print Assumptions C57_variables.
Print Assumptions C57_layout.
Print Assumptions C57_constant.
Print Assumptions C57_halves.
Print Assumptions C57_ends.
Print Assumptions C57_no_useless_splitter.
Print Assumptions C57_balanced.
Print Assumptions C57_setup_ends.
Print Assumptions C71_layout.
Print Assumptions C71_splitters.
Print Assumptions C71_ends.
Print Assumptions C71_shares_partial.
