(** Solutions of the network-free balancer: the theorems on C57 and C71 apply to
    them, and one of them shows what C71 does not promise. *)
From Coq Require Import String ZArith QArith List Bool Lia FMapPositive.
From Verif Require Import Spec_Cnf Spec_Tile Spec_Layout M_Json M_Tile M_Util M_Card M_Network Spec_Network M_Template M_Grid M_Oracle M_Balancer M_Optimise M_NetFree
  Spec_Balancer Spec_Flow P_Layout P_Template P_Grid P_Trace P_GridSound P_GridComplete T_Grid P_FlowWitness P_NetFree P_NetFree2 T_NetFree.
Import ListNotations.
Open Scope Z_scope.

(** The assignment of a layout, of the flow variables given by [bits] (the
    number of a variable within the extras), and of the variables [on] behind
    those of the grid, tabulated. *)
Definition extras_assignment (g : grid) (bits : pos -> Z -> bool) : assignment := fun v =>
  let i := (v - 1) / tile_size g in bits (i mod width (geo g), i / width (geo g)) ((v - 1) mod tile_size g - 20).
Definition net_assignment (g : grid) (T : layout) (bits : pos -> Z -> bool) (off : list lit) : assignment := fun v =>
  if existsb (Z.eqb v) off then false else layout_assignment g T 4 (fun _ => 0) (fun _ => 0) (fun _ => 0) (extras_assignment g bits) v.
Definition tabulate (g : grid) (a : assignment) : PositiveMap.t bool :=
  fold_left (fun t v => PositiveMap.add (Z.to_pos v) (a v) t) (map (fun i => i + 1) (range (grid_top g))) (PositiveMap.empty bool).
Definition of_table (t : PositiveMap.t bool) (on : list lit) : assignment := fun v =>
  match PositiveMap.find (Z.to_pos v) t with Some b => b | None => existsb (Z.eqb v) on end.

Lemma by_checking w h ul n m al g a :
  match net_free w h ul n m al with Some (_, cs, _) => sat a cs | None => false end = true ->
  match net_free w h ul n m al with Some (g', _, _) => g' = g | None => False end -> solves_net_free w h ul n m al g a.
Proof. intros X Y. destruct (net_free w h ul n m al) as [[[g' cs] top]|] eqn:E; [|discriminate]. subst g'. exists cs, top. auto. Qed.
Lemma reads_by_checking g a T :
  forallb (fun p => match decoded g a p with Some t => if tile_eq_dec t (T p) then true else false | None => false end) (iterate_tiles (geo g)) = true -> reads g a T.
Proof.
  intros X p Hp. rewrite forallb_forall in X. specialize (X p (proj2 (iterate_tiles_in _ _) Hp)).
  unfold decoded in X. destruct (read_tile _) as [t|]; [|discriminate]. destruct (tile_eq_dec t (T p)); [congruence|discriminate].
Qed.

(** ** A 2 to 2 balancer *)
Definition two : layout := fun p => match p with
  | (0, _) => Belt RIGHT RIGHT | (1, 0) => Splitter RIGHT false | (1, _) => Splitter RIGHT true | (2, _) => Belt RIGHT RIGHT | _ => Empty end.
Definition two_grid : grid := n_to_n_grid 3 2 (Some 4) 2.
Definition two_bits (p : pos) (o : Z) : bool :=
  if o <? 2 then Z.testbit (if fst p =? 2 then 1 else if snd p =? 0 then 2 else 0) o else o =? 3.
Definition two_table := tabulate two_grid (net_assignment two_grid two two_bits []).
Definition two_solution : assignment := of_table two_table [grid_top two_grid + 1; grid_top two_grid + 2].
Example C57_two : solves_net_free 3 2 (Some 4) 2 2 true two_grid two_solution.
Proof. apply by_checking; vm_compute; reflexivity. Qed.
Example C57_two_reads : reads two_grid two_solution two.
Proof. apply reads_by_checking. vm_compute. reflexivity. Qed.
Example C57_two_balanced : balanced_layout (garea two_grid) two (max_hidden two_grid).
Proof. exact (C57_balanced 3 2 (Some 4) 2 true two_grid two_solution two C57_two C57_two_reads). Qed.

(** ** A 1 to 2 balancer *)
Definition one_two : layout := fun p => match p with
  | (0, 0) => Belt RIGHT RIGHT | (1, 0) => Splitter RIGHT false | (1, _) => Splitter RIGHT true | (2, _) => Belt RIGHT RIGHT | _ => Empty end.
Definition one_two_grid : grid := n_to_m_grid 3 2 (Some 4) 1 2 2.
Definition one_two_bits (p : pos) (o : Z) : bool :=
  if o <? 2 then Z.testbit (if fst p =? 2 then 1 else 2) o
  else if o <? 10 then false
  else if o <? 14 then let c := (o - 10) / 2 in Z.testbit (if fst p =? 2 then if snd p =? c then 1 else 0 else 1) ((o - 10) mod 2)
  else false.
Definition one_two_table := tabulate one_two_grid (net_assignment one_two_grid one_two one_two_bits []).
Definition one_two_solution : assignment := of_table one_two_table [grid_top one_two_grid + 1; grid_top one_two_grid + 3].
Example C71_one_two : solves_net_free 3 2 (Some 4) 1 2 true one_two_grid one_two_solution.
Proof. apply by_checking; vm_compute; reflexivity. Qed.
Example C71_one_two_reads : reads one_two_grid one_two_solution one_two.
Proof. apply reads_by_checking. vm_compute. reflexivity. Qed.
Example C71_one_two_shares : shares_equally (garea one_two_grid) one_two (max_hidden one_two_grid).
Proof.
  apply (C71_shares_partial 3 2 (Some 4) 1 2 true one_two_grid one_two_solution one_two); [discriminate|exact C71_one_two|exact C71_one_two_reads|].
  intros p d k q k' Hp Tp Nb Tq. exfalso. destruct p as [x y]. destruct Hp as [Hx Hy]. cbn in Hx, Hy.
  assert (x = 0 \/ x = 1 \/ x = 2) as [-> | [-> | ->]] by lia; assert (y = 0 \/ y = 1) as [-> | ->] by lia; cbn in Tp; inversion Tp; subst; vm_compute in Nb; injection Nb as <-; vm_compute in Tq; discriminate.
Qed.

(** ** A 2 to 4 balancer that does not balance
    The upper output of the splitter in column 3 touches the lower input of the
    splitter in column 4, and the game connects them; in the solution these two
    sides are not connected. *)
Definition leak : layout := fun p => match p with
  | (0, 1) | (0, 2) => Belt RIGHT RIGHT
  | (1, 1) => Splitter RIGHT false | (1, 2) => Splitter RIGHT true
  | (2, 1) | (3, 1) => Belt RIGHT RIGHT
  | (2, 2) => Splitter RIGHT false | (2, 3) => Splitter RIGHT true
  | (3, 2) => Splitter RIGHT false | (3, 3) => Splitter RIGHT true
  | (4, 1) => Splitter RIGHT false | (4, 2) => Splitter RIGHT true
  | (5, 1) => Splitter RIGHT false | (5, 2) => Splitter RIGHT true
  | (6, 1) | (4, 3) | (5, 3) | (6, 3) => Belt RIGHT RIGHT
  | (7, 0) | (7, 2) => Splitter RIGHT false | (7, 1) | (7, 3) => Splitter RIGHT true
  | (8, _) => Belt RIGHT RIGHT
  | _ => Empty end.
Definition leak_grid : grid := n_to_m_grid 9 4 (Some 4) 2 4 4.
Definition leak_forward (c : Z) (p : pos) : Z := match p with
  | (0, y) | (1, y) => if y mod 2 =? c then 4 else 0
  | (3, 2) | (3, 3) | (5, 1) | (5, 2) | (8, _) => 1
  | _ => 2 end.
Definition leak_backward (c : Z) (p : pos) : Z := match p with
  | (8, y) => if y =? c then 2 else 0
  | (7, 1) | (6, 1) | (4, 1) | (3, 1) | (2, 1) => if c <? 2 then 2 else 0
  | (5, 1) | (5, 2) => if c <? 2 then 1 else 0
  | (7, 3) | (6, 3) | (5, 3) | (4, 3) | (2, 2) => if 2 <=? c then 2 else 0
  | (3, 2) | (3, 3) => if 2 <=? c then 1 else 0
  | (1, _) | (0, _) => 1
  | _ => 0 end.
Definition leak_bits (p : pos) (o : Z) : bool :=
  if o <? 6 then Z.testbit (leak_forward (o / 3) p) (o mod 3)
  else if o <? 12 then (o =? 8)
  else if o <? 18 then ((o - 12) mod 3 =? 0) && negb (fst p =? 1)
  else if o <? 30 then false
  else if o <? 42 then Z.testbit (leak_backward ((o - 30) / 3) p) ((o - 30) mod 3)
  else if o <? 54 then false
  else if o <? 66 then let c := (o - 54) / 3 in ((o - 54) mod 3 =? 0) && ((fst p =? 2) && (2 <=? c) || (fst p =? 4) && (c <? 2))
  else false.
Definition leak_table := tabulate leak_grid (net_assignment leak_grid leak leak_bits [output_dir (tile_at leak_grid (3, 2)) RIGHT; input_dir (tile_at leak_grid (4, 2)) RIGHT]).
Definition leak_solution : assignment := of_table leak_table [grid_top leak_grid + 2; grid_top leak_grid + 4].
Lemma leak_solves : solves_net_free 9 4 (Some 4) 2 4 false leak_grid leak_solution.
Proof. apply by_checking; vm_compute; reflexivity. Qed.
Lemma leak_reads : reads leak_grid leak_solution leak.
Proof. apply reads_by_checking. vm_compute. reflexivity. Qed.

(** What flows through the cells when one item per second enters at each inlet. *)
Definition leak_amount (p : pos) : Q := match p with
  | (3, 2) | (3, 3) | (4, 2) | (4, 3) | (5, 3) | (6, 3) | (7, 3) => 1 # 2
  | (5, 1) | (5, 2) | (8, 0) | (8, 1) => 3 # 4
  | (6, 1) | (7, 1) => 3 # 2
  | (8, _) => 1 # 4
  | (2, 3) | (7, 0) | (7, 2) => 0
  | _ => 1 end.
Definition leak_into (s : start) : Q := match s with
  | Enter p => leak_amount p
  | Exit (5, 2) => 0
  | Exit (x, y) => leak_amount (x + 1, y) end.
Definition leak_from (f : finish) : Q := match f with Leave p => leak_amount p | Entrance p => leak_amount p end.
Notation LA := (garea leak_grid).
Lemma leak_cells p : inside LA p -> exists x y, p = (x, y) /\ (x = 0 \/ x = 1 \/ x = 2 \/ x = 3 \/ x = 4 \/ x = 5 \/ x = 6 \/ x = 7 \/ x = 8) /\ (y = 0 \/ y = 1 \/ y = 2 \/ y = 3).
Proof. destruct p as [x y]. intros [Hx Hy]. change (0 <= x < 9) in Hx. change (0 <= y < 4) in Hy. exists x, y. repeat split; lia. Qed.
Ltac lcells H := let x := fresh "x" in let y := fresh "y" in let Hx := fresh "Hx" in let Hy := fresh "Hy" in
  destruct (leak_cells _ H) as (x & y & -> & Hx & Hy); clear H; repeat (destruct Hx as [Hx|Hx]); subst x; repeat (destruct Hy as [Hy|Hy]); subst y.
Lemma leak_carried p q : carried LA leak (max_hidden leak_grid) p q -> leak_amount q = leak_amount p.
Proof.
  induction 1 as [p|p q r (I1 & N1 & d & P1 & Nb) _ IH|p q r (I1 & d & E1 & _) _ IH]; [reflexivity| |]; rewrite ?IH.
  - clear IH. lcells I1; vm_compute in N1, P1; try contradiction; try (exfalso; apply N1; exact Logic.I); subst d; vm_compute in Nb; inversion Nb; reflexivity.
  - exfalso. lcells I1; vm_compute in E1; discriminate.
Qed.
Lemma leak_begins s q : begins LA leak s q -> leak_into s = leak_amount q.
Proof.
  destruct s as [p|p].
  - intros (-> & I1 & d & Tk & Nb). reflexivity.
  - intros (I1 & d & h & E1 & Nb & Tk). lcells I1; vm_compute in E1; inversion E1; subst d h; vm_compute in Nb; inversion Nb; subst q; vm_compute in Tk; try contradiction; reflexivity.
Qed.
Lemma leak_reaches f r : reaches LA leak f r -> leak_from f = leak_amount r.
Proof. destruct f as [p|p]; intros (-> & _); reflexivity. Qed.
Lemma leak_inside x y : 0 <= x < 9 -> 0 <= y < 4 -> inside LA (x, y).
Proof. intros Hx Hy. split; [exact Hx|exact Hy]. Qed.
Ltac walk := first
  [ apply carried_here
  | eapply carried_belt; [split; [apply leak_inside; lia|split; [vm_compute; tauto|exists RIGHT; split; [vm_compute; reflexivity|vm_compute; reflexivity]]]|walk] ].
Lemma leak_out x y f q r k : (x, y) = (x, y) -> inside LA (x, y) -> leak (x, y) = Splitter RIGHT k -> neighbour LA (x, y) RIGHT = Some q -> takes (leak q) RIGHT ->
  reaches LA leak f r -> carried LA leak (max_hidden leak_grid) q r -> joined LA leak (max_hidden leak_grid) (Exit (x, y)) f.
Proof. intros _ I1 E1 Nb Tk F C. exists q, r. split; [|auto]. split; [exact I1|]. exists RIGHT, k. auto. Qed.
Lemma leak_entrance x y k : inside LA (x, y) -> leak (x, y) = Splitter RIGHT k -> reaches LA leak (Entrance (x, y)) (x, y).
Proof. intros I1 E1. split; [reflexivity|]. split; [exact I1|]. rewrite E1. exact Logic.I. Qed.
Lemma leak_leaves y : 0 <= y < 4 -> reaches LA leak (Leave (8, y)) (8, y).
Proof.
  intros Hy. assert (y = 0 \/ y = 1 \/ y = 2 \/ y = 3) as [-> | [-> | [-> | ->]]] by lia;
    (split; [reflexivity|]; split; [apply leak_inside; lia|]; split; [vm_compute; tauto|]; exists RIGHT; split; [vm_compute; reflexivity|vm_compute; reflexivity]).
Qed.
Lemma leak_enters y : 1 <= y < 3 -> begins LA leak (Enter (0, y)) (0, y).
Proof.
  intros Hy. assert (y = 1 \/ y = 2) as [-> | ->] by lia;
    (split; [reflexivity|]; split; [apply leak_inside; lia|]; exists RIGHT; split; [vm_compute; reflexivity|vm_compute; reflexivity]).
Qed.
Ltac joins := eapply leak_out; [reflexivity|apply leak_inside; lia|vm_compute; reflexivity|vm_compute; reflexivity|vm_compute; reflexivity|
  first [apply leak_leaves; lia|eapply leak_entrance; [apply leak_inside; lia|vm_compute; reflexivity]]|walk].
Definition leak_next (p : pos) : finish := match p with
  | (1, 1) => Entrance (4, 1) | (3, 3) => Entrance (7, 3) | (5, 1) => Entrance (7, 1) | (7, y) => Leave (8, y) | (x, y) => Entrance (x + 1, y) end.
Definition leak_previous (p : pos) : start := match p with
  | (1, y) => Enter (0, y) | (4, 1) => Exit (1, 1) | (7, 3) => Exit (3, 3) | (7, 1) => Exit (5, 1) | (x, y) => Exit (x - 1, y) end.
Lemma leak_exit_used p : inside LA p -> is_splitter_tile (leak p) -> p <> (5, 2) -> joined LA leak (max_hidden leak_grid) (Exit p) (leak_next p).
Proof.
  intros I1 Sp Ne. lcells I1; vm_compute in Sp; try contradiction; try (exfalso; apply Ne; reflexivity);
    match goal with |- joined _ _ _ _ (leak_next ?p) => let v := eval vm_compute in (leak_next p) in change (leak_next p) with v end; joins.
Qed.
Lemma leak_entrance_used p : inside LA p -> is_splitter_tile (leak p) -> p <> (2, 3) -> p <> (7, 0) -> p <> (7, 2) ->
  joined LA leak (max_hidden leak_grid) (leak_previous p) (Entrance p).
Proof.
  intros I1 Sp N1 N2 N3. lcells I1; vm_compute in Sp; try contradiction; try (exfalso; first [apply N1; reflexivity|apply N2; reflexivity|apply N3; reflexivity]);
    match goal with |- joined _ _ _ (leak_previous ?p) _ => let v := eval vm_compute in (leak_previous p) in change (leak_previous p) with v end;
    first [joins|eexists _, _; split; [apply leak_enters; lia|split; [|eapply leak_entrance; [apply leak_inside; lia|vm_compute; reflexivity]]; walk]].
Qed.
Lemma leak_flow : steady_flow LA leak (max_hidden leak_grid) leak_into leak_from.
Proof.
  split; [|split].
  - intros s f (q & r & B & C & F). rewrite (leak_begins s q B), (leak_reaches f r F), (leak_carried q r C). reflexivity.
  - intros p I1 Sp. split; intros N.
    + destruct (pos_dec p (5, 2)) as [-> | Ne]; [reflexivity|]. exfalso. apply N. eexists. exact (leak_exit_used p I1 Sp Ne).
    + destruct (pos_dec p (2, 3)) as [-> | N1]; [reflexivity|]. destruct (pos_dec p (7, 0)) as [-> | N2]; [reflexivity|]. destruct (pos_dec p (7, 2)) as [-> | N3]; [reflexivity|].
      exfalso. apply N. eexists. exact (leak_entrance_used p I1 Sp N1 N2 N3).
  - intros [p q] (I1 & I2 & d & E1 & E2 & Nb). cbn [fst snd] in *. clear I2. lcells I1; vm_compute in E1; try discriminate;
    injection E1 as <-; vm_compute in Nb; injection Nb as <-; (split; [vm_compute; reflexivity|]); try (intros _ _; vm_compute; reflexivity).
    intros (f & q & r & (I1 & d & h & E1 & Nb & Tk) & _) _. exfalso. vm_compute in E1. injection E1 as <- <-. vm_compute in Nb. injection Nb as <-. vm_compute in Tk. exact Tk.
Qed.
Lemma leak_inlets : inlets LA leak [(0, 1); (0, 2)].
Proof.
  split; [repeat constructor; cbn; intuition discriminate|]. intros p. split.
  - intros [<- | [<- | []]]; apply leak_enters; lia.
  - intros (_ & I1 & d & Tk & Nb). lcells I1; vm_compute in Tk; try contradiction; subst d; vm_compute in Nb; try discriminate; cbn; auto.
Qed.
Lemma leak_outlets : outlets LA leak [(8, 0); (8, 1); (8, 2); (8, 3)].
Proof.
  split; [repeat constructor; cbn; intuition discriminate|]. intros p. split.
  - intros [<- | [<- | [<- | [<- | []]]]]; apply leak_leaves; lia.
  - intros (_ & I1 & Ns & d & Ps & Nb). lcells I1; vm_compute in Ns, Ps; try contradiction; try (exfalso; apply Ns; exact Logic.I); subst d; vm_compute in Nb; try discriminate; cbn; auto.
Qed.
(** Without that condition the claim fails: with 2 inputs and 4 outputs on a
    9 by 4 grid there is a solution whose layout sends 3/8 of the items to each of
    the first two outlets and 1/8 to each of the others. *)
Theorem C71_shares_refuted :
  ~ (forall w h ul n m al g a T, n <> m -> solves_net_free w h ul n m al g a -> reads g a T -> shares_equally (garea g) T (max_hidden g)).
Proof.
  intros H. specialize (H 9 4 (Some 4) 2 4 false leak_grid leak_solution leak ltac:(discriminate) leak_solves leak_reads
    leak_into leak_from _ _ leak_flow leak_inlets leak_outlets (8, 0) (or_introl eq_refl)).
  vm_compute in H. discriminate.
Qed.

Print Assumptions C57_two_balanced.
Print Assumptions C71_one_two_shares.
Print Assumptions C71_shares_refuted.
