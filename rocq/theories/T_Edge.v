(** Property theorems C77 and C78: the options --edge-splitters and --edge-belts of belt_balancer.py. *)
From Coq Require Import String ZArith List Bool Lia Permutation.
From Verif Require Import P_Network P_Network2 P_Benes P_Nonneg P_Similar T_Network.
From Verif Require Import Spec_Cnf Spec_Tile Spec_Layout M_Json M_Tile M_Util M_Card M_Network Spec_Network M_Template M_Grid M_Oracle M_Balancer
  P_Cnf P_Util P_Card P_Tile P_Layout P_List P_Template P_Walk P_Grid P_GridSound P_GridComplete P_Transport T_Grid T_Enumerate P_GridOk P_Gen P_Balancer
  Spec_Balancer P_Trace P_Realise T_Balancer P_Lossless T_Lossless Spec_Edge P_Edge P_NetTotal.
Import ListNotations.
Local Open Scope string_scope.
Open Scope Z_scope.

(** [a] satisfies the clauses of solves_balancer and those that
    --edge-splitters adds to them (belt_balancer.py 346-352). *)
Definition solves_edges (E : card_encoder) (net : counter) (w h : Z) (ul : option Z) (g : grid) (a : assignment) : Prop :=
  exists cs top cs' top', create_balancer E net w h ul = Some (g, cs, top) /\ sat a cs = true /\
    sat a (prevent_intersection g) = true /\ solves_length g a /\
    enforce_edge_splitters E g net top = Some (cs', top') /\ sat a cs' = true.

Lemma edge_gen E g net ic n oc m : honest E -> wf_grid g -> gextras g = [("node", TSized OneHot (List.length net))] -> 2 <= width (geo g) ->
  get_input_output_colours (elements net) = Some ((ic, n), (oc, m)) ->
  gen_ok (grid_size g) (enforce_edge_splitters E g net) (fun a =>
    edge_rule g net a fst ic 1 (belts_of ic (map snd (elements net))) /\
    edge_rule g net a snd oc (width (geo g) - 2) (belts_of oc (map fst (elements net)))).
Proof.
  intros HE W Hex H2 Ends. unfold enforce_edge_splitters.
  rewrite Ends. cbn [obind]. unfold input_slots, output_slots. rewrite !recirculate_belts.
  rewrite (filter_ext (fun ie : nat * (splitter * Z) => both ic (fst (fst (snd ie)))) (fun ie => all_of ic (fst (fst (snd ie))))) by (intros; apply both_all_of).
  rewrite (filter_ext (fun ie : nat * (splitter * Z) => both oc (snd (fst (snd ie)))) (fun ie => all_of oc (snd (fst (snd ie))))) by (intros; apply both_all_of).
  eapply gen_ok_ext; [|apply gen_ok_cons; [apply (edge_clauses_ok E HE g W net Hex fst ic 1); lia|apply gen_ok_cons; [apply (edge_clauses_ok E HE g W net Hex snd oc); lia|apply gen_ok_nil]]].
  intros a. cbv beta. tauto.
Qed.

(** ** C77 *)
(** In every solution found with --edge-splitters the splitters fed by the
    inputs alone stand in the second column and those that feed the outputs alone
    in the last but one, as Spec_Edge says. *)
Theorem C77_solutions_take_the_edges E net w h ul g a T : honest E -> nonneg_colours net -> (forall nd k, In (nd, k) net -> 0 <= k) ->
  match ul with Some l => 0 <= l | None => True end ->
  solves_edges E net w h ul g a -> reads g a T ->
  let A := rectangle w h in
  let L := longest w h ul in
  let nodes := elements net in
  valid_layout A T L /\
  exists ic n oc m, get_input_output_colours nodes = Some ((ic, n), (oc, m)) /\
  exists P wire, realises_by A T L nodes ic (Z.to_nat n) oc (Z.to_nat m) P wire /\ edges_taken w T P nodes ic oc.
Proof.
  intros HE Hn Kn Hul (cs & top & cs' & top' & C & S & Ix & Ls & Ce & Se) R A L nodes.
  destruct (create_balancer_spec E net w h ul g cs top HE Hn Hul C) as (ic & n & oc & m & Ee & W & (t & _ & Eg & _) & Hs & _ & En & _ & _).
  pose proof (proj1 En a S) as B.
  assert (So : solves g (EBool true) a) by (split; [apply B|split; [exact Ix|split; [apply B|split; [apply B|exact Ls]]]]).
  assert (EA : garea g = A) by (subst g; reflexivity). assert (CX : wrap_x (geo g) = false) by (subst g; reflexivity). assert (CY : wrap_y (geo g) = false) by (subst g; reflexivity).
  assert (EL : max_hidden g = L) by (subst g; reflexivity). assert (Hex : gextras g = [("node", TSized OneHot (List.length net))]) by (subst g; reflexivity).
  assert (Ew : width (geo g) = w) by (subst g; reflexivity). clear Eg.
  assert (Ne : elements net <> []) by (eapply ends_nonempty; exact Ee).
  split; [rewrite <- EA, <- EL; apply (VL g W a So T R)|]. exists ic, n, oc, m. split; [exact Ee|]. rewrite <- EA, <- EL.
  pose proof (size2 g W CX CY net ic n oc m a B So T R Ne) as [W2 _].
  destruct (realisation_at g W CX CY net ic n oc m a B So T R Ne) as (P & wire & HP & HR & _). exists P, wire. split; [exact HR|].
  pose proof (hs_placed g net ic n oc m a B T P HP) as Pn.
  destruct (edge_gen E g net ic n oc m HE W Hex W2 Ee) as [_ Gk]. destruct (Gk top cs' top' Hs Ce) as (_ & _ & Sound & _). destruct (Sound a Se) as [R1 R2].
  unfold edges_taken. rewrite <- Ew. destruct HR as (Sl & Sd & Sa & _).
  split.
  - apply (edge_iff g W net Kn ic n oc m a B So T R P Sl Sd Sa Pn fst (or_introl eq_refl)); [lia|exact R1].
  - apply (edge_iff g W net Kn ic n oc m a B So T R P Sl Sd Sa Pn snd (or_intror eq_refl)); [lia|exact R2].
Qed.

(** Nothing else is asked: a layout that is the network with its splitters
    placed in this way is found. *)
Theorem C77_no_such_balancer_lost E net w h ul g cs top cs' top' T ic n oc m P wire : honest E -> nonneg_colours net ->
  (forall nd k, In (nd, k) net -> 0 <= k) ->
  match ul with Some l => 1 <= l | None => True end ->
  create_balancer E net w h ul = Some (g, cs, top) ->
  enforce_edge_splitters E g net top = Some (cs', top') ->
  get_input_output_colours (elements net) = Some ((ic, n), (oc, m)) ->
  let A := rectangle w h in
  let L := longest w h ul in
  let nodes := elements net in
  valid_layout A T L ->
  realises_by A T L nodes ic (Z.to_nat n) oc (Z.to_nat m) P wire ->
  (forall s f, joined A T L s f -> exists k, sink_colour nodes oc (Z.to_nat m) k <> None /\ finish_of P k = Some f) ->
  edges_taken w T P nodes ic oc ->
  exists a, solves_edges E net w h ul g a /\ reads g a T.
Proof.
  intros HE Hn Kn Hul C Ce Ee A L nodes VL0 HR HL Ed.
  assert (Hul0 : match ul with Some l => 0 <= l | None => True end) by (destruct ul; [lia|exact Logic.I]).
  destruct (realisation_solved E net w h ul g cs top T ic n oc m P wire HE Hn Kn Hul C Ee VL0 HR HL) as (a & Sb & R & _ & Pn).
  destruct Sb as (cs0 & top0 & C0 & S & Ix & Ls). rewrite C in C0. injection C0 as <- <-.
  destruct (create_balancer_spec E net w h ul g cs top HE Hn Hul0 C) as (ic' & n' & oc' & m' & Ee' & W & (t & _ & Eg & _) & Hs & Ok & En & _ & _).
  rewrite Ee in Ee'. injection Ee' as <- <- <- <-.
  pose proof (proj1 En a S) as B.
  assert (So : solves g (EBool true) a) by (split; [apply B|split; [exact Ix|split; [apply B|split; [apply B|exact Ls]]]]).
  assert (EA : garea g = A) by (subst g; reflexivity). assert (CX : wrap_x (geo g) = false) by (subst g; reflexivity). assert (CY : wrap_y (geo g) = false) by (subst g; reflexivity).
  assert (Hex : gextras g = [("node", TSized OneHot (List.length net))]) by (subst g; reflexivity).
  assert (Ew : width (geo g) = w) by (subst g; reflexivity). clear Eg.
  assert (Ne : elements net <> []) by (eapply ends_nonempty; exact Ee).
  pose proof (size2 g W CX CY net ic n oc m a B So T R Ne) as [W2 _].
  destruct (edge_gen E g net ic n oc m HE W Hex W2 Ee) as [_ Gk]. destruct (Gk top cs' top' Hs Ce) as (_ & _ & _ & Compl).
  destruct HR as (Sl & Sd & Sa & _). rewrite <- EA in Sa. destruct Ed as [Ed1 Ed2]. rewrite <- Ew in Ed2.
  destruct (Compl a) as (b & Ab & Sb).
  { split.
    - apply (edge_iff g W net Kn ic n oc m a B So T R P Sl Sd Sa Pn fst (or_introl eq_refl)); [lia|exact Ed1].
    - apply (edge_iff g W net Kn ic n oc m a B So T R P Sl Sd Sa Pn snd (or_intror eq_refl)); [lia|exact Ed2]. }
  assert (Ag : agree (grid_size g) a b) by (eapply agree_mono; [exact Hs|exact Ab]).
  exists b. split.
  - exists cs, top, cs', top'. split; [exact C|]. split; [rewrite <- (sat_agree top a b _ Ab Ok); exact S|]. split.
    + rewrite <- (sat_agree (grid_size g) a b _ Ag (intersection_ok g W)). exact Ix.
    + split; [|split; [exact Ce|exact Sb]]. destruct Ls as (lc & El & Sl'). exists lc. split; [exact El|]. rewrite <- (sat_agree (grid_size g) a b _ Ag (length_ok g W _ El)). exact Sl'.
  - intros p Hp; rewrite <- (R p Hp); f_equal; symmetry; apply (parse_tile_agree (grid_size g) a b _ Ag); apply tile_at_lits; assumption.
Qed.

(** For a network none of whose belts is missing: the balancers found are
    exactly the layouts that are the network with its splitters placed so. *)
Theorem C77_exactly E net w h ul g cs top cs' top' T ic n oc m : honest E -> nonneg_colours net ->
  (forall nd k, In (nd, k) net -> 0 <= k) -> complete (elements net) ->
  match ul with Some l => 1 <= l | None => True end ->
  create_balancer E net w h ul = Some (g, cs, top) ->
  enforce_edge_splitters E g net top = Some (cs', top') ->
  get_input_output_colours (elements net) = Some ((ic, n), (oc, m)) ->
  let A := rectangle w h in
  let L := longest w h ul in
  let nodes := elements net in
  (exists a, solves_edges E net w h ul g a /\ reads g a T) <->
  valid_layout A T L /\ exists P wire, realises_by A T L nodes ic (Z.to_nat n) oc (Z.to_nat m) P wire /\ edges_taken w T P nodes ic oc.
Proof.
  intros HE Hn Kn Cm Hul C Ce Ee A L nodes.
  assert (Hul0 : match ul with Some l => 0 <= l | None => True end) by (destruct ul; [lia|exact Logic.I]).
  assert (Wa : wf_area A) by (unfold create_balancer in C; destruct (Z.ltb_spec 0 w), (Z.ltb_spec 0 h); try discriminate; split; assumption).
  split.
  - intros (a & So & R). destruct (C77_solutions_take_the_edges E net w h ul g a T HE Hn Kn Hul0 So R) as (V & ic' & n' & oc' & m' & Ee' & P & wire & HR & Ed).
    rewrite Ee in Ee'. injection Ee' as <- <- <- <-. split; [exact V|]. exists P, wire. split; [exact HR|exact Ed].
  - intros (V & P & wire & HR & Ed). eapply (C77_no_such_balancer_lost E net w h ul g cs top cs' top' T ic n oc m P wire); eauto.
    eapply complete_lines; eauto.
Qed.

(** So the option can lose every balancer: when some splitter stands between
    inputs and outputs, with nothing going back, it must be in two columns at once
    unless the grid is three cells wide. *)
Theorem C77_every_balancer_lost_refuted E net w h ul g ic n oc m nd : honest E -> nonneg_colours net ->
  (forall nd k, In (nd, k) net -> 0 <= k) ->
  match ul with Some l => 0 <= l | None => True end ->
  get_input_output_colours (elements net) = Some ((ic, n), (oc, m)) ->
  In nd (elements net) -> all_of ic (fst nd) = true -> all_of oc (snd nd) = true ->
  belts_of ic (map snd (elements net)) = 0 -> belts_of oc (map fst (elements net)) = 0 ->
  w <> 3 ->
  forall a, ~ solves_edges E net w h ul g a.
Proof.
  intros HE Hn Kn Hul Ee Hin A1 A2 B1 B2 Hw a So.
  assert (RT : exists T, reads g a T).
  { destruct So as (cs & top & cs' & top' & C & S & _).
    destruct (create_balancer_spec E net w h ul g cs top HE Hn Hul C) as (ic' & n' & oc' & m' & _ & W & _ & _ & _ & En & _).
    destruct (proj2 (C44_decodes g a W) (br_init _ _ _ _ _ _ _ (proj1 En a S))) as (T & HT & _). eauto. }
  destruct RT as [T R].
  destruct (C77_solutions_take_the_edges E net w h ul g a T HE Hn Kn Hul So R) as (V & ic' & n' & oc' & m' & Ee' & P & wire & HR & Ed).
  rewrite Ee in Ee'. injection Ee' as <- <- <- <-. destruct Ed as [E1 E2]. unfold at_edge in E1, E2. rewrite B1 in E1. rewrite B2 in E2. cbn [Z.eqb] in E1, E2.
  apply In_nth_error in Hin. destruct Hin as [j Hj]. destruct HR as (Sl & _).
  destruct (nth_error (pl_splitters P) j) as [s|] eqn:Es.
  - destruct (E1 j nd s Hj Es A1) as [X1 _]. destruct (E2 j nd s Hj Es A2) as [X2 _]. lia.
  - apply nth_error_None in Es. assert (j < List.length (elements net))%nat by (apply nth_error_Some; congruence). lia.
Qed.

(** ** C78 *)
Lemma oflat_in {X} (f : X -> option cnf) l cs : oflat f l = Some cs -> forall x, In x l -> exists c, f x = Some c.
Proof.
  intros E x Hx. destruct (f x) as [c|] eqn:Ef; [eauto|exfalso]. unfold oflat in E. destruct (omap f l) as [css|] eqn:Eo; [|discriminate].
  clear E. revert css Eo. induction l as [|y l IH]; intros css Eo; [destruct Hx|]. cbn [omap] in Eo. destruct Hx as [-> |Hx].
  - rewrite Ef in Eo. discriminate.
  - destruct (f y); [|discriminate]. cbn [obind] in Eo. destruct (omap f l) as [css'|]; [|discriminate]. apply (IH Hx css' eq_refl).
Qed.
(** --edge-belts: in the second and the last but one column no two vertically
    adjacent cells are both straight belts to the right, and nothing else is
    forbidden.  The call raises exactly when a second column is missing. *)
Definition passes_right (T : layout) (p : pos) : Prop := T p = Belt RIGHT RIGHT.
Theorem C78_edge_belts g a T cs : wf_grid g -> solves_init g a -> reads g a T ->
  prevent_double_edge_belts g = Some cs ->
  (sat a cs = true <->
   forall x y, x = 1 \/ x = Z.max (width (geo g) - 2) 1 -> 0 <= y -> y + 1 < height (geo g) ->
     ~ (passes_right T (x, y) /\ passes_right T (x, y + 1))).
Proof.
  intros W Si R E. unfold prevent_double_edge_belts in E.
  pose proof (proj1 (solves_init_rules g a W) Si) as G.
  assert (Pr : forall p, inside (garea g) p -> (passes_right T p <-> vi (view_of a (tile_at g p)) RIGHT = true /\ vo (view_of a (tile_at g p)) RIGHT = true /\ vs (view_of a (tile_at g p)) = false)).
  { intros p Hp. pose proof (T_shows g a T R G p Hp) as S. unfold passes_right. split.
    - intros Tp. destruct S as (S & _ & _ & Ss & _). rewrite Tp in S, Ss. destruct S as (_ & S1 & S2 & _). rewrite S1, S2, Ss. auto.
    - intros (H1 & H2 & H3). destruct S as (S & _ & _ & Ss & _). destruct (T p) as [| |i o|d e|d hd|? ?|? ?]; try contradiction.
      + destruct S as (_ & S & _). rewrite S in H1. discriminate.
      + destruct S as (_ & S1 & S2 & _). apply S1 in H1. apply S2 in H2. subst. reflexivity.
      + destruct e; destruct S as (_ & S1 & S2); [rewrite S2 in H2|rewrite S1 in H1]; discriminate.
      + congruence. }
  assert (Cl : forall x y c, double_edge_clause g x y = Some c -> inside (garea g) (x, y) /\ inside (garea g) (x, y + 1) /\
    (sat a c = true <-> ~ (passes_right T (x, y) /\ passes_right T (x, y + 1)))).
  { intros x y c Ec. unfold double_edge_clause in Ec. destruct (in_grid g x y && in_grid g x (y + 1)) eqn:I; [|discriminate]. apply Some_inj in Ec. subst c.
    apply andb_true_iff in I. destruct I as [I1 I2]. unfold in_grid in I1, I2. rewrite !andb_true_iff, ?Z.leb_le, ?Z.ltb_lt in I1, I2.
    assert (Hp : inside (garea g) (x, y)) by (split; cbn; lia). assert (Hq : inside (garea g) (x, y + 1)) by (split; cbn; lia).
    split; [exact Hp|]. split; [exact Hq|]. rewrite (Pr _ Hp), (Pr _ Hq). pose proof (tile_at_ok g (x, y) W Hp) as Op. pose proof (tile_at_ok g (x, y + 1) W Hq) as Oq.
    rewrite sat_one, !satc_cons_iff, satc_nil, !evl_neg_iff by (apply Op || apply Oq).
    change (vi (view_of a (tile_at g (x, y))) RIGHT) with (evl a (input_dir (tile_at g (x, y)) RIGHT)).
    change (vo (view_of a (tile_at g (x, y))) RIGHT) with (evl a (output_dir (tile_at g (x, y)) RIGHT)).
    change (vs (view_of a (tile_at g (x, y)))) with (evl a (is_splitter (tile_at g (x, y)))).
    change (vi (view_of a (tile_at g (x, y + 1))) RIGHT) with (evl a (input_dir (tile_at g (x, y + 1)) RIGHT)).
    change (vo (view_of a (tile_at g (x, y + 1))) RIGHT) with (evl a (output_dir (tile_at g (x, y + 1)) RIGHT)).
    change (vs (view_of a (tile_at g (x, y + 1)))) with (evl a (is_splitter (tile_at g (x, y + 1)))).
    destruct (evl a (input_dir (tile_at g (x, y)) RIGHT)), (evl a (output_dir (tile_at g (x, y)) RIGHT)), (evl a (is_splitter (tile_at g (x, y)))),
      (evl a (input_dir (tile_at g (x, y + 1)) RIGHT)), (evl a (output_dir (tile_at g (x, y + 1)) RIGHT)), (evl a (is_splitter (tile_at g (x, y + 1)))); intuition congruence. }
  assert (Hxs : forall x, In x [1; Z.max (width (geo g) - 2) 1] <-> x = 1 \/ x = Z.max (width (geo g) - 2) 1) by (intros x; cbn [In]; intuition congruence).
  rewrite (sat_oflat a _ _ _ E). split.
  - intros H x y Hx Hy Hy2. destruct (H x (proj2 (Hxs x) Hx)) as (c & Ec & Sc). pose proof (proj1 (sat_oflat a _ _ _ Ec) Sc) as H'.
    destruct (H' y) as (c' & Ec' & Sc'); [apply range_in; lia|]. destruct (Cl x y c' Ec') as (_ & _ & K). apply K. exact Sc'.
  - intros H x Hx. destruct (oflat_in _ _ _ E x Hx) as (c & Ec). exists c. split; [exact Ec|]. apply (proj2 (sat_oflat a _ _ _ Ec)).
    intros y Hy. destruct (oflat_in _ _ _ Ec y Hy) as (c' & Ec'). exists c'. split; [exact Ec'|]. destruct (Cl x y c' Ec') as (_ & _ & K). apply K.
    apply range_in in Hy. apply H; [apply Hxs; exact Hx|lia|lia].
Qed.
Theorem C78_raises g : wf_grid g -> (prevent_double_edge_belts g = None <-> width (geo g) = 1 /\ 2 <= height (geo g)).
Proof.
  intros W. split.
  - intros E. destruct (Z_le_gt_dec 2 (width (geo g))) as [H|H]; [destruct (double_edge_total g W H) as [cs E']; congruence|].
    pose proof W as ((W1 & W2) & _). split; [lia|]. destruct (Z_le_gt_dec 2 (height (geo g))) as [H'|H']; [exact H'|exfalso].
    unfold prevent_double_edge_belts in E. replace (height (geo g) - 1) with 0 in E by lia. discriminate.
  - intros [E1 E2]. destruct (prevent_double_edge_belts g) as [cs|] eqn:E; [exfalso|reflexivity].
    destruct (oflat_in _ _ _ E 1 (or_introl eq_refl)) as (c & Ec). destruct (oflat_in _ _ _ Ec 0) as (c' & Ec'); [apply range_in; lia|].
    unfold double_edge_clause in Ec'. assert (X : in_grid g 1 0 = false) by (unfold in_grid; rewrite E1; reflexivity). rewrite X in Ec'. discriminate.
Qed.

(** ** Examples *)
(** One splitter, on a grid of three columns, is found with the option. *)
Example C77_demo : solves_edges naive_encoder (deduplicate_network demo_net) 3 3 (Some 4) demo_bgrid (row_solution 0) /\ reads demo_bgrid (row_solution 0) (row_balancer 0).
Proof.
  split; [|apply row_reads; left; reflexivity]. destruct (row_solves 0 (or_introl eq_refl)) as (cs & top & C & S & Ix & Ls).
  assert (X : match create_balancer naive_encoder (deduplicate_network demo_net) 3 3 (Some 4) with
    | Some (g, _, top) => match enforce_edge_splitters naive_encoder demo_bgrid (deduplicate_network demo_net) top with Some (cs, _) => sat (row_solution 0) cs | None => false end
    | None => false end = true) by (vm_compute; reflexivity).
  rewrite C in X. destruct (enforce_edge_splitters naive_encoder demo_bgrid (deduplicate_network demo_net) top) as [[cs' top']|] eqn:Ce; [|discriminate].
  exists cs, top, cs', top'. repeat (split; [assumption|]). exact X.
Qed.
Example C77_demo_edges : edges_taken 3 (row_balancer 0) row_placement demo_net 0 1.
Proof. split; intros j nd s Hj Hs Ha; destruct j as [|[|j]]; try discriminate; cbn in Hs; injection Hs as <-; split; reflexivity. Qed.
(** On four columns there is a balancer, but none with the option. *)
Definition wide_balancer : layout := fun p =>
  if (snd p =? 0) || (snd p =? 1) then if fst p =? 1 then Splitter RIGHT (snd p =? 1) else Belt RIGHT RIGHT else Empty.
Definition wide_bgrid : grid := balancer_grid (deduplicate_network demo_net) 4 3 (Some 4) 1.
Definition wide_solution : assignment := layout_assignment wide_bgrid wide_balancer 4 (fun p => if fst p <=? 1 then 0 else 1) (fun _ => 0) (fun _ => 0)
  (fun v => v =? node wide_bgrid (1, 1) 0).
Lemma wide_wf : wf_grid wide_bgrid.
Proof. split; [split; reflexivity|]. split; [reflexivity|]. split; [cbn; lia|]. cbn; lia. Qed.
Lemma wide_solves : solves_balancer naive_encoder (deduplicate_network demo_net) 4 3 (Some 4) wide_bgrid wide_solution.
Proof.
  assert (X : match create_balancer naive_encoder (deduplicate_network demo_net) 4 3 (Some 4) with Some (_, cs, _) => sat wide_solution cs | None => false end = true) by (vm_compute; reflexivity).
  assert (Y : match create_balancer naive_encoder (deduplicate_network demo_net) 4 3 (Some 4) with Some (g, _, _) => g = wide_bgrid | None => False end) by (vm_compute; reflexivity).
  destruct (create_balancer naive_encoder (deduplicate_network demo_net) 4 3 (Some 4)) as [[[g cs] top]|] eqn:E; [|discriminate]. subst g.
  exists cs, top. split; [exact E|]. split; [exact X|]. split; [vm_compute; reflexivity|]. apply check_clauses. vm_compute. reflexivity.
Qed.
Lemma wide_reads : reads wide_bgrid wide_solution wide_balancer.
Proof.
  assert (X : forallb (fun p => match decoded wide_bgrid wide_solution p with Some t => if tile_eq_dec t (wide_balancer p) then true else false | None => false end)
    (iterate_tiles (geo wide_bgrid)) = true) by (vm_compute; reflexivity).
  intros p Hp. rewrite forallb_forall in X. specialize (X p (proj2 (iterate_tiles_in _ _) Hp)).
  unfold decoded in X. destruct (read_tile _) as [t|]; [|discriminate]. destruct (tile_eq_dec t (wide_balancer p)); [congruence|discriminate].
Qed.
Lemma demo_dedup_ok : nonneg_colours (deduplicate_network demo_net) /\ (forall nd k, In (nd, k) (deduplicate_network demo_net) -> 0 <= k).
Proof.
  split.
  - apply dedup_nonneg. intros x Hx. cbn in Hx. intuition; match goal with H : Some _ = Some _ |- _ => injection H as <-; lia end.
  - intros nd k H. cbn in H. destruct H as [[= _ <-]|[]]. lia.
Qed.
Example C77_wide_refuted :
  (exists a, solves_balancer naive_encoder (deduplicate_network demo_net) 4 3 (Some 4) wide_bgrid a /\ reads wide_bgrid a wide_balancer) /\
  forall a, ~ solves_edges naive_encoder (deduplicate_network demo_net) 4 3 (Some 4) wide_bgrid a.
Proof.
  split; [exists wide_solution; split; [exact wide_solves|exact wide_reads]|].
  apply (C77_every_balancer_lost_refuted naive_encoder (deduplicate_network demo_net) 4 3 (Some 4) wide_bgrid 0 2 1 2 ((Some 0, Some 0), (Some 1, Some 1))).
  - apply naive_honest.
  - apply demo_dedup_ok.
  - apply demo_dedup_ok.
  - lia.
  - reflexivity.
  - left. reflexivity.
  - reflexivity.
  - reflexivity.
  - reflexivity.
  - reflexivity.
  - lia.
Qed.
(** A network that feeds one of its outputs back to where its inputs go: two
    splitters are fed by the inputs, one of them has to stand at the edge. *)
Definition back_net : network := [((Some 0, Some 0), (Some 0, Some 1)); ((Some 0, Some 0), (Some 1, Some 1))].
Definition back_placement (x : Z) : placement := {| pl_splitters := [((x, 1), (x, 0)); ((2, 3), (2, 2))]; pl_in := fun _ => false; pl_out := fun _ => false; pl_inputs := []; pl_outputs := [] |}.
Example C77_back T : get_input_output_colours back_net = Some ((0, 3), (1, 3)) /\
  at_edge T (back_placement 1) back_net fst 0 1 (belts_of 0 (map snd back_net)) /\ ~ at_edge T (back_placement 2) back_net fst 0 1 (belts_of 0 (map snd back_net)).
Proof. split; [reflexivity|]. split; [vm_compute; congruence|]. intros H. vm_compute in H. apply H. reflexivity. Qed.

(** The straight belts behind the splitter on four columns are what --edge-belts
    forbids. *)
Example C78_demo : match prevent_double_edge_belts wide_bgrid with Some cs => sat wide_solution cs = false | None => False end /\
  match prevent_double_edge_belts demo_bgrid with Some cs => sat (row_solution 0) cs = true | None => False end.
Proof. split; vm_compute; reflexivity. Qed.
Example C78_demo_layout : passes_right wide_balancer (2, 0) /\ passes_right wide_balancer (2, 0 + 1) /\
  wf_grid wide_bgrid /\ solves_init wide_bgrid wide_solution /\ reads wide_bgrid wide_solution wide_balancer.
Proof. split; [reflexivity|]. split; [reflexivity|]. split; [apply wide_wf|]. split; [apply check_clauses; vm_compute; reflexivity|exact wide_reads]. Qed.

Print Assumptions C77_solutions_take_the_edges.
Print Assumptions C77_no_such_balancer_lost.
Print Assumptions C77_exactly.
Print Assumptions C77_every_balancer_lost_refuted.
Print Assumptions C78_edge_belts.
Print Assumptions C78_raises.
