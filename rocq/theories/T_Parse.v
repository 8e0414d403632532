(** Property theorems C96 to C98: what network.py reads out of a layout of
    belts, the command parse. *)
From Coq Require Import String ZArith QArith List Bool Lia Permutation.
From Verif Require Import P_Network P_Network2 P_Benes P_Similar P_Wiring T_Network.
From Verif Require Import Spec_Tile Spec_Layout M_Json M_Tile M_Dict M_Network M_Template Spec_Network Spec_Balancer Spec_Flow Spec_Interchange Spec_Free Spec_Parse M_Parse
  P_Tile P_Layout P_List P_Template P_Walk P_Trace P_Uniq P_Grid P_Flow P_Lossless P_Parse4 P_Parse5 P_Parse6 P_Parse7 P_Parse8.
From Verif Require T_Free.
Import ListNotations.
Open Scope Z_scope.

(** ** C96: the network that is read *)
(** [order] is the order in which Python goes through the set of splitters.
    Every line of the layout is followed from the splitter it leaves to the
    splitter it enters: the network read is the network of the layout
    (Spec_Parse). *)
Theorem C96_reads w h T L order edge net : 0 < w -> 0 < h -> valid_layout (rectangle w h) T L -> (forall l, Permutation l (order l)) ->
  parse_network w h T order edge = Some net ->
  exists ss, all_splitters (rectangle w h) T ss /\ network_of (rectangle w h) T L edge ss net.
Proof. apply parse_reads. Qed.
(** So the names 0 and one more than the number of splitters are those of the
    ends, and each other name belongs to the outputs of one splitter. *)
Theorem C96_names w h T L order edge net : 0 < w -> 0 < h -> valid_layout (rectangle w h) T L -> (forall l, Permutation l (order l)) ->
  parse_network w h T order edge = Some net ->
  let k := Z.of_nat (List.length net) in
  (forall i nd b c, nth_error net i = Some nd -> pick (snd nd) b = Some c -> c = Z.of_nat i + 1 \/ c = k + 1) /\
  (forall i nd b c, nth_error net i = Some nd -> pick (fst nd) b = Some c -> 0 <= c <= k).
Proof.
  intros Hw Hh VL Ho H. destruct (parse_reads w h T L order edge net Hw Hh VL Ho H) as (ss & _ & NO). split.
  - intros i nd b c Hi Hc. apply (read_source (rectangle w h) T L edge ss net NO 0 i b c). cbn [source_colour]. rewrite Hi. exact Hc.
  - intros i nd b c Hi Hc. apply (read_sink (rectangle w h) T L edge ss net NO 0 0 i b c). cbn [sink_colour]. rewrite Hi. exact Hc.
Qed.

(** ** C97: which layouts can be read *)
(** Reading raises exactly when a half of a splitter has an empty tile before or
    behind it, or when the line of a tunnel that starts in the top row is found
    behind that tunnel (Spec_Parse). *)
Theorem C97_readable w h T L order edge : 0 < w -> 0 < h -> valid_layout (rectangle w h) T L -> (forall l, Permutation l (order l)) ->
  (exists net, parse_network w h T order edge = Some net) <-> no_gaps (rectangle w h) T /\ ~ late_top_tunnel (rectangle w h) T L.
Proof. apply parse_some. Qed.
(** In particular when no tunnel starts in the top row. *)
Theorem C97_clear w h T L order edge : 0 < w -> 0 < h -> valid_layout (rectangle w h) T L -> top_row_clear (rectangle w h) T -> (forall l, Permutation l (order l)) ->
  (exists net, parse_network w h T order edge = Some net) <-> no_gaps (rectangle w h) T.
Proof. intros Hw Hh VL Top Ho. rewrite (parse_some w h T L order edge Hw Hh VL Ho). pose proof (clear_not_late w h T L Top). tauto. Qed.
(** The condition on the tunnels is needed: the walk back along a tunnel does
    not look at row 0. *)
Definition top_tunnel : layout := fun p => match p with (0, 0) => Underground LEFT false | (2, 0) => Underground LEFT true | _ => Empty end.
Lemma cells_3_1 p : inside (rectangle 3 1) p -> p = (0, 0) \/ p = (1, 0) \/ p = (2, 0).
Proof. destruct p as [x y]. intros (Hx & Hy). cbn in Hx, Hy. assert (y = 0) by lia. subst y. assert (x = 0 \/ x = 1 \/ x = 2) as [-> | [-> | ->]] by lia; auto. Qed.
Example C97_top_valid : valid_layout (rectangle 3 1) top_tunnel 4.
Proof.
  assert (Tun : tunnel (rectangle 3 1) top_tunnel 4 (2, 0) LEFT (0, 0)).
  { exists 2. split; [lia|]. split; [reflexivity|]. intros j Hj. assert (j = 1) by lia. subst j. exists (1, 0). split; [reflexivity|]. intros []. }
  split; [|split; [|split; [|split; [|split; [|split; [|split]]]]]].
  - intros p Hp. destruct (cells_3_1 p Hp) as [-> | [-> | ->]]; exact Logic.I.
  - intros p d hd Hp Tp. destruct (cells_3_1 p Hp) as [-> | [-> | ->]]; discriminate.
  - intros p d q Hp Pu Ns Nb. destruct (cells_3_1 p Hp) as [-> | [-> | ->]]; cbn in Pu; try contradiction; subst d; cbn in Nb; discriminate.
  - intros p d q Hp Pu Ns Nb. destruct (cells_3_1 p Hp) as [-> | [-> | ->]]; cbn in Pu; try contradiction; subst d; cbn in Nb; discriminate.
  - intros p d hd q i o Hp Tp. destruct (cells_3_1 p Hp) as [-> | [-> | ->]]; discriminate.
  - intros p d hd Hp Tp. destruct (cells_3_1 p Hp) as [-> | [-> | ->]]; discriminate.
  - intros p d Hp Tp. destruct (cells_3_1 p Hp) as [-> | [-> | ->]]; cbn in Tp; try discriminate. injection Tp as <-. exists (0, 0). split; [reflexivity|exact Tun].
  - intros p d Hp Tp. destruct (cells_3_1 p Hp) as [-> | [-> | ->]]; cbn in Tp; try discriminate. injection Tp as <-. exists (2, 0). split; [split; cbn; lia|]. split; [reflexivity|exact Tun].
Qed.
Theorem C97_top_row_refuted : ~ (forall w h T L order edge, 0 < w -> 0 < h -> valid_layout (rectangle w h) T L -> (forall l, Permutation l (order l)) ->
  no_gaps (rectangle w h) T -> exists net, parse_network w h T order edge = Some net).
Proof.
  intros H. destruct (H 3 1 top_tunnel 4 (fun l => l) false ltac:(lia) ltac:(lia) C97_top_valid) as (net & E).
  - intros l. apply Permutation_refl.
  - intros p d hd q Hp Tp. exfalso. destruct (cells_3_1 p Hp) as [-> | [-> | ->]]; discriminate.
  - vm_compute in E. discriminate.
Qed.
Example C97_top_late : late_top_tunnel (rectangle 3 1) top_tunnel 4.
Proof.
  exists (2, 0), (0, 0), (0, 0). split; [reflexivity|]. split; [|split; [constructor|split; [reflexivity|split; [intros []|]]]].
  - split; [split; cbn; lia|]. exists LEFT. split; [reflexivity|]. split; [reflexivity|]. exists 2. split; [lia|]. split; [reflexivity|].
    intros j Hj. assert (j = 1) by lia. subst j. exists (1, 0). split; [reflexivity|]. intros [].
  - intros q [Hx Hy] _ _ [V|[_ V]]; cbn [fst snd] in V; lia.
Qed.
(** The same tunnel the other way round is found before it is walked back. *)
Definition top_right : layout := fun p => match p with (0, 0) => Underground RIGHT true | (2, 0) => Underground RIGHT false | _ => Empty end.
Example C97_right_valid : valid_layout (rectangle 3 1) top_right 4.
Proof.
  assert (Tun : tunnel (rectangle 3 1) top_right 4 (0, 0) RIGHT (2, 0)).
  { exists 2. split; [lia|]. split; [reflexivity|]. intros j Hj. assert (j = 1) by lia. subst j. exists (1, 0). split; [reflexivity|]. intros []. }
  split; [|split; [|split; [|split; [|split; [|split; [|split]]]]]].
  - intros p Hp. destruct (cells_3_1 p Hp) as [-> | [-> | ->]]; exact Logic.I.
  - intros p d hd Hp Tp. destruct (cells_3_1 p Hp) as [-> | [-> | ->]]; discriminate.
  - intros p d q Hp Pu Ns Nb. destruct (cells_3_1 p Hp) as [-> | [-> | ->]]; cbn in Pu; try contradiction; subst d; cbn in Nb; discriminate.
  - intros p d q Hp Pu Ns Nb. destruct (cells_3_1 p Hp) as [-> | [-> | ->]]; cbn in Pu; try contradiction; subst d; cbn in Nb; discriminate.
  - intros p d hd q i o Hp Tp. destruct (cells_3_1 p Hp) as [-> | [-> | ->]]; discriminate.
  - intros p d hd Hp Tp. destruct (cells_3_1 p Hp) as [-> | [-> | ->]]; discriminate.
  - intros p d Hp Tp. destruct (cells_3_1 p Hp) as [-> | [-> | ->]]; cbn in Tp; try discriminate. injection Tp as <-. exists (2, 0). split; [reflexivity|exact Tun].
  - intros p d Hp Tp. destruct (cells_3_1 p Hp) as [-> | [-> | ->]]; cbn in Tp; try discriminate. injection Tp as <-. exists (0, 0). split; [split; cbn; lia|]. split; [reflexivity|exact Tun].
Qed.
Example C97_right : ~ top_row_clear (rectangle 3 1) top_right /\ ~ late_top_tunnel (rectangle 3 1) top_right 4.
Proof.
  split; [intros H; apply (H (0, 0) RIGHT); [split; cbn; lia|reflexivity|reflexivity]|].
  apply (C97_readable 3 1 top_right 4 (fun l => l) false ltac:(lia) ltac:(lia) C97_right_valid); [intros l; apply Permutation_refl|]. exists []. vm_compute. reflexivity.
Qed.
(** A splitter with one output only: a valid layout that cannot be read. *)
Definition one_out : layout := fun p => match p with (0, _) => Belt RIGHT RIGHT | (1, y) => Splitter RIGHT (0 <? y) | (2, 0) => Belt RIGHT RIGHT | _ => Empty end.
Lemma cells_3_2 p : inside (rectangle 3 2) p -> p = (0, 0) \/ p = (1, 0) \/ p = (2, 0) \/ p = (0, 1) \/ p = (1, 1) \/ p = (2, 1).
Proof. destruct p as [x y]. intros (Hx & Hy). cbn in Hx, Hy. assert (y = 0 \/ y = 1) as [-> | ->] by lia; assert (x = 0 \/ x = 1 \/ x = 2) as [-> | [-> | ->]] by lia; auto 7. Qed.
Ltac cells H := destruct (cells_3_2 _ H) as [-> | [-> | [-> | [-> | [-> | ->]]]]].
Example C97_gap_valid : valid_layout (rectangle 3 2) one_out 4.
Proof.
  split; [|split; [|split; [|split; [|split; [|split; [|split]]]]]].
  - intros p Hp. cells Hp; cbn; try exact Logic.I; discriminate.
  - intros p d hd Hp Tp. cells Hp; cbn in Tp; try discriminate; injection Tp as <- <-; eexists; split; reflexivity.
  - intros p d q Hp Pu Ns Nb. cells Hp; cbn in Pu, Ns; try contradiction; subst d; cbn in Nb; try discriminate; injection Nb as <-; try reflexivity; exfalso; apply Ns; exact Logic.I.
  - intros p d q Hp Pu Ns Nb. cells Hp; cbn in Pu, Ns; try contradiction; subst d; cbn in Nb; try discriminate; injection Nb as <-; try reflexivity; exfalso; apply Ns; exact Logic.I.
  - intros p d hd q i o Hp Tp Nb Tq. cells Hp; cbn in Tp; try discriminate; injection Tp as <- <-; cbn in Nb; injection Nb as <-; cbn in Tq; try discriminate; congruence.
  - intros p d hd Hp Tp. left. intros q Nb. cells Hp; cbn in Tp; try discriminate; injection Tp as <- <-; cbn in Nb; injection Nb as <-; reflexivity.
  - intros p d Hp Tp. cells Hp; discriminate.
  - intros p d Hp Tp. cells Hp; discriminate.
Qed.
Example C97_gap : top_row_clear (rectangle 3 2) one_out /\ ~ no_gaps (rectangle 3 2) one_out /\ forall order edge, (forall l, Permutation l (order l)) -> parse_network 3 2 one_out order edge = None.
Proof.
  assert (Tc : top_row_clear (rectangle 3 2) one_out) by (intros p d Hp _; cells Hp; discriminate).
  assert (Ng : ~ no_gaps (rectangle 3 2) one_out) by (intros H; apply (H (1, 1) RIGHT true (2, 1)); [split; cbn; lia|reflexivity|left; reflexivity|reflexivity]).
  split; [exact Tc|]. split; [exact Ng|]. intros order edge Ho. destruct (parse_network 3 2 one_out order edge) as [net|] eqn:E; [|reflexivity].
  exfalso. apply Ng. apply (C97_clear 3 2 one_out 4 order edge ltac:(lia) ltac:(lia) C97_gap_valid Tc Ho). eauto.
Qed.

(** ** C98: what the network read says about the layout *)
(** [ins] and [outs] are the cells where items enter and leave.  When no line
    runs through the layout past all splitters, the layout is built as the network
    read says, the network has as many ends as the layout, and a network without
    missing belts balances exactly when the layout does. *)
Theorem C98_read w h T L order edge net ins outs : 0 < w -> 0 < h -> valid_layout (rectangle w h) T L -> (forall l, Permutation l (order l)) ->
  parse_network w h T order edge = Some net ->
  counted_inlets (rectangle w h) T edge ins -> outlets (rectangle w h) T outs -> no_through (rectangle w h) T L -> none_face_out (rectangle w h) T edge ->
  let k := Z.of_nat (List.length net) in
  realises (rectangle w h) T L net 0 (List.length ins) (k + 1) (List.length outs) /\
  (complete net -> (balances net 0 (List.length ins) (k + 1) (List.length outs) <-> balanced_layout (rectangle w h) T L)).
Proof.
  intros Hw Hh VL Ho E Ins Outs NT NF k. destruct (parse_reads w h T L order edge net Hw Hh VL Ho E) as (ss & SS & NO). pose proof (rectangle_wf w h Hw Hh) as WA. split.
  - destruct (read_realises _ T L edge WA VL ss net SS NO ins outs Ins Outs NT NF) as (wi & R). eexists. exists wi. exact R.
  - exact (read_balance _ T L edge WA VL ss net SS NO ins outs Ins Outs NT NF).
Qed.
(** The same of what the command prints, which renames the colours and sorts
    the splitters. *)
Theorem C98_printed w h T L order sets edge net ins outs : 0 < w -> 0 < h -> valid_layout (rectangle w h) T L ->
  (forall l, Permutation l (order l)) -> (forall l, Permutation (sets l) l) ->
  parse_command w h T order sets edge = Some net ->
  counted_inlets (rectangle w h) T edge ins -> outlets (rectangle w h) T outs -> no_through (rectangle w h) T L -> none_face_out (rectangle w h) T edge ->
  ins <> [] -> outs <> [] ->
  exists ic oc, get_input_output_colours net = Some ((ic, Z.of_nat (List.length ins)), (oc, Z.of_nat (List.length outs))) /\
    realises (rectangle w h) T L net ic (List.length ins) oc (List.length outs) /\
    (complete net -> (balances net ic (List.length ins) oc (List.length outs) <-> balanced_layout (rectangle w h) T L)).
Proof.
  intros Hw Hh VL Ho Hs E Ins Outs NT NF Ni No. unfold parse_command in E. destruct (parse_network w h T order edge) as [raw|] eqn:Er; [|discriminate]. cbn [obind] in E.
  destruct (C98_read w h T L order edge raw ins outs Hw Hh VL Ho Er Ins Outs NT NF) as [R B]. cbn zeta in R, B. set (k := Z.of_nat (List.length raw)) in *.
  destruct (C29_fix_colours sets raw Hs) as (f & top & Ef & Inj & _). destruct (C29_tidy sets raw Hs) as (fixed & tidy & listed & Ef' & Et & F2 & Pm & _).
  assert (fixed = recolour f raw) by congruence. subst fixed. assert (tidy = net) by congruence. subst tidy.
  assert (Hn : (0 < List.length ins)%nat) by (destruct ins; [contradiction|cbn; lia]). assert (Hm : (0 < List.length outs)%nat) by (destruct outs; [contradiction|cbn; lia]).
  assert (Nk : 0 <> k + 1) by (unfold k; lia).
  assert (Ends : has_ends raw 0 (Z.of_nat (List.length ins)) (k + 1) (Z.of_nat (List.length outs))).
  { destruct R as (P & wi & R). apply (wiring_ends raw 0 _ (k + 1) _ wi); [apply R|exact Nk|exact Hn|exact Hm]. }
  assert (Pc : forall c, 0 <= produced raw c /\ 0 <= consumed raw c) by (intros c; split; apply occurs_nonneg).
  assert (H0 : has_colour raw 0) by (left; pose proof (Pc 0); destruct Ends as (_ & X & _); lia).
  assert (Hk : has_colour raw (k + 1)) by (right; pose proof (Pc (k + 1)); destruct Ends as (_ & _ & X & _); lia).
  assert (Sim : similar (recolour f raw) net) by (eapply similar_trans; [apply similar_nodes; exact F2|apply similar_perm; exact Pm]).
  assert (R' : realises (rectangle w h) T L net (f 0) (List.length ins) (f (k + 1)) (List.length outs)) by (apply (realises_similar _ _ _ _ _ _ _ _ _ Sim); apply recolour_realises; exact R).
  exists (f 0), (f (k + 1)). split; [|split; [exact R'|]].
  - apply ends_spec. destruct R' as (P & wi & R'). apply (wiring_ends net _ _ _ _ wi); [apply R'| |exact Hn|exact Hm]. intros X. apply Nk. apply Inj; assumption.
  - intros Cm. assert (Cr : complete raw) by (apply (recolour_complete f); apply (complete_similar _ _ _ F2 Pm); exact Cm).
    split.
    + intros Bn. destruct R' as (P & wi & R'). exact (realised_balanced _ T L net _ _ _ _ P wi (rectangle_wf w h Hw Hh) VL Cm Bn R').
    + intros BL. apply (balances_similar _ _ _ _ _ _ Sim). apply recolour_balances; [exact Inj|exact H0|exact Hk|]. apply (B Cr). exact BL.
Qed.

(** ** A layout that is read *)
Import T_Free.
Definition read_four : network := [((Some 0, Some 0), (Some 2, Some 2)); ((Some 0, Some 0), (Some 1, Some 1)); ((Some 1, Some 2), (Some 3, Some 3)); ((Some 1, Some 2), (Some 3, Some 3))].
Example C98_four_read : parse_command 10 4 open_four (fun l => l) (fun l => l) false = Some read_four.
Proof. vm_compute. reflexivity. Qed.
Example C98_four_raw : exists net, parse_network 10 4 open_four (fun l => l) false = Some net /\ complete net.
Proof.
  destruct (parse_network 10 4 open_four (fun l => l) false) as [net|] eqn:E; vm_compute in E; [|discriminate]. apply Some_inj in E. subst net.
  eexists. split; [reflexivity|]. intros nd Hnd. cbn [In] in Hnd. repeat destruct Hnd as [<-|Hnd]; [repeat split; discriminate..|contradiction].
Qed.
Example C98_four : exists ins, counted_inlets (rectangle 10 4) open_four false ins /\ List.length ins = 4%nat /\
  (exists outs, outlets (rectangle 10 4) open_four outs /\ List.length outs = 4%nat) /\
  no_through (rectangle 10 4) open_four 4 /\ none_face_out (rectangle 10 4) open_four false /\ valid_layout (rectangle 10 4) open_four 4 /\ complete read_four /\ balanced_layout (rectangle 10 4) open_four 4.
Proof.
  destruct C94_four_form as ((i & Op & F & Me) & _ & BL). exists (rows 0 i 4). destruct Op as [V Of Ol Oi Oo Oc].
  split; [|split; [reflexivity|split; [exists (rows (10 - 1) i 4); split; [exact Oo|reflexivity]|split; [|split; [intros X; discriminate|split; [exact V|split; [|exact BL]]]]]]].
  - split; [apply Oi|]. intros p. split; [|intros [B _]; apply Oi; exact B]. intros Hp. split; [apply Oi; exact Hp|]. right. intros Sp.
    pose proof (proj1 (proj2 Oi p) Hp) as (_ & Ip & d & Td & Nb). destruct (open_four p) as [| | | |d' hd| |] eqn:Tp; try contradiction. cbn in Td. subst d'.
    destruct (Oc p d hd Ip Tp) as (_ & q & Nq & _). congruence.
  - intros p q (p' & q' & B & C & R). assert (p' = p) by apply B. assert (q' = q) by apply R. subst p' q'.
    assert (Hp : In p (rows 0 i 4)) by (apply Oi; exact B). assert (Hq : In q (rows (10 - 1) i 4)) by (apply Oo; exact R).
    pose proof (me_lines _ _ _ _ _ _ _ _ Me 0 p q ltac:(lia) C) as El. unfold rows in Hp, Hq. apply in_map_iff in Hp, Hq. destruct Hp as (y & <- & Hy), Hq as (z & <- & Hz).
    apply in_seq in Hy, Hz. change (Z.to_nat 4) with 4%nat in Hy, Hz.
    rewrite (me_first _ _ _ _ _ _ _ _ Me 0 (i + Z.of_nat y) ltac:(lia) ltac:(lia)) in El. pose proof (me_last _ _ _ _ _ _ _ _ Me 0 (i + Z.of_nat z) ltac:(lia) ltac:(lia)) as Ez. rewrite <- El in Ez.
    destruct ((i + Z.of_nat y) mod 4 =? 0); vm_compute in Ez; discriminate.
  - intros nd Hnd. cbn [In read_four] in Hnd. repeat destruct Hnd as [<-|Hnd]; [repeat split; discriminate..|contradiction].
Qed.
(** So the program reads a balancer: by the theorem, the network printed
    balances. *)
Example C98_four_balances : exists ic oc, get_input_output_colours read_four = Some ((ic, 4), (oc, 4)) /\ balances read_four ic 4 oc 4.
Proof.
  destruct C98_four as (ins & Ci & Li & (outs & Co & Lo) & Nt & Nf & V & Cm & BL).
  destruct (C98_printed 10 4 open_four 4 (fun l => l) (fun l => l) false read_four ins outs ltac:(lia) ltac:(lia) V (fun l => Permutation_refl l) (fun l => Permutation_refl l) C98_four_read Ci Co Nt Nf) as (ic & oc & E & _ & B).
  - intros ->. discriminate.
  - intros ->. discriminate.
  - rewrite Li, Lo in *. exists ic, oc. split; [exact E|]. apply (B Cm). exact BL.
Qed.
Print Assumptions C96_reads.
Print Assumptions C96_names.
Print Assumptions C97_readable.
Print Assumptions C97_clear.
Print Assumptions C97_top_row_refuted.
Print Assumptions C97_top_late.
Print Assumptions C97_right.
Print Assumptions C97_gap.
Print Assumptions C98_read.
Print Assumptions C98_printed.
Print Assumptions C98_four_balances.
