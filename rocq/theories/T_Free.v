(** Property theorems C94 and C95: everything that belt_balancer_net_free.py
    prints for as many outputs as inputs. *)
From Coq Require Import String ZArith QArith List Bool Lia.
From Verif Require Import P_Network P_Network2 P_Benes P_Nonneg P_Similar T_Network.
From Verif Require Import Spec_Cnf Spec_Tile Spec_Layout Spec_Pattern Spec_Main M_Json M_Tile M_Util M_Card M_Network Spec_Network M_Template M_Grid M_Oracle M_Balancer M_Optimise M_NetFree M_Solve M_Main M_Partial
  Spec_Balancer Spec_Flow Spec_Interchange Spec_Pow2 Spec_Free P_Cnf P_Util P_Util3 P_Card P_Tile P_Layout P_List P_Template P_Walk P_Grid P_GridSound P_GridComplete P_Transport T_Grid T_Enumerate P_GridOk P_Gen P_Trace P_Uniq P_FlowWitness
  P_NetEnds P_NetShape P_Balancer T_Lossless P_NetFree P_NetTotal P_Connect P_Solve P_Main P_MainTotal P_Pow2Exact P_FreeExact T_NetDemo T_Pow2.
From Verif Require P_Lossless P_Once P_Partial P_NetFree2 T_Edge T_Main.
Import ListNotations.
Open Scope Z_scope.

(** ** C94: which layouts *)
(** The layouts printed are exactly those with [n] straight belts in and out
    whose belts can be labelled with flows that lines keep, splitters halve and
    that end in equal parts (Spec_Free), that have none of the patterns the
    program avoids (Spec_Main) and that contain the tiles of --partial.  [l] is
    the argument of --underground-length. *)
Theorem C94_exactly w h l n al partial g cs top T : net_free_main w h l n n al partial = Some (g, cs, top) ->
  let L := longest w h (length_option l) in
  (exists a, sat a cs = true /\ reads g a T) <->
  (exists i j, open_part w h L n T i j /\ (al = true -> i = j) /\ exists F, measured w h L n T i j F) /\
  asked (free_options l partial) (rectangle w h) 0 0 T.
Proof. apply free_exactly. Qed.
(** All layouts of that form are balancers, with patterns that are avoided or
    without. *)
Theorem C94_form_balances w h L n T i j F : 0 < w -> 0 < h -> 0 < n -> 1 <= L ->
  open_part w h L n T i j -> measured w h L n T i j F -> balanced_layout (rectangle w h) T L.
Proof.
  intros Hw Hh Hn HL Op Me.
  destruct (free_parts_back w h (Some L) n false T i j F Hw Hh Hn HL Op ltac:(discriminate) Me) as (a & Par & R).
  exact (nn_balanced w h n (Some L) false (n_to_n_grid w h (Some L) n) a ltac:(cbv beta iota; lia) Par T R).
Qed.
(** The program starts its solver for these arguments, and raises otherwise; the
    numbers of inputs and outputs may differ here. *)
Theorem C94_starts w h l n m al partial :
  net_free_main w h l n m al partial <> None <->
  0 < w /\ 0 < h /\ (w = 1 -> h = 1) /\ 0 < n /\ 0 < m /\ (l = -1 \/ 1 <= l) /\ match partial with Some G => placeable w h G | None => True end.
Proof.
  split.
  - intros N. destruct (net_free_main w h l n m al partial) as [[[g cs] top]|] eqn:Hm; [|contradiction]. clear N.
    unfold net_free_main in Hm. destruct (with_partial_split _ _ _ _ _ Hm) as (cs0 & Ep & Pt & _). clear Hm. unfold net_free in Ep.
    destruct (create_n_to_m_balancer w h (length_option l) n m) as [[g' created]|] eqn:Ec; [|discriminate]. cbn [obind] in Ep.
    rewrite !seq_gen_cons in Ep. destruct (setup_free_ends g' n m al (grid_top g')) as [[ends t1]|] eqn:Ee; [|discriminate]. cbn [pure obind] in Ep.
    destruct (enforce_maximum_underground_length g') as [lc|] eqn:El; [|discriminate]. cbn [pure obind] in Ep.
    destruct (expand_underground g' 1 0 (Some (width (geo g') - 2)) None) as [xc|] eqn:Ex; [|discriminate]. cbn [pure obind] in Ep.
    destruct (prevent_double_edge_belts g') as [dc|] eqn:Ed; [|discriminate]. cbn [pure obind seq_gen] in Ep.
    apply Some_inj in Ep. assert (Egg : g' = g) by congruence. subst g'. clear Ep.
    destruct (free_grid w h (length_option l) n m g created Ec) as (Hw & Hh & Hn & Hm & Gg).
    assert (Wd : width (geo g) = w) by (destruct Gg as [-> | (M & ->)]; reflexivity). assert (Hd : height (geo g) = h) by (destruct Gg as [-> | (M & ->)]; reflexivity).
    assert (Gl : glen g = length_option l) by (destruct Gg as [-> | (M & ->)]; reflexivity).
    assert (Hl : l = -1 \/ 1 <= l).
    { unfold enforce_maximum_underground_length in El. rewrite Gl in El. unfold length_option in El. destruct (Z.eqb_spec l (-1)); [left; assumption|]. destruct (Z.leb_spec 1 l); [lia|discriminate]. }
    assert (W : wf_grid g).
    { assert (Hul : match length_option l with Some l => 0 <= l | None => True end) by (unfold length_option; destruct (Z.eqb_spec l (-1)); [exact Logic.I|lia]).
      destruct Gg as [-> | (M & ->)]; [apply n_to_n_wf|apply P_NetFree2.n_to_m_wf]; assumption. }
    repeat (split; [assumption|]). split.
    { intros W1. pose proof (T_Edge.C78_raises g W) as R. destruct (Z.eq_dec h 1) as [|Nh]; [assumption|exfalso]. rewrite (proj2 R) in Ed; [discriminate|]. lia. }
    repeat (split; [assumption|]). destruct partial as [G|]; [|exact Logic.I]. rewrite <- Wd, <- Hd. apply (partial_some g G W). destruct (Pt G eq_refl) as (c & ->). discriminate.
  - intros (Hw & Hh & Hwh & Hn & Hm & Hl & Pa).
    assert (Hul : match length_option l with Some l => 0 <= l | None => True end) by (unfold length_option; destruct (Z.eqb_spec l (-1)); [exact Logic.I|lia]).
    destruct (create_n_to_m_total w h (length_option l) n m Hw Hh Hn Hm Hul) as (g & created & Ec & W & Wd & Hd & Gl & _).
    assert (Ws : forall x, In x (wishes (free_options l partial) g) -> exists c, x = Some c).
    { apply (wishes_some (free_options l partial) g W); [exact Gl|exact Hl| |]; rewrite Wd, Hd; [intros _; exact Hwh|exact Pa]. }
    unfold net_free_main, net_free. rewrite Ec. cbn [obind]. rewrite !seq_gen_cons.
    assert (EE : exists ends t, setup_free_ends g n m al (grid_top g) = Some (ends, t)).
    { unfold setup_free_ends. destruct (setup_end _ _ _) as [[c1 s1] t1]. destruct (setup_end _ _ _) as [[c2 s2] t2]. eauto. }
    destruct EE as (ends & t & ->). cbn [pure obind].
    destruct (Ws (enforce_maximum_underground_length g)) as (lc & ->); [apply free_wishes; right; unfold wishes, wishes3; rewrite !in_app_iff; right; right; right; left; left; reflexivity|]. cbn [pure obind].
    destruct (Ws (expand_underground g 1 0 (Some (width (geo g) - 2)) None)) as (xc & ->); [apply free_wishes; right; unfold wishes, wishes2; rewrite !in_app_iff; right; left; right; right; left; left; reflexivity|]. cbn [pure obind].
    destruct (Ws (prevent_double_edge_belts g)) as (dc & ->); [apply free_wishes; left; reflexivity|]. cbn [pure obind seq_gen].
    apply P_Partial.with_partial_some; [exact W|]. rewrite Wd, Hd. exact Pa.
Qed.

(** ** C95: each of them once *)
(** With --all and a truthful solver each of these layouts is printed exactly
    once, and nothing else. *)
Theorem C95_every_layout_once w h l n al partial g cs top vs dom solver :
  net_free_main w h l n n al partial = Some (g, cs, top) -> important_variables g [] true = Some vs ->
  correct_solver dom solver -> in_dom dom cs -> (forall v, In v vs -> In v dom) ->
  let L := longest w h (length_option l) in
  let wanted T := (exists i j, open_part w h L n T i j /\ (al = true -> i = j) /\ exists F, measured w h L n T i j F) /\
    asked (free_options l partial) (rectangle w h) 0 0 T in
  exists ms, (exists fuel, itersolve solver vs fuel cs = Some ms) /\
    (forall m, In m ms -> exists T, reads g (model_assignment m) T /\ wanted T) /\
    (forall T, wanted T -> exists i m, nth_error ms i = Some m /\ reads g (model_assignment m) T /\
       forall j m', nth_error ms j = Some m' -> reads g (model_assignment m') T -> j = i).
Proof.
  intros Hm EI CS D VD L wanted. pose proof (fun a Sa => free_known w h l n al partial g cs top a Hm Sa) as K.
  destruct (free_split w h l n al partial g cs top Hm) as (Hw & Hh & Hn & Hl & Eg & _).
  assert (Hul : match length_option l with Some l => 0 <= l | None => True end) by (unfold length_option; destruct (Z.eqb_spec l (-1)); [exact Logic.I|lia]).
  assert (W : wf_grid g) by (rewrite Eg; apply n_to_n_wf; assumption).
  apply (fun H1 H2 H3 H4 H5 => P_Once.each_layout_once g cs wanted H1 H2 H3 H4 H5 vs dom solver EI CS D VD).
  - exact W.
  - intros a Sa. apply (nn_solves _ _ _ _ _ _ _ Hul (K a Sa)).
  - intros T. exact (C94_exactly w h l n al partial g cs top T Hm).
  - intros a a' T Sa Sa' R R' p Hp d.
    destruct (full_sides _ W a (nn_solves _ _ _ _ _ _ _ Hul (K a Sa)) T R (nn_full _ _ _ _ _ _ _ Hul (K a Sa) T R) p d Hp) as [I1 O1], (full_sides _ W a' (nn_solves _ _ _ _ _ _ _ Hul (K a' Sa')) T R' (nn_full _ _ _ _ _ _ _ Hul (K a' Sa') T R') p d Hp) as [I2 O2].
    split; apply Bool.eq_iff_eq_true; [rewrite I1, I2|rewrite O1, O2]; reflexivity.
  - intros a a' T T' Sa Sa' R R' Sb. eapply heads_determined; [apply W|rewrite Eg; reflexivity|rewrite Eg; reflexivity| | |exact Sb].
    + apply (closed_valid g W a (nn_solves _ _ _ _ _ _ _ Hul (K a Sa)) T R).
    + apply (closed_valid g W a' (nn_solves _ _ _ _ _ _ _ Hul (K a' Sa')) T' R').
Qed.

(** ** A 4 to 4 balancer *)
(** The layout of T_Pow2 without its outer columns, between two columns of
    splitters, with the flows in quarters of a belt. *)
Definition open_four : layout := framed 6 (fun p => four (fst p + 1, snd p)).
Definition open_four_grid : grid := n_to_n_grid 10 4 (Some 4) 4.
Definition open_four_flow (c : Z) (p : pos) : Z :=
  if fst p <=? 1 then (if snd p =? c then 4 else 0)
  else if fst p =? 9 then 1
  else if four_colour (fst p - 1, snd p) =? 1 then (if c <? 2 then 2 else 0) else (if c =? 2 then 2 else 0).
Definition open_four_table := tabulate open_four_grid (free_view 10 4 (Some 4) 4 open_four open_four_flow (fun _ => false)).
Definition open_four_solution : assignment := of_table open_four_table [grid_top open_four_grid + 1; grid_top open_four_grid + 2].
Example C94_four : exists cs top, net_free_main 10 4 4 4 4 true None = Some (open_four_grid, cs, top) /\ sat open_four_solution cs = true.
Proof.
  assert (X : match net_free_main 10 4 4 4 4 true None with Some (_, cs, _) => sat open_four_solution cs | None => false end = true) by (vm_compute; reflexivity).
  assert (Y : match net_free_main 10 4 4 4 4 true None with Some (g', _, _) => g' = open_four_grid | None => False end) by (vm_compute; reflexivity).
  destruct (net_free_main 10 4 4 4 4 true None) as [[[g' cs] top]|] eqn:E; [|discriminate]. subst g'. exists cs, top. auto.
Qed.
Example C94_four_reads : reads open_four_grid open_four_solution open_four.
Proof. apply reads_by_checking. vm_compute. reflexivity. Qed.
Example C94_four_form : (exists i, open_part 10 4 4 4 open_four i i /\ exists F, measured 10 4 4 4 open_four i i F) /\
  asked (free_options 4 None) (rectangle 10 4) 0 0 open_four /\ balanced_layout (rectangle 10 4) open_four 4.
Proof.
  destruct C94_four as (cs & top & Hm & Sa).
  destruct (proj1 (C94_exactly 10 4 4 4 true None open_four_grid cs top open_four Hm) (ex_intro _ open_four_solution (conj Sa C94_four_reads))) as ((i & j & Op & Ali & F & Me) & As).
  rewrite <- (Ali eq_refl) in Op, Me. change (longest 10 4 (length_option 4)) with 4 in Op, Me.
  split; [exists i; split; [exact Op|exists F; exact Me]|]. split; [exact As|]. apply (C94_form_balances 10 4 4 4 open_four i i F); try lia; assumption.
Qed.
(** Two rows of belts do not balance, so they have no flows. *)
Example C94_rows : forall i j F, ~ measured 3 2 4 2 (fun _ => Belt RIGHT RIGHT) i j F \/ ~ (i = 0 /\ j = 0).
Proof.
  intros i j F. destruct (Z.eq_dec i 0) as [->|]; [|right; lia]. destruct (Z.eq_dec j 0) as [->|]; [|right; lia]. left. intros Me.
  pose proof (me_first _ _ _ _ _ _ _ _ Me 0 0 ltac:(lia) ltac:(lia)) as E1. pose proof (me_last _ _ _ _ _ _ _ _ Me 0 0 ltac:(lia) ltac:(lia)) as E2.
  assert (C : carried (rectangle 3 2) (fun _ => Belt RIGHT RIGHT) 4 (0, 0) (2, 0)).
  { assert (H : forall x, 0 <= x < 2 -> hands_on (rectangle 3 2) (fun _ => Belt RIGHT RIGHT) (x, 0) (x + 1, 0)).
    { intros x Hx. split; [split; cbn; lia|]. split; [intros []|]. exists RIGHT. split; [reflexivity|]. assert (x = 0 \/ x = 1) as [-> | ->] by lia; reflexivity. }
    eapply carried_belt; [exact (H 0 ltac:(lia))|]. eapply carried_belt; [exact (H 1 ltac:(lia))|]. constructor. }
  rewrite (me_lines _ _ _ _ _ _ _ _ Me 0 _ _ ltac:(lia) C) in E1. change (3 - 1) with 2 in E2. rewrite E1 in E2. vm_compute in E2. discriminate.
Qed.
Print Assumptions C94_exactly.
Print Assumptions C94_form_balances.
Print Assumptions C94_starts.
Print Assumptions C95_every_layout_once.
Print Assumptions C94_four_form.
Print Assumptions C94_rows.
