(** Property theorem C93: --partial of interchange.py. *)
From Coq Require Import String ZArith List Bool Lia.
From Verif Require T_Mirror.
From Verif Require Import Spec_Cnf Spec_Tile Spec_Layout Spec_Pattern M_Network Spec_Network Spec_Balancer Spec_Flow Spec_Interchange Spec_Main
  M_Json M_Tile M_Util M_Card M_Template M_Grid M_Oracle M_Balancer M_Optimise M_Interchange M_Solve M_Main M_Partial
  P_Cnf P_Util P_Card P_Tile P_Layout P_List P_Template P_Walk P_Grid P_GridSound P_GridComplete P_Transport T_Grid P_GridOk P_Gen P_Pow2Total P_Cut2 P_Solve T_Template T_Enumerate.
From Verif Require P_Once P_Partial.
From Verif Require Import P_InterMain T_Interchange.
Import ListNotations.
Open Scope Z_scope.

(** The layout is an interchange without the excluded patterns (C82). *)
Definition found w h ul alternating rot T : Prop := interchange w h ul alternating T /\ exists C, two_colours w h ul T C /\ tidy w h ul rot T C.

(** The layouts printed are the interchanges that contain the given tiles. *)
Theorem C93_exactly E w h ul alternating rot partial g cs top T : honest E -> answers E -> answers_atleast E -> 1 <= ul ->
  interchange_main E w h ul alternating rot partial = Some (g, cs, top) ->
  (exists a, sat a cs = true /\ reads g a T) <-> found w h ul alternating rot T /\ match partial with Some G => extends T G | None => True end.
Proof.
  intros HE An AnL Hul Hm. assert (Hu : 0 <= ul) by lia. unfold interchange_main in Hm. destruct (P_Pow2Exact.with_partial_split _ _ _ _ _ Hm) as (cs0 & Ec & _).
  destruct (clauses_split _ _ _ _ _ _ _ _ _ Ec) as ((Hw & Hh & Ev) & Eg & rest & tc & _ & Ecs & Sr).
  assert (W : wf_grid g) by (rewrite Eg; apply ic_wf; assumption).
  rewrite (P_Partial.partial_layouts partial _ g cs top T Hm W).
  - unfold P_Partial.kept. apply and_iff_compat_r. pose proof (C83_interchanges_found E w h ul alternating rot T HE An AnL Hul) as X. split.
    + intros (cs1 & a & E1 & Sa & R). destruct (proj1 X) as (_ & _ & _ & Q1 & Q2); [eauto 8|]. split; assumption.
    + intros [Q1 Q2]. destruct (proj2 X) as (g' & cs' & top' & a & Ec' & Sa & R); [tauto|]. rewrite Ec in Ec'. apply Some_inj in Ec'. assert (g = g') by congruence. assert (cs0 = cs') by congruence. subst g' cs'. eauto.
  - intros cs1 E1 a Sa. rewrite Ec in E1. apply Some_inj in E1. assert (cs1 = cs0) by congruence. subst cs1. rewrite Ecs in Sa. apply sat_app_iff in Sa. rewrite Eg. exact (proj1 (proj1 (Sr a) (proj1 Sa))).
Qed.

(** Every one of them is printed exactly once with --all, and nothing else. *)
Theorem C93_every_interchange_once E w h ul alternating rot partial g cs top vs dom solver : honest E -> answers E -> answers_atleast E -> 1 <= ul ->
  interchange_main E w h ul alternating rot partial = Some (g, cs, top) -> important_variables g [] true = Some vs ->
  correct_solver dom solver -> in_dom dom cs -> (forall v, In v vs -> In v dom) ->
  let wanted T := found w h ul alternating rot T /\ match partial with Some G => extends T G | None => True end in
  exists ms, (exists fuel, itersolve solver vs fuel cs = Some ms) /\
    (forall m, In m ms -> exists T, reads g (model_assignment m) T /\ wanted T) /\
    (forall T, wanted T -> exists i m, nth_error ms i = Some m /\ reads g (model_assignment m) T /\
       forall j m', nth_error ms j = Some m' -> reads g (model_assignment m') T -> j = i).
Proof.
  intros HE An AnL Hul Hm EI CS D VD wanted. assert (Hu : 0 <= ul) by lia. pose proof Hm as Hm'. unfold interchange_main in Hm'. destruct (P_Pow2Exact.with_partial_split _ _ _ _ _ Hm') as (cs0 & Ec & _ & Sp).
  destruct (clauses_split _ _ _ _ _ _ _ _ _ Ec) as ((Hw & Hh & Ev) & Eg & rest & tc & _ & Ecs & Sr).
  apply (fun H1 H2 H3 H4 => P_Once.every_layout_once g cs wanted H1 H2 H3 H4 vs dom solver EI CS D VD).
  - rewrite Eg. apply ic_wf; assumption.
  - intros a Sa. apply Sp in Sa. destruct Sa as [Sa _]. rewrite Ecs in Sa. apply sat_app_iff in Sa. rewrite Eg. exact (proj1 (proj1 (Sr a) (proj1 Sa))).
  - intros T. apply (C93_exactly E w h ul alternating rot partial g cs top T HE An AnL Hul Hm).
  - intros T [[Ic _] _] p Hp. rewrite Eg in Hp. exact (ic_plain _ _ _ _ _ Ic p Hp).
Qed.

(** A given tile that cannot be placed raises, and nothing else does that C82 does
    not name. *)
Theorem C93_starts E w h ul alternating rot G g cs top : 0 <= ul -> interchange_main E w h ul alternating rot None = Some (g, cs, top) ->
  (interchange_main E w h ul alternating rot (Some G) <> None <-> placeable w h G).
Proof.
  intros Hu Hm. unfold interchange_main in *. destruct (P_Pow2Exact.with_partial_split _ _ _ _ _ Hm) as (cs0 & Ec & _). rewrite Ec.
  destruct (clauses_split _ _ _ _ _ _ _ _ _ Ec) as ((Hw & Hh & Ev) & Eg & _). rewrite (P_Partial.with_partial_some (Some G) g cs0 top); [rewrite Eg; reflexivity|]. rewrite Eg. apply ic_wf; assumption.
Qed.

(** The interchange of four lines of C83 is found from its crossing alone ... *)
Definition crossing : list (list tile) := [[]; [Empty; Belt RIGHT DOWN]; [Underground RIGHT true; Belt DOWN DOWN; Underground RIGHT false]].
Lemma four_found : found 6 4 4 true false four.
Proof. destruct C83_four as (_ & H). exact H. Qed.
Lemma four_main G : placeable 6 4 G -> exists g cs top, interchange_main naive_encoder 6 4 4 true false (Some G) = Some (g, cs, top).
Proof.
  intros P. destruct C83_four as ((g0 & cs0 & top0 & _ & E0 & _) & _).
  assert (Em : interchange_main naive_encoder 6 4 4 true false None = Some (g0, (cs0 ++ [])%list, top0)) by (unfold interchange_main; rewrite E0; reflexivity).
  pose proof (proj2 (C93_starts naive_encoder 6 4 4 true false G _ _ _ ltac:(lia) Em) P) as N. destruct (interchange_main naive_encoder 6 4 4 true false (Some G)) as [[[g cs] top]|]; [eauto|contradiction].
Qed.
Lemma place_by_checking w h G :
  forallb (fun yr => forallb (fun xt => match snd xt with Empty => true | Inserter _ _ | Assembler _ _ => false | _ => (Z.of_nat (fst xt) <? w) && (Z.of_nat (fst yr) <? h) end) (indexed (snd yr))) (indexed G) = true -> placeable w h G.
Proof.
  intros H x y r t Hr Ht Ne. rewrite forallb_forall in H. specialize (H (y, r) (proj2 (P_Balancer.indexed_in G y r) Hr)). cbn [fst snd] in H.
  rewrite forallb_forall in H. specialize (H (x, t) (proj2 (P_Balancer.indexed_in r x t) Ht)). cbn [fst snd] in H.
  destruct t; try contradiction; try discriminate; apply andb_true_iff in H; destruct H as [H1 H2]; apply Z.ltb_lt in H1; apply Z.ltb_lt in H2; auto.
Qed.
Lemma extends_by_checking T G : Forall (fun yr => Forall (fun xt => snd xt = Empty \/ T (Z.of_nat (fst xt), Z.of_nat (fst yr)) = match snd xt with Filler => Empty | _ => snd xt end) (indexed (snd yr))) (indexed G) -> extends T G.
Proof.
  intros H x y r t Hr Ht Ne. rewrite Forall_forall in H. specialize (H (y, r) (proj2 (P_Balancer.indexed_in G y r) Hr)). cbn [fst snd] in H.
  rewrite Forall_forall in H. specialize (H (x, t) (proj2 (P_Balancer.indexed_in r x t) Ht)). cbn [fst snd] in H. destruct H as [H|H]; [contradiction|rewrite H; destruct t; reflexivity].
Qed.
Example C93_crossing : exists g cs top a, interchange_main naive_encoder 6 4 4 true false (Some crossing) = Some (g, cs, top) /\ sat a cs = true /\ reads g a four.
Proof.
  destruct (four_main crossing) as (g & cs & top & Em); [apply place_by_checking; reflexivity|].
  destruct (proj2 (C93_exactly naive_encoder 6 4 4 true false (Some crossing) g cs top four naive_honest naive_answers naive_answers_atleast ltac:(lia) Em)) as (a & Sa & R); [|eauto 8].
  split; [exact four_found|]. apply extends_by_checking. cbn. repeat constructor; cbn; tauto.
Qed.
(** ... and not when a cell that it needs must stay empty. *)
Definition blocked : list (list tile) := [[]; [Empty; Filler]].
Example C93_blocked : exists g cs top, interchange_main naive_encoder 6 4 4 true false (Some blocked) = Some (g, cs, top) /\ ~ exists a, sat a cs = true /\ reads g a four.
Proof.
  destruct (four_main blocked) as (g & cs & top & Em); [apply place_by_checking; reflexivity|]. exists g, cs, top. split; [exact Em|].
  intros H. apply (C93_exactly naive_encoder 6 4 4 true false (Some blocked) g cs top four naive_honest naive_answers naive_answers_atleast ltac:(lia) Em) in H. destruct H as [_ H].
  specialize (H 1%nat 1%nat _ Filler eq_refl eq_refl). discriminate H; discriminate.
Qed.
(** A tile outside the grid raises. *)
Example C93_outside : interchange_main naive_encoder 3 2 4 false true (Some [[Empty; Empty; Empty; Belt RIGHT RIGHT]]) = None.
Proof.
  destruct C83_straight as ((g0 & cs0 & top0 & _ & E0 & _) & _).
  assert (Em : interchange_main naive_encoder 3 2 4 false true None = Some (g0, (cs0 ++ [])%list, top0)) by (unfold interchange_main; rewrite E0; reflexivity).
  destruct (interchange_main naive_encoder 3 2 4 false true (Some _)) as [r|] eqn:X; [exfalso|reflexivity].
  assert (N : Some r <> None) by discriminate. rewrite <- X in N. apply (C93_starts naive_encoder 3 2 4 false true _ _ _ _ ltac:(lia) Em) in N.
  specialize (N 3%nat 0%nat _ _ eq_refl eq_refl ltac:(discriminate)). lia.
Qed.

Print Assumptions C93_exactly.
Print Assumptions C93_every_interchange_once.
Print Assumptions C93_starts.
