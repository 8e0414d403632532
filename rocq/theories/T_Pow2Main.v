(** Property theorems C91 and C92: everything that
    belt_balancer_net_free_power_of_2.py prints. *)
From Coq Require Import String ZArith QArith List Bool Lia.
From Verif Require Import P_Network P_Network2 P_Benes P_Nonneg P_Similar T_Network.
From Verif Require Import Spec_Cnf Spec_Tile Spec_Layout Spec_Pattern Spec_Main M_Json M_Tile M_Util M_Card M_Network Spec_Network M_Template M_Grid M_Oracle M_Balancer M_Optimise M_NetFree M_Pow2 M_Solve M_Main M_Partial
  Spec_Balancer Spec_Flow Spec_Interchange Spec_Pow2 P_Cnf P_Util P_Util3 P_Card P_Tile P_Layout P_List P_Template P_Walk P_Grid P_GridSound P_GridComplete P_Transport T_Grid T_Enumerate P_GridOk P_Gen P_Trace P_Uniq P_FlowWitness
  P_NetEnds P_NetShape P_Balancer T_Lossless P_NetFree P_Pow2 P_Pow2Flow P_Pow2Total P_Connect P_Solve P_Main P_MainTotal P_Frame P_Pow2Frame P_Pow2Exact T_Pow2.
From Verif Require P_Lossless P_Once T_Main.
Import ListNotations.
Open Scope Z_scope.

(** ** C91: which layouts *)
(** The layouts printed are exactly those whose ends are the two columns, in which
    the rows can be grouped as in Spec_Pow2, that have none of the patterns the
    program avoids (Spec_Main) and that contain the tiles of --partial.  [l] is
    the argument of --underground-length. *)
Theorem C91_exactly E w h l partial g cs top T : honest E -> pow2_main E w h l partial = Some (g, cs, top) ->
  let L := longest w h (length_option l) in
  (exists a, sat a cs = true /\ reads g a T) <->
  inner_part w h L T /\ (exists S, grouped w h L T S) /\ asked (fast_options l partial) (rectangle w h) 0 0 T.
Proof. apply pow2_exactly. Qed.

(** All layouts of that form balance between two columns of splitters, with
    patterns that are avoided or without. *)
Theorem C91_form_balances w h L T : 0 < w -> (exists j, 0 < j /\ h = 2 ^ j) -> 1 <= L ->
  inner_part w h L T -> (exists S, grouped w h L T S) ->
  valid_layout (rectangle (w + 4) h) (framed w T) L /\ balanced_layout (rectangle (w + 4) h) (framed w T) L.
Proof.
  intros Hw Hj Hl Inn (S & Gr). destruct (layout_facts w h (Some L) T S Hw Hj Hl Inn Gr) as (a & PF & R).
  split; [exact (fr_valid w h (Some L) a PF T R)|exact (fr_balanced w h (Some L) a PF T R)].
Qed.

(** --partial keeps the layouts that contain the given tiles. *)
Theorem C91_given_tiles E w h l G g cs top g' cs' top' T : honest E ->
  pow2_main E w h l None = Some (g, cs, top) -> pow2_main E w h l (Some G) = Some (g', cs', top') ->
  (exists a, sat a cs' = true /\ reads g' a T) <-> (exists a, sat a cs = true /\ reads g a T) /\ extends T G.
Proof.
  intros HE H0 H1. rewrite (C91_exactly E w h l (Some G) g' cs' top' T HE H1), (C91_exactly E w h l None g cs top T HE H0).
  assert (X : asked (fast_options l (Some G)) (rectangle w h) 0 0 T <-> asked (fast_options l None) (rectangle w h) 0 0 T /\ extends T G).
  { split.
    - intros [P1 P2 P3 P4 P5 P6 P7 P8 P9]. split; [constructor; try assumption; exact Logic.I|exact P8].
    - intros [[P1 P2 P3 P4 P5 P6 P7 P8 P9] P]. constructor; assumption. }
  rewrite X. tauto.
Qed.

(** The program starts its solver for these arguments, and raises otherwise. *)
Theorem C91_starts E w h l partial : answers E ->
  (pow2_main E w h l partial <> None <->
   0 < w /\ (exists j, 0 < j /\ h = 2 ^ j) /\ (l = -1 \/ 1 <= l) /\ match partial with Some G => placeable w h G | None => True end).
Proof.
  intros An. split.
  - intros N. destruct (pow2_main E w h l partial) as [[[g cs] top]|] eqn:Hm; [|contradiction]. destruct (pow2_split E w h l partial g cs top Hm) as (Hw & Hj & Hl & Eg & Sm & _).
    split; [exact Hw|]. split; [exact Hj|]. split; [exact Hl|]. destruct partial as [G|]; [|exact Logic.I].
    assert (W : wf_grid g). { destruct Hj as (j & J0 & Ej). rewrite Eg. apply (pow2_wf w h _ Hw); [rewrite Ej; apply Z.pow_pos_nonneg; lia|]. unfold length_option. destruct (Z.eqb_spec l (-1)); [exact Logic.I|lia]. }
    assert (P : placeable (width (geo g)) (height (geo g)) G); [|subst g; exact P]. apply (partial_some g G W).
    destruct (Sm (set_nonempty_tiles g G)) as (c & ->); [|discriminate]. unfold wishes, wishes3. rewrite !in_app_iff. cbn [fast_options o_partial]. right. right. right. right. left. reflexivity.
  - intros (Hw & Hj & Hl & Pa). assert (Hul : match length_option l with Some l => 1 <= l | None => True end) by (unfold length_option; destruct (Z.eqb_spec l (-1)); [exact Logic.I|lia]).
    destruct (power_of_two_total E w h (length_option l) An Hw Hj Hul) as (cs & top & Ep). unfold pow2_main, with_partial. rewrite Ep. cbn [obind].
    destruct partial as [G|]; [|discriminate].
    assert (W : wf_grid (pow2_grid w h (length_option l))). { destruct Hj as (j & J0 & Ej). apply (pow2_wf w h _ Hw); [rewrite Ej; apply Z.pow_pos_nonneg; lia|]. destruct (length_option l); [lia|exact Logic.I]. }
    pose proof (proj2 (partial_some (pow2_grid w h (length_option l)) G W) Pa) as N. destruct (set_nonempty_tiles _ G); [discriminate|contradiction].
Qed.

(** ** C92: each of them once *)
(** With --all and a truthful solver each of these layouts is printed exactly
    once, and nothing else. *)
Theorem C92_every_layout_once E w h l partial g cs top vs dom solver : honest E ->
  pow2_main E w h l partial = Some (g, cs, top) -> important_variables g [] true = Some vs ->
  correct_solver dom solver -> in_dom dom cs -> (forall v, In v vs -> In v dom) ->
  let L := longest w h (length_option l) in
  let wanted T := inner_part w h L T /\ (exists S, grouped w h L T S) /\ asked (fast_options l partial) (rectangle w h) 0 0 T in
  exists ms, (exists fuel, itersolve solver vs fuel cs = Some ms) /\
    (forall m, In m ms -> exists T, reads g (model_assignment m) T /\ wanted T) /\
    (forall T, wanted T -> exists i m, nth_error ms i = Some m /\ reads g (model_assignment m) T /\
       forall j m', nth_error ms j = Some m' -> reads g (model_assignment m') T -> j = i).
Proof.
  intros HE Hm EI CS D VD L wanted. pose proof (fun a Sa => pow2_known_facts E w h l partial g cs top a HE Hm Sa) as K.
  destruct (pow2_split E w h l partial g cs top Hm) as (Hw & (j & J0 & Ej) & Hl & Eg & _).
  assert (W : wf_grid g). { rewrite Eg. apply (pow2_wf w h _ Hw); [rewrite Ej; apply Z.pow_pos_nonneg; lia|]. unfold length_option. destruct (Z.eqb_spec l (-1)); [exact Logic.I|lia]. }
  apply (fun H1 H2 H3 H4 H5 => P_Once.each_layout_once g cs wanted H1 H2 H3 H4 H5 vs dom solver EI CS D VD).
  - exact W.
  - intros a Sa. destruct (K a Sa) as [-> PF]. apply (p2_solves w h _ a PF).
  - intros T. exact (C91_exactly E w h l partial g cs top T HE Hm).
  - intros a a' T Sa Sa' R R' p Hp d. destruct (K a Sa) as [_ PF], (K a' Sa') as [_ PF']. subst g.
    destruct (full_sides _ W a (p2_solves w h _ a PF) T R (p2_full w h _ a PF T R) p d Hp) as [I1 O1], (full_sides _ W a' (p2_solves w h _ a' PF') T R' (p2_full w h _ a' PF' T R') p d Hp) as [I2 O2].
    split; apply Bool.eq_iff_eq_true; [rewrite I1, I2|rewrite O1, O2]; reflexivity.
  - intros a a' T T' Sa Sa' R R' Sb. destruct (K a Sa) as [_ PF], (K a' Sa') as [_ PF']. subst g. eapply heads_determined; [apply W|reflexivity|reflexivity| | |exact Sb].
    + apply (p2_valid w h _ a PF T R).
    + apply (p2_valid w h _ a' PF' T' R').
Qed.

(** ** The 4 to 4 balancer of T_Pow2, also with one of its rows given *)
Example C91_four : forall l' partial, (partial = None \/ partial = Some [[]; [Empty; Empty; Belt RIGHT DOWN; Empty]]) -> l' = 4 ->
  exists g cs top a, pow2_main naive_encoder 8 4 l' partial = Some (g, cs, top) /\ sat a cs = true /\ reads g a four.
Proof.
  intros l' partial Hp ->. assert (N : pow2_main naive_encoder 8 4 4 partial <> None).
  { apply (C91_starts naive_encoder 8 4 4 partial naive_answers). split; [lia|]. split; [exists 2; split; [lia|reflexivity]|]. split; [lia|]. destruct Hp as [-> | ->]; [exact Logic.I|].
    intros x y r t Hr Ht Nt. destruct y as [|[|[|y]]]; try discriminate; apply Some_inj in Hr; subst r.
    - destruct x; discriminate.
    - destruct x as [|[|[|[|[|x]]]]]; try discriminate; apply Some_inj in Ht; subst t; try contradiction. repeat split; lia. }
  destruct (pow2_main naive_encoder 8 4 4 partial) as [[[g cs] top]|] eqn:Hm; [|contradiction].
  destruct C79_four as (cs0 & top0 & Ep & Sa). pose proof Hm as Hm'. unfold pow2_main in Hm'. change (length_option 4) with (Some 4) in Hm'. rewrite Ep in Hm'. unfold with_partial in Hm'. cbn [obind] in Hm'.
  exists g, cs, top, four_solution. split; [reflexivity|].
  destruct Hp as [-> | ->].
  - cbn [obind] in Hm'. apply Some_inj in Hm'. assert (g = four_grid) by congruence. assert (cs = (cs0 ++ [])%list) by congruence. subst g cs. rewrite app_nil_r. split; [exact Sa|exact C79_four_reads].
  - destruct (set_nonempty_tiles four_grid [[]; [Empty; Empty; Belt RIGHT DOWN; Empty]]) as [c|] eqn:Ec; [|discriminate]. cbn [obind] in Hm'. apply Some_inj in Hm'. assert (g = four_grid) by congruence. assert (cs = (cs0 ++ c)%list) by congruence. subst g cs.
    split; [|exact C79_four_reads]. apply sat_app_iff. split; [exact Sa|].
    assert (X : match set_nonempty_tiles four_grid [[]; [Empty; Empty; Belt RIGHT DOWN; Empty]] with Some c => sat four_solution c | None => false end = true) by (vm_compute; reflexivity). rewrite Ec in X. exact X.
Qed.
Example C91_four_form : inner_part 8 4 4 four /\ (exists S, grouped 8 4 4 four S) /\ asked (fast_options 4 None) (rectangle 8 4) 0 0 four.
Proof.
  destruct (C91_four 4 None (or_introl eq_refl) eq_refl) as (g & cs & top & a & Hm & Sa & R).
  exact (proj1 (C91_exactly naive_encoder 8 4 4 None g cs top four naive_honest Hm) (ex_intro _ a (conj Sa R))).
Qed.
(** No layout of this size is printed for two inputs. *)
Example C91_two : forall l T S, 1 <= l -> inner_part 8 2 l T -> ~ grouped 8 2 l T S.
Proof.
  intros l T S Hl Inn Gr. destruct (layout_facts 8 2 (Some l) T S ltac:(lia) ltac:(exists 1; split; [lia|reflexivity]) Hl Inn Gr) as (a & PF & R).
  destruct (p2_size 8 2 (Some l) a PF T R) as (H4 & _). lia.
Qed.
Print Assumptions C91_exactly.
Print Assumptions C91_form_balances.
Print Assumptions C91_given_tiles.
Print Assumptions C91_starts.
Print Assumptions C92_every_layout_once.
Print Assumptions C91_four.
