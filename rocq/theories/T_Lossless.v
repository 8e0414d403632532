(** Property theorem C69: the constraints of belt_balancer.py lose no balancer. *)
From Coq Require Import String ZArith List Bool Lia Permutation.
From Verif Require Import P_Network P_Network2 P_Benes P_Nonneg P_Similar T_Network.
From Verif Require Import Spec_Cnf Spec_Tile Spec_Layout M_Json M_Tile M_Util M_Card M_Network Spec_Network M_Template M_Grid M_Oracle M_Balancer
  P_Cnf P_Util P_Card P_Tile P_Layout P_List P_Template P_Walk P_Grid P_GridSound P_GridComplete P_Transport T_Grid T_Enumerate P_GridOk P_Gen P_Balancer
  Spec_Balancer P_Trace P_Realise T_Balancer P_Lossless.
Import ListNotations.
Local Open Scope string_scope.
Open Scope Z_scope.

Definition rectangle (w h : Z) : area := {| aw := w; ah := h; wrapx := false; wrapy := false |}.
(** How many cells a tunnel may pass under. *)
Definition longest (w h : Z) (ul : option Z) : Z := match ul with Some l => l | None => Z.max w h - 1 end.

(** Every two tiles that face each other are connected. *)
Definition all_connected (g : grid) (a : assignment) (T : layout) : Prop := forall p d, inside (garea g) p ->
  (evl a (input_dir (tile_at g p) d) = true <-> takes (T p) d /\ forall q, neighbour (garea g) p (opposite d) = Some q -> pushes (T q) d) /\
  (evl a (output_dir (tile_at g p) d) = true <-> pushes (T p) d /\ forall q, neighbour (garea g) p d = Some q -> takes (T q) d).

(** The splitter variables of the solution say where the placement puts them. *)
Definition placed_nodes (g : grid) (net : counter) (P : placement) (a : assignment) : Prop := forall p i, inside (garea g) p -> (i < List.length net)%nat ->
  (evl a (node g p i) = true <-> exists j s, nth_error (pl_splitters P) j = Some s /\ fst s = p /\ nth_error (types net) j = Some i).
Lemma realisation_solved E net w h ul g cs top T ic n oc m P wire : honest E -> nonneg_colours net ->
  (forall nd k, In (nd, k) net -> 0 <= k) ->
  match ul with Some l => 1 <= l | None => True end ->
  create_balancer E net w h ul = Some (g, cs, top) ->
  get_input_output_colours (elements net) = Some ((ic, n), (oc, m)) ->
  let A := rectangle w h in
  let L := longest w h ul in
  let nodes := elements net in
  valid_layout A T L ->
  realises_by A T L nodes ic (Z.to_nat n) oc (Z.to_nat m) P wire ->
  (forall s f, joined A T L s f -> exists k, sink_colour nodes oc (Z.to_nat m) k <> None /\ finish_of P k = Some f) ->
  exists a, solves_balancer E net w h ul g a /\ reads g a T /\ all_connected g a T /\ placed_nodes g net P a.
Proof.
  intros HE Hnn Kn Hul Cr Ends A L nodes VL HR HL.
  assert (Hul0 : match ul with Some l => 0 <= l | None => True end) by (destruct ul; [lia|exact Logic.I]).
  destruct (create_balancer_spec E net w h ul g cs top HE Hnn Hul0 Cr) as (ic' & n' & oc' & m' & Ends' & W & (t & Et & Eg & Ht) & Hs & Ho & En & Hic & Hoc).
  rewrite Ends in Ends'. injection Ends' as <- <- <- <-.
  assert (EA : garea g = A) by (subst g; reflexivity). assert (EL : max_hidden g = L) by (subst g; reflexivity).
  assert (CX : wrap_x (geo g) = false) by (subst g; reflexivity). assert (CY : wrap_y (geo g) = false) by (subst g; reflexivity).
  assert (Gc : gcolours g = Some (t + 1)) by (subst g; reflexivity). assert (Hex : gextras g = [("node", TSized OneHot (List.length net))]) by (subst g; reflexivity).
  assert (Gl : glen g = ul) by (subst g; reflexivity). assert (Gt : gtop g = 0) by (subst g; reflexivity).
  destruct (list_max_spec _ _ Et) as [_ Tmax].
  assert (Cols : forall x, In x (all_colours net) -> 0 <= x < t + 1).
  { intros x Hx. specialize (Tmax x Hx). apply all_colours_in in Hx. destruct Hx as (nd & k & H1 & H2). specialize (Hnn nd k x H1 H2). lia. }
  destruct (ends_colours net ic n oc m Ends) as [Iic Ioc].
  assert (Hnm : 0 < n /\ 0 < m) by (apply ends_spec in Ends; apply Ends). destruct Hnm as [Pn Pm].
  assert (Ne : elements net <> []) by (eapply ends_nonempty; exact Ends).
  pose proof (create_missing E net w h ul _ Cr) as Miss.
  rewrite <- EA, <- EL in VL, HR, HL. fold nodes in Ends. clearbody L. subst A L.
  set (A := garea g) in *. set (L := max_hidden g) in *.
  pose proof (WA g W) as HA. fold A in HA.
  (* the colours *)
  destruct (choose_fun pos_dec (cells (width (geo g)) (height (geo g))) (coloured A T L nodes ic oc (Z.to_nat m) P) ic) as [C HC].
  { intros p _. apply (coloured_exists A HA T L VL nodes ic oc (Z.to_nat n) (Z.to_nat m) P wire HR). }
  assert (HC' : forall p, inside A p -> coloured A T L nodes ic oc (Z.to_nat m) P p (C p)) by (intros p Hp; apply HC; apply CL; exact Hp).
  clear HC. set (C' := fun p => if insideb A p then C p else match gcolours g with Some _ => ic | None => 0 end).
  assert (Ci : forall p, inside A p -> C' p = C p) by (intros p Hp; unfold C'; rewrite (proj2 (insideb_iff A p) Hp); reflexivity).
  set (a0 := fun v => existsb (fun x : (pos * pos) * nat => v =? node g (fst (fst x)) (snd x)) (combine (pl_splitters P) (types net))).
  destruct (C49_no_layout_lost g (EBool true) T L C' a0 W) as (a & So & Sc & R & Ca & _ & Ex & Conn & Hid).
  - unfold edges_closed. cbn. rewrite CX, CY. split; discriminate.
  - unfold L, max_hidden. rewrite Gl. destruct ul; [lia|exact Logic.I].
  - exact VL.
  - intros p Hp. rewrite Gc, (Ci p Hp). apply Cols. eapply (coloured_in g net ic oc m Iic Ioc T P); apply HC'; exact Hp.
  - intros p q H. destruct (insideb A p) eqn:Ip.
    + apply insideb_iff in Ip. assert (Iq : inside A q) by (eapply carried_inside; eauto). rewrite (Ci p Ip), (Ci q Iq).
      eapply (coloured_one A HA T L nodes ic oc (Z.to_nat n) (Z.to_nat m) P wire HR q); [|apply HC'; exact Iq].
      eapply coloured_carried; [exact H|]. apply HC'. exact Ip.
    + inversion H as [x|x y z Hx Hy|x y z Hx Hy]; subst; [reflexivity| |]; destruct Hx as [Hx _]; apply insideb_iff in Hx; fold A in Hx; congruence.
  - assert (Hnode : forall p i, inside A p -> (i < List.length net)%nat ->
      (evl a (node g p i) = true <-> exists j s, nth_error (pl_splitters P) j = Some s /\ fst s = p /\ nth_error (types net) j = Some i)).
    { intros p i Hp Hi. pose proof (node_ok g W (List.length net) Hex p i Hp Hi) as Ok. pose proof (node_size g (List.length net) Hex) as Sz.
      assert (Pos : 0 < node g p i).
      { unfold node, extras_base. pose proof (tile_base_nonneg g p W Hp). lia. }
      unfold evl. replace (0 <? node g p i) with true by (symmetry; apply Z.ltb_lt; exact Pos).
      rewrite (Ex p (node g p i) Hp) by (unfold node, extras_base; lia). unfold a0. rewrite existsb_exists. split.
      - intros ([s i'] & Hin & Ev). cbn [fst snd] in Ev. apply Z.eqb_eq in Ev. apply In_nth_error in Hin. destruct Hin as [j Hj]. apply combine_nth_inv in Hj. cbn [fst snd] in Hj. destruct Hj as [Hj Ht'].
        assert (Hi' : (i' < List.length net)%nat) by (destruct (types_nth net j i' Ht') as (nd & k & _ & X); apply nth_error_Some; congruence).
        assert (Is : inside A (fst s)) by (apply (spl_at A T L nodes ic oc (Z.to_nat n) (Z.to_nat m) P wire HR j s Hj)).
        destruct (node_inj g net p (fst s) i i' W Hex Hp Is Hi Hi' Ev) as [-> ->]. exists j, s. auto.
      - intros (j & s & Hj & <- & Ht'). exists (s, i). split; [eapply nth_error_In; apply combine_nth_some; eauto|]. apply Z.eqb_refl. }
    assert (B : balancer_rules g net ic n oc m a).
    { apply (rules_met g W CX CY net Kn (t + 1) Gc Miss Ne ic n oc m ltac:(lia) ltac:(lia) Iic Ioc T VL P wire HR HL C HC' a So Sc R).
      - intros p Hp. rewrite (Ca p Hp). apply Ci. exact Hp.
      - exact Conn.
      - intros p c Hp Hc. destruct (Hid p c Hp Hc) as [->|(q & Hq & ->)]; [left; reflexivity|]. right. exists q. split; [exact Hq|]. apply Ci. exact Hq.
      - exact Hnode. }
    destruct (proj2 En a B) as (b & Ag & Sb). exists b. split.
    + exists cs, top. split; [exact Cr|]. split; [exact Sb|]. split.
      * rewrite <- (sat_agree (grid_size g) a b _ Ag (intersection_ok g W)). apply So.
      * destruct So as (_ & _ & _ & _ & lc & El & Sl). exists lc. split; [exact El|]. rewrite <- (sat_agree (grid_size g) a b _ Ag (length_ok g W _ El)). exact Sl.
    + split; [intros p Hp; rewrite <- (R p Hp); f_equal; symmetry; apply (parse_tile_agree (grid_size g) a b _ Ag); apply tile_at_lits; assumption|].
      split.
      * intros p d Hp. pose proof (tile_at_lits g p W Hp) as K.
        rewrite <- (evl_agree (grid_size g) a b _ Ag (tl_i _ _ K d)), <- (evl_agree (grid_size g) a b _ Ag (tl_o _ _ K d)). apply Conn. exact Hp.
      * intros p i Hp Hi. rewrite <- (evl_agree (grid_size g) a b _ Ag (node_ok g W (List.length net) Hex p i Hp Hi)). apply Hnode; assumption.
Qed.

(** ** C69 *)
(** Every valid layout that is the network, and has no line of belts besides
    those of the network, is read off a solution, one in which every two tiles
    that face each other are connected. *)
Theorem C69_no_realisation_lost E net w h ul g cs top T ic n oc m P wire : honest E -> nonneg_colours net ->
  (forall nd k, In (nd, k) net -> 0 <= k) ->
  match ul with Some l => 1 <= l | None => True end ->
  create_balancer E net w h ul = Some (g, cs, top) ->
  get_input_output_colours (elements net) = Some ((ic, n), (oc, m)) ->
  let A := rectangle w h in
  let L := longest w h ul in
  let nodes := elements net in
  valid_layout A T L ->
  realises_by A T L nodes ic (Z.to_nat n) oc (Z.to_nat m) P wire ->
  (forall s f, joined A T L s f -> exists k, sink_colour nodes oc (Z.to_nat m) k <> None /\ finish_of P k = Some f) ->
  exists a, solves_balancer E net w h ul g a /\ reads g a T /\ all_connected g a T.
Proof.
  intros HE Hnn Kn Hul Cr Ends A L nodes VL HR HL.
  destruct (realisation_solved E net w h ul g cs top T ic n oc m P wire HE Hnn Kn Hul Cr Ends VL HR HL) as (a & H1 & H2 & H3 & _). eauto.
Qed.

Lemma dedup_nonneg net : nonneg net -> nonneg_colours (deduplicate_network net).
Proof.
  intros Hn nd k x Hin Hx. destruct (C29_deduplicate net) as (_ & _ & H & _). destruct (H nd k Hin) as [(nd0 & H0 & [S1 S2]) _]. apply Hn. apply slots_in. exists nd0. split; [exact H0|].
  destruct nd0 as [[x1 x2] [x3 x4]]. destruct nd as [[y1 y2] [y3 y4]]. cbn in Hx. unfold same_belts in S1, S2. cbn [fst snd] in *.
  destruct S1 as [[= -> ->]|[= -> ->]], S2 as [[= -> ->]|[= -> ->]]; destruct Hx as [Hx|[Hx|[Hx|[Hx|[]]]]]; auto.
Qed.
Lemma dedup_complete net : complete net -> complete (elements (deduplicate_network net)).
Proof.
  intros Cm nd Hin. unfold elements in Hin. apply in_flat_map in Hin. destruct Hin as ([s k] & Hin & Hr). apply repeat_spec in Hr. cbn in Hr. subst nd.
  destruct (C29_deduplicate net) as (_ & _ & H & _). destruct (H s k Hin) as [(nd0 & H0 & [S1 S2]) _]. specialize (Cm nd0 H0).
  destruct nd0 as [[x1 x2] [x3 x4]]. destruct s as [[y1 y2] [y3 y4]]. unfold same_belts in S1, S2. cbn [fst snd] in *.
  destruct S1 as [[= -> ->]|[= -> ->]], S2 as [[= -> ->]|[= -> ->]]; tauto.
Qed.

(** For a network none of whose belts is missing: what can be read off
    solutions are exactly the valid layouts that are the network. *)
Theorem C69_solutions_are_the_realisations E net w h ul g cs top T ic n oc m : honest E -> nonneg net -> complete net ->
  match ul with Some l => 1 <= l | None => True end ->
  get_input_output_colours net = Some ((ic, n), (oc, m)) ->
  create_balancer E (deduplicate_network net) w h ul = Some (g, cs, top) ->
  let A := rectangle w h in
  let L := longest w h ul in
  (exists a, solves_balancer E (deduplicate_network net) w h ul g a /\ reads g a T) <->
  valid_layout A T L /\ realises A T L net ic (Z.to_nat n) oc (Z.to_nat m).
Proof.
  intros HE Hn Cm Hul Ends Cr A L. pose proof (dedup_nonneg net Hn) as Hn'. pose proof (dedup_complete net Cm) as Cm'.
  assert (Hul0 : match ul with Some l => 0 <= l | None => True end) by (destruct ul; [lia|exact Logic.I]).
  assert (Ends' : get_input_output_colours (elements (deduplicate_network net)) = Some ((ic, n), (oc, m))) by (rewrite deduplicate_ends; exact Ends).
  assert (Wa : wf_area A) by (unfold create_balancer in Cr; destruct (Z.ltb_spec 0 w), (Z.ltb_spec 0 h); try discriminate; split; assumption).
  split.
  - intros (a & So & R). assert (EL : max_hidden g = L).
    { destruct (create_balancer_spec E _ w h ul g cs top HE Hn' Hul0 Cr) as (? & ? & ? & ? & _ & _ & (t & _ & -> & _) & _). reflexivity. }
    destruct (C52_solutions_realise E _ w h ul g a T HE Hn' Hul0 So R) as (VL & ic' & n' & oc' & m' & Ee & P & wire & HR & _).
    rewrite Ends' in Ee. injection Ee as <- <- <- <-. rewrite EL in VL, HR. split; [exact VL|].
    eapply realises_similar; [apply similar_sym, deduplicate_similar|]. exists P, wire. exact HR.
  - intros [VL HR]. apply (realises_similar A T L net _ ic _ oc _ (deduplicate_similar net)) in HR. destruct HR as (P & wire & HR).
    destruct (C69_no_realisation_lost E _ w h ul g cs top T ic n oc m P wire HE Hn') as (a & X1 & X2 & _); eauto.
    + intros nd k Hin. destruct (C29_deduplicate net) as (_ & _ & H & _). destruct (H nd k Hin) as [_ (cp & ot & _ & <- & _)]. lia.
    + eapply complete_lines; eauto.
Qed.
(** So when the solver finds no solution, there is no such layout. *)
Corollary C69_no_solution_no_balancer E net w h ul g cs top ic n oc m : honest E -> nonneg net -> complete net ->
  match ul with Some l => 1 <= l | None => True end ->
  get_input_output_colours net = Some ((ic, n), (oc, m)) ->
  create_balancer E (deduplicate_network net) w h ul = Some (g, cs, top) ->
  (forall a, ~ solves_balancer E (deduplicate_network net) w h ul g a) ->
  forall T, valid_layout (rectangle w h) T (longest w h ul) -> ~ realises (rectangle w h) T (longest w h ul) net ic (Z.to_nat n) oc (Z.to_nat m).
Proof.
  intros HE Hn Cm Hul Ends Cr No T VL HR. destruct (proj2 (C69_solutions_are_the_realisations E net w h ul g cs top T ic n oc m HE Hn Cm Hul Ends Cr)) as (a & So & _); auto.
  eapply No; exact So.
Qed.

(** ** Examples *)
(** The layout of one splitter, in the upper two rows of a 3 x 3 grid, is the
    network of one splitter: seen directly. *)
Definition row_placement : placement := {| pl_splitters := [((1, 1), (1, 0))]; pl_in := fun _ => false; pl_out := fun _ => false;
  pl_inputs := [(0, 0); (0, 1)]; pl_outputs := [(2, 0); (2, 1)] |}.
Definition row_wire (k : sink) : source := match k with ToOutput 0 => FromSplitter 0 true | ToOutput _ => FromSplitter 0 false
  | ToSplitter _ b => if b then FromInput 0 else FromInput 1 end.
Lemma row_line s f q r : begins demo_area (row_balancer 0) s q -> reaches demo_area (row_balancer 0) f r ->
  q = r \/ hands_on demo_area (row_balancer 0) q r -> joined demo_area (row_balancer 0) 4 s f.
Proof. intros B F [<-|H]; [exists q, q|exists q, r]; (split; [exact B|]); (split; [|exact F]); [constructor|]. eapply carried_belt; [exact H|constructor]. Qed.
Ltac in_demo := split; cbn; lia.
Example C69_row : realises demo_area (row_balancer 0) 4 demo_net 0 2 1 2.
Proof.
  exists row_placement, row_wire.
  assert (En : forall y, y = 0 \/ y = 1 -> begins demo_area (row_balancer 0) (Enter (0, y)) (0, y)).
  { intros y [-> | ->]; (split; [reflexivity|]; split; [in_demo|]; exists RIGHT; split; reflexivity). }
  assert (Lv : forall y, y = 0 \/ y = 1 -> reaches demo_area (row_balancer 0) (Leave (2, y)) (2, y)).
  { intros y [-> | ->]; (split; [reflexivity|]; split; [in_demo|]; split; [intros []|]; exists RIGHT; split; reflexivity). }
  split; [reflexivity|]. split; [repeat constructor; intros []|]. split.
  { intros s [<-|[]]. split; [in_demo|]. split; [in_demo|]. exists RIGHT. repeat split; reflexivity. }
  split. { intros p d Hp E. cells Hp; vm_compute in E; try discriminate. left. reflexivity. }
  split; [reflexivity|]. split; [repeat constructor; cbn; intuition discriminate|]. split.
  { intros p [<-|[<-|[]]]; apply En; auto. }
  split. { intros p (_ & Hp & d & Tk & Nb). left. cells Hp; vm_compute in Tk; try contradiction; subst d; vm_compute in Nb; try discriminate; cbn; auto. }
  split; [reflexivity|]. split; [repeat constructor; cbn; intuition discriminate|]. split.
  { intros p. split; [intros [<-|[<-|[]]]; apply Lv; auto|]. intros (_ & Hp & Ns & d & Ps & Nb).
    cells Hp; vm_compute in Ns, Ps; try contradiction; try (exfalso; apply Ns; exact Logic.I); subst d; vm_compute in Nb; try discriminate; cbn; auto. }
  split.
  { split; [|split].
    - intros [[|[|j]]|[|i] []] c E; cbn in E; try (destruct i; discriminate E); try discriminate E; injection E as <-; reflexivity.
    - intros [[|[|j]]|[|i] []] [[|[|j']]|[|i'] []]; cbn; try (destruct i); try (destruct i'); cbn; intros; try congruence; try discriminate.
    - intros [[|[|j]]|[|i] []]; cbn; try (destruct i); cbn; intros N; try contradiction.
      + exists (ToSplitter 0 true). split; [discriminate|reflexivity].
      + exists (ToSplitter 0 false). split; [discriminate|reflexivity].
      + exists (ToOutput 0). split; [discriminate|reflexivity].
      + exists (ToOutput 1). split; [discriminate|reflexivity]. }
  intros [[|[|j]]|[|i] b]; cbn; intros N; try contradiction; try (destruct i; contradiction).
  - exists (Exit (1, 0)), (Leave (2, 0)). split; [reflexivity|]. split; [reflexivity|]. apply (row_line _ _ (2, 0) (2, 0)); [|apply (Lv 0); auto|left; reflexivity]. split; [in_demo|]. exists RIGHT, false. repeat split; reflexivity.
  - exists (Exit (1, 1)), (Leave (2, 1)). split; [reflexivity|]. split; [reflexivity|]. apply (row_line _ _ (2, 1) (2, 1)); [|apply (Lv 1); auto|left; reflexivity]. split; [in_demo|]. exists RIGHT, true. repeat split; reflexivity.
  - destruct b.
    + exists (Enter (0, 0)), (Entrance (1, 0)). split; [reflexivity|]. split; [reflexivity|]. apply (row_line _ _ (0, 0) (1, 0)); [apply (En 0); auto| |right].
      * split; [reflexivity|]. split; [in_demo|exact Logic.I].
      * split; [in_demo|]. split; [intros []|]. exists RIGHT. split; reflexivity.
    + exists (Enter (0, 1)), (Entrance (1, 1)). split; [reflexivity|]. split; [reflexivity|]. apply (row_line _ _ (0, 1) (1, 1)); [apply (En 1); auto| |right].
      * split; [reflexivity|]. split; [in_demo|exact Logic.I].
      * split; [in_demo|]. split; [intros []|]. exists RIGHT. split; reflexivity.
Qed.
Example C69_row_valid : valid_layout demo_area (row_balancer 0) 4.
Proof. apply (C52_solutions_realise naive_encoder (deduplicate_network demo_net) 3 3 (Some 4) demo_bgrid (row_solution 0) (row_balancer 0) naive_honest); [|cbn; lia|apply row_solves; auto|apply row_reads; auto].
  apply dedup_nonneg. intros c [H|[H|[H|[H|[]]]]]; injection H as <-; lia. Qed.
(** The theorem then gives a solution with that layout. *)
Example C69_row_found : exists g a, solves_balancer naive_encoder (deduplicate_network demo_net) 3 3 (Some 4) g a /\ reads g a (row_balancer 0).
Proof.
  assert (X : exists g cs top, create_balancer naive_encoder (deduplicate_network demo_net) 3 3 (Some 4) = Some (g, cs, top)).
  { destruct (row_solves 0 (or_introl eq_refl)) as (cs & top & E & _). eauto. }
  destruct X as (g & cs & top & E). exists g.
  apply (C69_solutions_are_the_realisations naive_encoder demo_net 3 3 (Some 4) g cs top (row_balancer 0) 0 2 1 2 naive_honest); auto; try reflexivity.
  - intros c [H|[H|[H|[H|[]]]]]; injection H as <-; lia.
  - intros nd [<-|[]]; cbn; repeat split; discriminate.
  - lia.
  - split; [exact C69_row_valid|exact C69_row].
Qed.
Print Assumptions C69_no_realisation_lost.
Print Assumptions C69_solutions_are_the_realisations.
Print Assumptions C69_no_solution_no_balancer.
