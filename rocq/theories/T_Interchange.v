(** Property theorems C82 to C85: the interchanges of interchange.py. *)
From Coq Require Import String ZArith List Bool Lia.
From Verif Require T_Mirror.
From Verif Require Import Spec_Cnf Spec_Tile Spec_Layout Spec_Pattern M_Network Spec_Network Spec_Balancer Spec_Flow Spec_Interchange
  M_Json M_Tile M_Util M_Card M_Template M_Grid M_Oracle M_Balancer M_Optimise M_Interchange M_Solve
  P_Cnf P_Util P_Card P_Tile P_Layout P_List P_Template P_Walk P_Grid P_GridSound P_GridComplete P_Transport T_Grid P_GridOk P_Gen P_Balancer P_Pow2 P_Pow2Total P_Alloc P_Edge2 P_Flux P_Cut P_Cut2 P_Solve T_Template T_Enumerate.
From Verif Require P_Pattern P_Interchange T_Pattern P_InterMain T_NetDemo P_Once.
Import P_InterMain.
Import ListNotations.
Open Scope Z_scope.

(** ** C82 *)
(** Every solution is read as an interchange: items enter at each cell of the
    first column and leave at each cell of the last one, each pair of outputs
    gets one line from either half of the inputs, the colours of the solution
    tell the halves apart, and the layout has none of the excluded patterns. *)
Theorem C82_solutions_are_interchanges E w h ul alternating rot g cs top a : 0 <= ul ->
  interchange_clauses E w h ul alternating rot = Some (g, cs, top) -> sat a cs = true ->
  (exists T, reads g a T) /\ forall T, reads g a T ->
    interchange w h ul alternating T /\
    two_colours w h ul T (fun p => value a (colour (tile_at g p))) /\ tidy w h ul rot T (fun p => value a (colour (tile_at g p))).
Proof.
  intros Hu Ec S. destruct (clauses_split _ _ _ _ _ _ _ _ _ Ec) as ((Hw & Hh & Ev) & -> & rest & tc & _ & -> & Sr).
  apply sat_app_iff in S. destruct S as [S _]. apply Sr in S. apply (wishes_solved w h ul alternating rot Hw Hh Ev Hu) in S. destruct S as (Sv & Sc & En & Lw).
  split; [destruct (C44_decodes (interchange_grid w h ul) a (ic_wf w h ul Hw Hh Hu)) as (_ & D); destruct (D (proj1 Sv)) as (T & R & _); exists T; exact R|]. intros T R.
  destruct (ends_interchange w h ul alternating Hw Hh Ev Hu a T Sv Sc R En) as [Ic Tc]. split; [exact Ic|]. split; [exact Tc|].
  apply (layout_wishes_exact w h ul rot Hw Hh Hu a T Sv R (en_plain _ _ _ _ _ En)). exact Lw.
Qed.
(** The program stops with an error on a grid without columns, without rows or
    with an odd number of rows ... *)
Theorem C82_raises E w h ul alternating rot : w < 1 \/ h < 1 \/ h mod 2 = 1 -> interchange_clauses E w h ul alternating rot = None.
Proof.
  intros H. unfold interchange_clauses. destruct (Z.ltb_spec h 1); [reflexivity|]. destruct (Z.eqb_spec (h mod 2) 1); [reflexivity|]. destruct (Z.ltb_spec w 1); [reflexivity|]. lia.
Qed.
(** ... and builds its clauses on all others that are not far too narrow. *)
Theorem C82_builds E w h ul alternating rot : answers E -> answers_atleast E -> 1 <= ul -> 1 <= w -> 1 <= h -> h mod 2 = 0 -> h / 4 <= 2 * w ->
  exists cs top, interchange_clauses E w h ul alternating rot = Some (interchange_grid w h ul, cs, top).
Proof.
  intros An AnL Hu Hw Hh Ev Hn. assert (Hu0 : 0 <= ul) by lia. set (g := interchange_grid w h ul). pose proof (ic_wf w h ul Hw Hh Hu0) as W. fold g in W.
  assert (VL : valid_layout (garea g) (fun _ => Empty) ul).
  { split; [intros p _; exact Logic.I|]. split; [intros p d hd _ X; discriminate X|]. split; [intros p d q _ []|]. split; [intros p d q _ []|].
    split; [intros p d hd q i o _ X; discriminate X|]. split; [intros p d hd _ X; discriminate X|]. split; intros p d _ X; discriminate X. }
  destruct (C49_no_layout_lost g (EBool true) (fun _ => Empty) ul (fun _ => 0) (fun _ => false) W) as (a & Sv & Sc & R & _ & _ & _ & _); [cbn; split; discriminate|cbn; lia|exact VL|intros; cbn; lia|reflexivity|].
  assert (Pl : forall p, inside (rectangle w h) p -> vs (view_of a (tile_at g p)) = false) by (apply (plain_tiles w h ul Hw Hh Hu0 a _ Sv R); intros p _ []).
  assert (Q : forall o, In o (wishes g alternating rot) -> exists c, o = Some c).
  { assert (G : grid_rules g a) by exact (T_Pattern.sol_rules g (EBool true) a W Sv).
    pose proof (T_Pattern.sol_under g (EBool true) a W Sv) as Ur. pose proof (sol_edge w h ul Hw Hh Hu0 a Sv) as ER. fold g in ER.
    pose proof (ic_half h Hh Ev) as [He Hhalf].
    destruct (hues_set w h ul Hw Hh Hu0 a 0 0 (h / 2) 0 ltac:(lia) ltac:(lia) ltac:(lia) ltac:(lia) (range (h / 2)) (range_in (h / 2))) as (c1 & E1 & _).
    destruct (hues_set w h ul Hw Hh Hu0 a 0 (h / 2) h 1 ltac:(lia) ltac:(lia) ltac:(lia) ltac:(lia) (range_from (h / 2) h) (P_Pattern.range_from_in (h / 2) h)) as (c2 & E2 & _).
    destruct (output_set w h ul alternating Hw Hh Ev Hu0 a) as (c3 & E3 & _).
    destruct Sc as (c4 & E4 & _). pose proof Sv as (_ & _ & _ & _ & (c5 & E5 & _)).
    destruct (P_Interchange.passing_exact g W a _ R G Pl eq_refl) as (c6 & E6 & _).
    destruct (P_Interchange.symmetry_exact g W eq_refl eq_refl a _ R G Ur ER Pl eq_refl) as (c7 & E7 & _).
    destruct (expand_wish w h ul Hw Hh Hu0 a _ Sv R) as (c8 & E8 & _). fold g in E1, E2, E3, E8.
    unfold wishes. change (height (geo g)) with h. rewrite E1, E2, E3, E4, E5, E6, E7, E8. rewrite <- Forall_forall. destruct rot; cbn [app]; repeat (apply Forall_cons; [eauto|]); apply Forall_nil. }
  assert (Ht : always (require_correct_transport_through_edges E g)).
  { apply (transport_always E g eq_refl); [change (height (geo g)) with h; pose proof (ic_half h Hh Ev); lia|exact An|exact AnL|].
    intros k Hk. change (height (geo g)) with h in *. change (width (geo g)) with w. pose proof (Z.div_mod h 2 ltac:(lia)). pose proof (Z.div_mod h 4 ltac:(lia)). pose proof (Z.mod_pos_bound h 4 ltac:(lia)). lia. }
  destruct (Ht (grid_top g)) as (tc & top & Et). destruct (clauses_some E w h ul alternating rot tc top Hw Hh Ev Hu0 Q Et) as (cs & Ecs). eauto.
Qed.

(** ** C83 *)
Lemma two_colours_ext w h ul T C D : 1 <= w -> (forall p, inside (rectangle w h) p -> D p = C p) -> two_colours w h ul T C -> two_colours w h ul T D.
Proof.
  intros Hw H (C1 & C2 & C3). split; [intros p Hp; rewrite H by exact Hp; apply C1; exact Hp|]. split.
  - intros p q Cq. destruct (insideb (rectangle w h) p) eqn:Ei.
    + apply insideb_iff in Ei. assert (Hq : inside (rectangle w h) q).
      { clear C1 C2 C3. induction Cq as [p|p q r (_ & _ & d & _ & En) _ IH|p q r (_ & d & _ & _ & k & _ & En & _) _ IH]; [exact Ei| |]; apply IH; eapply ahead_inside; exact En. }
      rewrite !H by assumption. apply C2. exact Cq.
    + assert (~ inside (rectangle w h) p) by (intros X; apply insideb_iff in X; congruence). inversion Cq; subst; [reflexivity| |]; exfalso.
      * match goal with H : hands_on _ _ _ _ |- _ => destruct H; tauto end.
      * match goal with H : sends_under _ _ _ _ _ |- _ => destruct H; tauto end.
  - intros y Hy. rewrite H by (split; cbn; lia). apply C3. exact Hy.
Qed.
Lemma tidy_ext w h ul rot T C D : (forall p, inside (rectangle w h) p -> D p = C p) -> tidy w h ul rot T C -> tidy w h ul rot T D.
Proof.
  intros H [K1 K2 K3 K4 K5 K6 K7 K8 K9]. constructor; try assumption. intros p d Hp (q & r & s & E1 & E2 & E3 & B1 & B2 & B3 & B4 & X1 & X2 & X3). apply (K8 p d Hp). exists q, r, s.
  rewrite !H in X1, X2, X3; try assumption; try (eapply ahead_inside; eassumption); try (eapply P_Pattern.spot_inside; eassumption). tauto.
Qed.

Section Extend.
  Variables (E : card_encoder) (w h ul : Z) (alternating rot : bool).
  Hypothesis HE : honest E.
  Hypothesis Hw : 1 <= w.
  Hypothesis Hh : 1 <= h.
  Hypothesis Ev : h mod 2 = 0.
  Hypothesis Hu : 0 <= ul.
  Notation g := (interchange_grid w h ul).
  Let W := ic_wf w h ul Hw Hh Hu.
  Variables (a : assignment) (T : layout).
  Hypothesis Sv : solves g (EBool true) a.
  Hypothesis Sc : solves_colouring g a.
  Hypothesis R : reads g a T.
  Hypothesis En : ends w h ul alternating a.
  Hypothesis Td : tidy w h ul rot T (hue g a).
  Lemma out_either : forall k, 0 <= k < h / 2 -> (hue g a (w - 1, 2 * k) = 0 /\ hue g a (w - 1, 2 * k + 1) = 1) \/ (hue g a (w - 1, 2 * k) = 1 /\ hue g a (w - 1, 2 * k + 1) = 0).
  Proof. intros k Hk. destruct (en_out _ _ _ _ _ En k Hk); tauto. Qed.
  Lemma sol_holds : transport_holds g a.
  Proof. destruct En as [H1 H2 H3 H4 H5 H6]. exact (holds g W eq_refl eq_refl eq_refl a T R Sv Sc H1 H2 H3 H4 Ev H5 out_either). Qed.
  Lemma sol_room : wide_enough g.
  Proof. destruct En as [H1 H2 H3 H4 H5 H6]. exact (room g W eq_refl eq_refl eq_refl a T R Sv Sc H1 H2 H3 H4 Ev H5 out_either). Qed.
  Lemma extend tc top : require_correct_transport_through_edges E g (grid_top g) = Some (tc, top) ->
    exists b, agree (grid_top g) a b /\ sat b tc = true /\ reads g b T /\ solves_init g b /\ forall o, In o (wishes g alternating rot) -> granted b o.
  Proof.
    intros Et. assert (Hh2 : 1 <= height (geo g) / 2) by (change (height (geo g)) with h; pose proof (ic_half h Hh Ev); lia).
    destruct (transport_gen E HE g W eq_refl Hh2) as [_ K]. destruct (K (grid_top g) tc top ltac:(apply Z.le_refl) Et) as (_ & _ & (_ & Enc)).
    destruct (Enc a sol_holds) as (b & Ag & Sb). exists b. split; [exact Ag|]. split; [exact Sb|].
    assert (Hn : grid_size g <= grid_top g) by apply Z.le_refl.
    pose proof (T_Mirror.solves_agree g (EBool true) _ a b W Hn Ag Sv) as Svb. pose proof (T_Mirror.colouring_agree g _ a b W Hn Ag Sc) as Scb. pose proof (T_Mirror.reads_agree g _ a b T W Hn Ag R) as Rb.
    split; [exact Rb|]. assert (Hb : forall p, inside (rectangle w h) p -> hue g b p = hue g a p).
    { intros p Hp. unfold hue. symmetry. apply value_agree with (grid_top g); [exact Ag|]. apply (lits g W p Hp). }
    destruct (ends_interchange w h ul alternating Hw Hh Ev Hu a T Sv Sc R En) as [Ic Tc].
    assert (Enb : ends w h ul alternating b) by (apply (interchange_ends w h ul alternating Hw Hh Ev Hu b T Svb Scb Rb Ic); apply (two_colours_ext w h ul T (hue g a)); assumption).
    apply (wishes_exist w h ul alternating rot Hw Hh Ev Hu b T Svb Scb Rb Enb). apply (tidy_ext w h ul rot T (hue g a)); assumption.
  Qed.
End Extend.

(** Conversely no interchange without these patterns is lost: the layouts found
    are exactly those that can be coloured. *)
Theorem C83_interchanges_found E w h ul alternating rot T : honest E -> answers E -> answers_atleast E -> 1 <= ul ->
  ((exists g cs top a, interchange_clauses E w h ul alternating rot = Some (g, cs, top) /\ sat a cs = true /\ reads g a T) <->
   1 <= w /\ 1 <= h /\ h mod 2 = 0 /\ interchange w h ul alternating T /\ exists C, two_colours w h ul T C /\ tidy w h ul rot T C).
Proof.
  intros HE An AnL Hul. assert (Hu : 0 <= ul) by lia. split.
  - intros (g & cs & top & a & Ec & S & R). destruct (C82_solutions_are_interchanges E w h ul alternating rot g cs top a Hu Ec S) as [_ K]. destruct (K T R) as (Ic & Tc & Td).
    destruct (clauses_split _ _ _ _ _ _ _ _ _ Ec) as ((Hw & Hh & Ev) & _). repeat (split; [assumption|]). eauto.
  - intros (Hw & Hh & Ev & Ic & C & Tc & Td). set (g := interchange_grid w h ul). pose proof (ic_wf w h ul Hw Hh Hu) as W. fold g in W.
    destruct (C49_no_layout_lost g (EBool true) T ul C (fun _ => false) W) as (a & Sv & Sc & R & Hc & _ & _ & _).
    + cbn. split; discriminate.
    + cbn. lia.
    + exact (ic_valid _ _ _ _ _ Ic).
    + intros p Hp. destruct Tc as (C1 & _). specialize (C1 p Hp). cbn. lia.
    + apply Tc.
    + assert (Tca : two_colours w h ul T (hue g a)) by (apply (two_colours_ext w h ul T C); assumption).
      assert (Tda : tidy w h ul rot T (hue g a)) by (apply (tidy_ext w h ul rot T C); assumption).
      pose proof (interchange_ends w h ul alternating Hw Hh Ev Hu a T Sv Sc R Ic Tca) as En.
      assert (Hh2 : 1 <= height (geo g) / 2) by (change (height (geo g)) with h; pose proof (ic_half h Hh Ev); lia).
      destruct (transport_always E g eq_refl Hh2 An AnL (sol_room w h ul alternating Hw Hh Ev Hu a T Sv Sc R En) (grid_top g)) as (tc & top & Et).
      destruct (extend E w h ul alternating rot HE Hw Hh Ev Hu a T Sv Sc R En Tda tc top Et) as (b & Ag & Sb & Rb & Wb).
      destruct (clauses_some E w h ul alternating rot tc top Hw Hh Ev Hu) as (cs & Ecs); [intros o Ho; destruct (proj2 Wb o Ho) as (c & Eo & _); eauto|exact Et|].
      exists g, cs, top, b. split; [exact Ecs|]. split; [|exact Rb].
      destruct (clauses_split _ _ _ _ _ _ _ _ _ Ecs) as (_ & _ & rest & tc' & Et' & -> & Sr). apply sat_app_iff. split; [apply Sr; exact Wb|].
      assert (Some (tc', top) = Some (tc, top)) as Q by (rewrite <- Et'; exact Et). assert (tc' = tc) by congruence. subst tc'. exact Sb.
Qed.

(** ** C84 *)
(** The clauses on the flow through the cuts between rows and columns only help
    the solver: they are the last clauses, and every assignment that satisfies
    the ones before them satisfies them too, once their own variables are
    chosen. *)
Theorem C84_cuts_implied E w h ul alternating rot g cs top : honest E -> 0 <= ul ->
  interchange_clauses E w h ul alternating rot = Some (g, cs, top) ->
  exists rest cuts, cs = (rest ++ cuts)%list /\ require_correct_transport_through_edges E g (grid_top g) = Some (cuts, top) /\
    forall a, sat a rest = true -> exists b, agree (grid_top g) a b /\ sat b cs = true.
Proof.
  intros HE Hu Ec. destruct (clauses_split _ _ _ _ _ _ _ _ _ Ec) as ((Hw & Hh & Ev) & -> & rest & tc & Et & -> & Sr). exists rest, tc. split; [reflexivity|]. split; [exact Et|].
  intros a S. apply Sr in S. apply (wishes_solved w h ul alternating rot Hw Hh Ev Hu) in S. destruct S as (Sv & Sc & En & Lw).
  destruct (C44_decodes (interchange_grid w h ul) a (ic_wf w h ul Hw Hh Hu)) as (_ & D). destruct (D (proj1 Sv)) as (T & R & _).
  pose proof (proj1 (layout_wishes_exact w h ul rot Hw Hh Hu a T Sv R (en_plain _ _ _ _ _ En)) Lw) as Td.
  destruct (extend E w h ul alternating rot HE Hw Hh Ev Hu a T Sv Sc R En Td tc top Et) as (b & Ag & Sb & _ & Wb). exists b. split; [exact Ag|]. apply sat_app_iff. split; [apply Sr; exact Wb|exact Sb].
Qed.
(** The counts asked for: with [n] pairs of outputs, at least [min (k + 1) (n - 1 - k)]
    between the pairs [k] and [k + 1]. *)
Theorem C84_flow_counts n : 1 <= n -> flow_counts n = map (fun k => Z.min (k + 1) (n - 1 - k)) (range (n - 1)).
Proof. apply flow_counts_formula. Qed.

(** What the clauses on the cuts ask for.  [across] counts the lines of a wanted
    colour that an assignment lets step between the given pairs of cells in
    direction [d], on a belt or in a tunnel. *)
Section Across.
  Variables (g : grid) (a : assignment) (d : dir).
  Definition hidden_colour (p : pos) : Z := value a (if is_horizontal d then colour_ux (tile_at g p) else colour_uy (tile_at g p)).
  Definition on_belt (want : Z -> bool) (p q : pos) : bool := evl a (output_dir (tile_at g p) d) && want (value a (colour (tile_at g q))).
  Definition in_tunnel (want : Z -> bool) (p q : pos) : bool :=
    if evl a (underground (tile_at g p) d) then want (hidden_colour p) else evl a (underground (tile_at g q) d) && want (hidden_colour q).
  Definition across (want : Z -> bool) (steps : list (pos * pos)) : Z :=
    count_true (flat_map (fun s => [on_belt want (fst s) (snd s); in_tunnel want (fst s) (snd s)]) steps).
  (** A tunnel has the same colour on both sides. *)
  Definition one_colour (steps : list (pos * pos)) : Prop := forall p q, In (p, q) steps ->
    evl a (underground (tile_at g p) d) = true -> evl a (underground (tile_at g q) d) = true -> hidden_colour p = hidden_colour q.
End Across.
Definition going_up (w y : Z) : list (pos * pos) := map (fun x => ((x, y + 1), (x, y))) (range w).
Definition going_down (w y : Z) : list (pos * pos) := map (fun x => ((x, y), (x, y + 1))) (range w).
Definition going_right (h x : Z) : list (pos * pos) := map (fun y => ((x, y), (x + 1, y))) (range h).
Definition going_left (h x : Z) : list (pos * pos) := map (fun y => ((x + 1, y), (x, y))) (range h).
(** Between the rows of two pairs: enough lines of the lower half go up, and as
    many of the upper half go down, when those going the other way are
    subtracted; between two columns all lines go right. *)
Definition cut_rules (g : grid) (w h : Z) (a : assignment) : Prop :=
  (forall k, 0 <= k < h / 2 - 1 -> let y := 2 * k + 1 in let m := Z.min (k + 1) (h / 2 - 1 - k) in
     one_colour g a UP (going_up w y) /\ one_colour g a DOWN (going_down w y) /\
     m <= across g a UP (Z.eqb 1) (going_up w y) - across g a DOWN (Z.eqb 1) (going_down w y) /\
     across g a DOWN (Z.eqb 0) (going_down w y) - across g a UP (Z.eqb 0) (going_up w y) = m) /\
  (forall x, 0 <= x < w - 1 ->
     one_colour g a RIGHT (going_right h x) /\ one_colour g a LEFT (going_left h x) /\
     across g a RIGHT (fun _ => true) (going_right h x) - across g a LEFT (fun _ => true) (going_left h x) = h).

Lemma flow_across g a d c line : flow g a d c line = across g a d (Z.eqb c) (map (fun p => (p, beyond p d)) line).
Proof.
  unfold flow, across. f_equal. induction line as [|p line IH]; [reflexivity|]. cbn [flat_map map app crossings]. f_equal; [|f_equal; [|exact IH]]; unfold crossed, on_belt, in_tunnel; cbn [fst snd view_of vo vu]; rewrite ?(Z.eqb_sym c); [reflexivity|].
  unfold hidden_colour, hidden_hue. destruct (evl a (underground (tile_at g p) d)); reflexivity.
Qed.
Lemma total_across g a d line : total_flow g a d line = across g a d (fun _ => true) (map (fun p => (p, beyond p d)) line).
Proof.
  unfold total_flow, across. f_equal. induction line as [|p line IH]; [reflexivity|]. cbn [flat_map map app crossings]. f_equal; [|f_equal; [|exact IH]]; unfold on_belt, in_tunnel; cbn [fst snd view_of vo vu]; [rewrite andb_true_r; reflexivity|].
  destruct (evl a (underground (tile_at g p) d)); [reflexivity|]. rewrite andb_true_r. reflexivity.
Qed.
Lemma one_colour_coherent g a d line : one_colour g a d (map (fun p => (p, beyond p d)) line) <-> forall p, In p line -> coherent g a d p.
Proof.
  unfold one_colour, coherent. split.
  - intros H p Hp. apply (H p (beyond p d)). apply in_map_iff. exists p. split; [reflexivity|exact Hp].
  - intros H p q Hpq. apply in_map_iff in Hpq. destruct Hpq as (p0 & Eq & Hp). injection Eq as <- <-. apply (H p0 Hp).
Qed.
Lemma step_lists g y x : map (fun p => (p, beyond p UP)) (edge_line g UP (y + 1)) = going_up (width (geo g)) y /\ map (fun p => (p, beyond p DOWN)) (edge_line g DOWN y) = going_down (width (geo g)) y /\
  map (fun p => (p, beyond p RIGHT)) (edge_line g RIGHT x) = going_right (height (geo g)) x /\ map (fun p => (p, beyond p LEFT)) (edge_line g LEFT (x + 1)) = going_left (height (geo g)) x.
Proof.
  unfold edge_line, going_up, going_down, going_right, going_left. change (is_horizontal UP) with false. change (is_horizontal DOWN) with false. change (is_horizontal RIGHT) with true. change (is_horizontal LEFT) with true. cbv iota. rewrite !map_map.
  assert (D : forall d : dir, forall p, beyond p d = (fst p + step_x d, snd p + step_y d)) by (intros d p; unfold beyond; rewrite P_Cut.dx_step, P_Cut.dy_step; reflexivity).
  repeat split; apply map_ext; intros z; rewrite D; cbn [fst snd step_x step_y]; f_equal; f_equal; lia.
Qed.
Theorem C84_cuts_meaning E w h ul cuts top : honest E -> 1 <= w -> 1 <= h -> h mod 2 = 0 -> 0 <= ul ->
  require_correct_transport_through_edges E (interchange_grid w h ul) (grid_top (interchange_grid w h ul)) = Some (cuts, top) ->
  encodes (grid_top (interchange_grid w h ul)) cuts (cut_rules (interchange_grid w h ul) w h).
Proof.
  intros HE Hw Hh Ev Hu Et. set (g := interchange_grid w h ul) in *. pose proof (ic_wf w h ul Hw Hh Hu) as W. fold g in W.
  assert (Hh2 : 1 <= height (geo g) / 2) by (change (height (geo g)) with h; pose proof (ic_half h Hh Ev); lia).
  destruct (transport_gen E HE g W eq_refl Hh2) as [_ K]. destruct (K (grid_top g) cuts top ltac:(apply Z.le_refl) Et) as (_ & _ & (S1 & S2)).
  assert (X : forall a, transport_holds g a <-> cut_rules g w h a).
  { intros a. unfold transport_holds, cut_rules, row_holds, column_holds. change (height (geo g)) with h. change (width (geo g)) with w.
    assert (Q : forall k, 1 + 2 * k = 2 * k + 1) by (intros; lia).
    split; intros [H1 H2]; (split; [intros k Hk; specialize (H1 k Hk); rewrite ?Q in *; destruct (step_lists g (2 * k + 1) 0) as (L1 & L2 & _)|intros x Hx; specialize (H2 x Hx); destruct (step_lists g 0 x) as (_ & _ & L1 & L2)]);
      change (width (geo g)) with w in *; change (height (geo g)) with h in *; cbv zeta in *; [rewrite <- L1, <- L2|rewrite <- L1, <- L2|rewrite <- L1, <- L2 in H1|rewrite <- L1, <- L2 in H2]; rewrite ?one_colour_coherent, <- ?flow_across, <- ?total_across in *; assumption. }
  split; [intros a S; apply X, S1, S|intros a P; apply S2, X, P].
Qed.

(** ** C85 *)
(** interchange.py --all with a truthful solver prints every interchange without
    the excluded patterns exactly once, and nothing else. *)
Theorem C85_every_interchange_once E w h ul alternating rot g cs top vs dom solver : honest E -> answers E -> answers_atleast E -> 1 <= ul ->
  interchange_clauses E w h ul alternating rot = Some (g, cs, top) -> important_variables g [] true = Some vs ->
  correct_solver dom solver -> in_dom dom cs -> (forall v, In v vs -> In v dom) ->
  let found T := interchange w h ul alternating T /\ exists C, two_colours w h ul T C /\ tidy w h ul rot T C in
  exists ms, (exists fuel, itersolve solver vs fuel cs = Some ms) /\
    (forall m, In m ms -> exists T, reads g (model_assignment m) T /\ found T) /\
    (forall T, found T -> exists i m, nth_error ms i = Some m /\ reads g (model_assignment m) T /\
       forall j m', nth_error ms j = Some m' -> reads g (model_assignment m') T -> j = i).
Proof.
  intros HE An AnL Hul Ec EI CS D VD found. assert (Hu : 0 <= ul) by lia. destruct (clauses_split _ _ _ _ _ _ _ _ _ Ec) as ((Hw & Hh & Ev) & Eg & rest & tc & _ & Ecs & Sr).
  apply (fun H1 H2 H3 H4 => P_Once.every_layout_once g cs found H1 H2 H3 H4 vs dom solver EI CS D VD).
  - rewrite Eg. apply ic_wf; assumption.
  - intros a Sa. rewrite Eg. rewrite Ecs in Sa. apply sat_app_iff in Sa. exact (proj1 (proj1 (Sr a) (proj1 Sa))).
  - intros T. pose proof (C83_interchanges_found E w h ul alternating rot T HE An AnL Hul) as X. split.
    + intros (a & Sa & R). destruct (proj1 X) as (_ & _ & _ & Q1 & Q2); [eauto 8|]. split; assumption.
    + intros [Q1 Q2]. destruct (proj2 X) as (g' & cs' & top' & a & Ec' & Sa & R); [tauto|]. rewrite Ec in Ec'. apply Some_inj in Ec'. assert (g = g') by congruence. assert (cs = cs') by congruence. subst g' cs'. eauto.
  - intros T [Ic _] p Hp. rewrite Eg in Hp. exact (ic_plain _ _ _ _ _ Ic p Hp).
Qed.

(** * Examples *)
(** [a] satisfies every clause before those on the cuts. *)
Definition checked (w h ul : Z) (alternating rot : bool) (a : assignment) : bool :=
  match init_clauses (interchange_grid w h ul) with Some c => sat a c | None => false end &&
  forallb (fun o => match o with Some c => sat a c | None => false end) (wishes (interchange_grid w h ul) alternating rot).
Lemma check_interchange E w h ul alternating rot a T : honest E -> answers E -> answers_atleast E -> 1 <= ul -> 1 <= w -> 1 <= h -> h mod 2 = 0 -> h / 4 <= 2 * w ->
  checked w h ul alternating rot a = true -> reads (interchange_grid w h ul) a T ->
  (exists g cs top b, interchange_clauses E w h ul alternating rot = Some (g, cs, top) /\ sat b cs = true) /\ interchange w h ul alternating T /\ exists C, two_colours w h ul T C /\ tidy w h ul rot T C.
Proof.
  intros HE An AnL Hul Hw Hh Ev Hn Ck R. assert (Hu : 0 <= ul) by lia. destruct (C82_builds E w h ul alternating rot An AnL Hul Hw Hh Ev Hn) as (cs & top & Ec).
  unfold checked in Ck. apply andb_true_iff in Ck. destruct Ck as [C1 C2].
  assert (Wa : solves_init (interchange_grid w h ul) a /\ forall o, In o (wishes (interchange_grid w h ul) alternating rot) -> granted a o).
  { split.
    - destruct (init_clauses (interchange_grid w h ul)) as [c|] eqn:Ei; [|discriminate]. exists c. split; assumption.
    - intros o Ho. rewrite forallb_forall in C2. specialize (C2 o Ho). destruct o as [c|]; [|discriminate]. exists c. split; [reflexivity|exact C2]. }
  split.
  - destruct (C84_cuts_implied E w h ul alternating rot _ cs top HE Hu Ec) as (rest' & tc' & Ecs & Et' & Ext).
    destruct (clauses_split _ _ _ _ _ _ _ _ _ Ec) as (_ & _ & rest & tc & Et & Ecs' & Sr). assert (Some (tc', top) = Some (tc, top)) as Q by (rewrite <- Et; symmetry; exact Et').
    assert (tc' = tc) by congruence. subst tc'. rewrite Ecs in Ecs'. apply app_inv_tail in Ecs'. subst rest'. destruct (Ext a (proj2 (Sr a) Wa)) as (b & _ & Sb). eauto 8.
  - apply (wishes_solved w h ul alternating rot Hw Hh Ev Hu) in Wa. destruct Wa as (Sv & Sc & En & Lw). destruct (ends_interchange w h ul alternating Hw Hh Ev Hu a T Sv Sc R En) as [Ic Tc]. split; [exact Ic|]. exists (hue (interchange_grid w h ul) a). split; [exact Tc|].
    apply (layout_wishes_exact w h ul rot Hw Hh Hu a T Sv R (en_plain _ _ _ _ _ En)). exact Lw.
Qed.

(** Four lines: the second and the third change places. *)
Definition four : layout := fun p => match p with
  | (_, 0) => Belt RIGHT RIGHT
  | (0, 1) => Belt RIGHT RIGHT | (1, 1) => Belt RIGHT DOWN | (3, 1) => Belt UP RIGHT | (4, 1) | (5, 1) => Belt RIGHT RIGHT
  | (0, 2) => Underground RIGHT true | (1, 2) => Belt DOWN DOWN | (2, 2) => Underground RIGHT false | (3, 2) => Belt RIGHT UP | (4, 2) => Belt UP RIGHT | (5, 2) => Belt RIGHT RIGHT
  | (0, 3) => Underground RIGHT true | (1, 3) => Belt DOWN RIGHT | (2, 3) | (3, 3) => Belt RIGHT RIGHT | (4, 3) => Belt RIGHT UP | (5, 3) => Underground RIGHT false
  | _ => Empty end.
Definition four_grid := interchange_grid 6 4 4.
Definition four_colours (p : pos) : Z := match p with
  | (3, 1) | (4, 1) | (5, 1) | (0, 2) | (2, 2) | (3, 2) | (0, 3) | (5, 3) => 1 | _ => 0 end.
Definition four_hidden : pos -> Z := colour_x four_grid four 4 four_colours.
Definition four_table := T_NetDemo.tabulate four_grid (layout_assignment four_grid four 4 four_colours four_hidden (fun _ => 0) (fun _ => false)).
Definition four_solution : assignment := T_NetDemo.of_table four_table [].
Example four_reads : reads four_grid four_solution four.
Proof. apply T_NetDemo.reads_by_checking. vm_compute. reflexivity. Qed.
Example C82_four : checked 6 4 4 true false four_solution = true.
Proof. vm_compute. reflexivity. Qed.
Example C83_four :
  (exists g cs top b, interchange_clauses naive_encoder 6 4 4 true false = Some (g, cs, top) /\ sat b cs = true) /\ interchange 6 4 4 true four /\ exists C, two_colours 6 4 4 four C /\ tidy 6 4 4 false four C.
Proof.
  apply (check_interchange naive_encoder 6 4 4 true false four_solution four naive_honest naive_answers naive_answers_atleast); [lia|lia|lia|reflexivity|vm_compute; discriminate|exact C82_four|exact four_reads].
Qed.
(** A layout that is its own reverse when turned. *)
Definition straight : layout := fun _ => Belt RIGHT RIGHT.
Definition straight_table := T_NetDemo.tabulate (interchange_grid 3 2 4) (layout_assignment (interchange_grid 3 2 4) straight 4 snd (fun _ => 0) (fun _ => 0) (fun _ => false)).
Example C83_straight :
  (exists g cs top b, interchange_clauses naive_encoder 3 2 4 false true = Some (g, cs, top) /\ sat b cs = true) /\ interchange 3 2 4 false straight /\ exists C, two_colours 3 2 4 straight C /\ tidy 3 2 4 true straight C.
Proof.
  apply (check_interchange naive_encoder 3 2 4 false true (T_NetDemo.of_table straight_table []) straight naive_honest naive_answers naive_answers_atleast); [lia|lia|lia|reflexivity|vm_compute; discriminate|vm_compute; reflexivity|].
  apply T_NetDemo.reads_by_checking. vm_compute. reflexivity.
Qed.
(** With both lines of the upper half next to each other there is no
    interchange: four straight rows are refused. *)
Example C82_straight_four : ~ interchange 3 4 4 false straight.
Proof.
  intros [VL _ _ _ _ _ Mx]. destruct (Mx 0 ltac:(cbn; lia)) as (y & y' & (q & r & B1 & J1 & R1) & (q' & r' & B2 & J2 & R2) & D). cbn in D.
  assert (K : forall p q, carried (rectangle 3 4) straight 4 p q -> snd p = snd q).
  { intros p0 q0 Hc. induction Hc as [p0|p0 q0 r0 (_ & _ & d & Pd & En) _ IH|p0 q0 r0 (_ & d & Et & _) _ IH]; [reflexivity| |discriminate]. rewrite <- IH. cbn in Pd. subst d.
    unfold neighbour, ahead, place in En. cbn [wrapx wrapy rectangle] in En. destruct (insideb _ _); [|discriminate]. apply Some_inj in En. rewrite <- En. cbn [snd step_y]. lia. }
  apply K in J1. apply K in J2. destruct B1 as (-> & _), B2 as (-> & _), R1 as (-> & _), R2 as (-> & _). cbn [snd] in J1, J2. cbn in J1, J2. lia.
Qed.
(** The counts for twelve rows. *)
Example C84_counts : flow_counts 6 = [1; 2; 3; 2; 1].
Proof. reflexivity. Qed.

(** The hypotheses of C85 can be met. *)
Example C85_example : exists g cs top vs dom solver, interchange_clauses naive_encoder 3 2 4 false true = Some (g, cs, top) /\
  important_variables g [] true = Some vs /\ correct_solver dom solver /\ in_dom dom cs /\ (forall v, In v vs -> In v dom).
Proof.
  assert (K : match interchange_clauses naive_encoder 3 2 4 false true with Some (g, cs, _) =>
      match important_variables g [] true with Some vs => forallb (fun v => 0 <? v) vs && forallb (forallb (fun l => negb (l =? 0))) cs | None => false end | None => false end = true) by (vm_compute; reflexivity).
  destruct (interchange_clauses naive_encoder 3 2 4 false true) as [[[g cs] top]|] eqn:Ec; [|discriminate]. destruct (important_variables g [] true) as [vs|] eqn:EI; [|discriminate].
  apply andb_true_iff in K. destruct K as [K1 K2]. rewrite forallb_forall in K1, K2.
  pose (dom := nodup Z.eq_dec (filter (fun v => 0 <? v) (vs ++ map Z.abs (List.concat cs)))%list).
  exists g, cs, top, vs, dom, (naive dom). split; [reflexivity|]. split; [exact EI|]. split; [|split].
  - apply naive_correct; [|apply NoDup_nodup]. apply Forall_forall. intros v Hv. apply nodup_In, filter_In in Hv. apply Z.ltb_lt. apply Hv.
  - apply Forall_forall. intros c Hc. apply Forall_forall. intros l Hl. apply nodup_In, filter_In. split; [apply in_or_app; right; apply in_map, in_concat; eauto|].
    specialize (K2 c Hc). rewrite forallb_forall in K2. specialize (K2 l Hl). apply negb_true_iff, Z.eqb_neq in K2. apply Z.ltb_lt. lia.
  - intros v Hv. apply nodup_In, filter_In. split; [apply in_or_app; left; exact Hv|apply K1; exact Hv].
Qed.

Print Assumptions C82_solutions_are_interchanges.
Print Assumptions C82_raises.
Print Assumptions C82_builds.
Print Assumptions C83_interchanges_found.
Print Assumptions C84_cuts_implied.
Print Assumptions C84_flow_counts.
Print Assumptions C84_cuts_meaning.
Print Assumptions C83_four.
Print Assumptions C85_every_interchange_once.
Print Assumptions C85_example.
