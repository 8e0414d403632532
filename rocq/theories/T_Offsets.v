(** C54, continued: what setup_balancer_ends_with_offsets asks for. *)
From Coq Require Import String ZArith List Bool Lia.
From Verif Require Import P_Network P_Network2 T_Network.
From Verif Require Import Spec_Cnf Spec_Tile Spec_Layout M_Json M_Tile M_Util M_Card M_Network Spec_Network M_Template M_Grid M_Oracle M_Balancer
  P_Cnf P_Util P_Tile P_Layout P_List P_Template P_Grid P_GridSound P_GridComplete T_Grid P_Balancer T_Balancer.
Import ListNotations.
Open Scope Z_scope.

(** Column [x] has straight belts to the right in the rows [lo] to [hi - 1] and is
    empty elsewhere. *)
Definition lanes (h : Z) (T : layout) (x lo hi : Z) : Prop :=
  forall y, 0 <= y < h -> T (x, y) = if (lo <=? y) && (y <? hi) then Belt RIGHT RIGHT else Empty.

Section Offsets.
  Variables (g : grid) (a : assignment) (T : layout).
  Hypotheses (W : wf_grid g) (Sv : solves_init g a) (R : reads g a T).
  Notation w := (width (geo g)).
  Notation h := (height (geo g)).

  Lemma set_tiles_exact x lo hi t : 0 <= x < w -> 0 <= lo -> hi <= h -> t = Empty \/ t = Belt RIGHT RIGHT ->
    exists cs, set_tiles g x lo hi t = Some cs /\ (sat a cs = true <-> forall y, lo <= y < hi -> T (x, y) = t).
  Proof.
    intros Hx Hl Hh Ht.
    assert (X : forall y, lo <= y < hi -> exists cs, set_tile g x y t = Some cs /\ (sat a cs = true <-> T (x, y) = t)).
    { intros y Hy. assert (I : inside (garea g) (x, y)) by (split; cbn; lia).
      destruct (C45_set_tile g a x y t W Sv I) as (cs & E & Q); [destruct Ht as [-> | ->]; [exact Logic.I|discriminate]|].
      exists cs. split; [exact E|]. rewrite Q. pose proof (R _ I) as RI. unfold decoded in RI. rewrite RI.
      destruct Ht as [-> | ->]; split; congruence. }
    unfold set_tiles. destruct (oflat_some (fun y => set_tile g x (lo + y) t) (range (hi - lo))) as [cs E].
    { intros y Hy. apply range_in in Hy. destruct (X (lo + y)) as (c & Ec & _); [lia|]. exists c. exact Ec. }
    exists cs. split; [exact E|]. rewrite (sat_oflat a _ _ _ E). split.
    - intros H y Hy. destruct (H (y - lo)) as (c & Ec & Sc); [apply range_in; lia|]. replace (lo + (y - lo)) with y in Ec by lia.
      destruct (X y Hy) as (c' & Ec' & Q). assert (c' = c) by congruence. subst c'. apply Q. exact Sc.
    - intros H y Hy. apply range_in in Hy. destruct (X (lo + y)) as (c & Ec & Q); [lia|]. exists c. split; [exact Ec|]. apply Q. apply H. lia.
  Qed.
  Lemma set_colours_exact x lo hi c k : 0 <= x < w -> 0 <= lo -> hi <= h -> gcolours g = Some k -> 0 <= c < k ->
    exists cs, set_colours g x lo hi c = Some cs /\ (sat a cs = true <-> forall y, lo <= y < hi -> value a (colour (tile_at g (x, y))) = c).
  Proof.
    intros Hx Hl Hh Hk Hc.
    assert (X : forall y, lo <= y < hi -> exists cs, set_colour g x y c = Some cs /\ (sat a cs = true <-> value a (colour (tile_at g (x, y))) = c)).
    { intros y Hy. assert (I : inside (garea g) (x, y)) by (split; cbn; lia).
      pose proof (C68_set_colour g x y c a W) as Q. destruct (set_colour g x y c) as [cs|]; [exists cs; split; [reflexivity|apply Q]|].
      exfalso. apply Q. split; [exact I|]. exists k. auto. }
    unfold set_colours. destruct (oflat_some (fun y => set_colour g x (lo + y) c) (range (hi - lo))) as [cs E].
    { intros y Hy. apply range_in in Hy. destruct (X (lo + y)) as (d & Ed & _); [lia|]. exists d. exact Ed. }
    exists cs. split; [exact E|]. rewrite (sat_oflat a _ _ _ E). split.
    - intros H y Hy. destruct (H (y - lo)) as (d & Ed & Sd); [apply range_in; lia|]. replace (lo + (y - lo)) with y in Ed by lia.
      destruct (X y Hy) as (d' & Ed' & Q). assert (d' = d) by congruence. subst d'. apply Q. exact Sd.
    - intros H y Hy. apply range_in in Hy. destruct (X (lo + y)) as (d & Ed & Q); [lia|]. exists d. split; [exact Ed|]. apply Q. apply H. lia.
  Qed.
  Lemma lanes_parts x lo hi : 0 <= lo -> lo <= hi -> hi <= h ->
    (lanes h T x lo hi <-> (forall y, 0 <= y < lo -> T (x, y) = Empty) /\ (forall y, lo <= y < hi -> T (x, y) = Belt RIGHT RIGHT) /\ (forall y, hi <= y < h -> T (x, y) = Empty)).
  Proof.
    intros H1 H2 H3. unfold lanes. split.
    - intros H. repeat split; intros y Hy; rewrite H by lia; destruct (Z.leb_spec lo y), (Z.ltb_spec y hi); cbn; lia || reflexivity.
    - intros (A1 & A2 & A3) y Hy. destruct (Z.leb_spec lo y), (Z.ltb_spec y hi); cbn; [apply A2|apply A3|apply A1|apply A1]; lia.
  Qed.

  (** In the first column there are belts exactly in the rows of the inputs, in the
      last column exactly in the rows of the outputs.  The colour of the inputs is
      asked for in the last column, in the rows of the inputs; in the first column
      no colour is asked for. *)
  Theorem C54_exactly net so eo ic n oc m k : get_input_output_colours net = Some ((ic, n), (oc, m)) ->
    gcolours g = Some k -> 0 <= ic < k -> 0 <= oc < k -> 0 <= so -> 0 <= eo ->
    (so + n <= h -> eo + m <= h ->
     exists cs, setup_balancer_ends_with_offsets g net so eo = Some cs /\
       (sat a cs = true <-> lanes h T 0 so (so + n) /\ lanes h T (w - 1) eo (eo + m) /\
          (forall y, so <= y < so + n -> value a (colour (tile_at g (w - 1, y))) = ic) /\
          (forall y, eo <= y < eo + m -> value a (colour (tile_at g (w - 1, y))) = oc))) /\
    (h < so + n \/ h < eo + m -> setup_balancer_ends_with_offsets g net so eo = None).
  Proof.
    intros Ends Hk Hi Ho Hs He. pose proof (proj1 (ends_spec _ _ _ _ _) Ends) as ((Pn & Pm) & _). unfold setup_balancer_ends_with_offsets. rewrite Ends. cbn [obind].
    assert (Hw : 0 < w) by apply W. split.
    - intros Hn Hm. rewrite (proj2 (Z.leb_le _ _) Hn), (proj2 (Z.leb_le _ _) Hm). cbn [andb negb].
      destruct (set_tiles_exact 0 0 so Empty) as (a1 & E1 & Q1); [lia|lia|lia|auto|]. rewrite E1. cbn [obind].
      destruct (set_tiles_exact 0 so (so + n) (Belt RIGHT RIGHT)) as (a2 & E2 & Q2); [lia|lia|lia|auto|]. rewrite E2. cbn [obind].
      destruct (set_colours_exact (w - 1) so (so + n) ic k) as (a3 & E3 & Q3); [lia|lia|lia|exact Hk|exact Hi|]. rewrite E3. cbn [obind].
      destruct (set_tiles_exact 0 (so + n) h Empty) as (a4 & E4 & Q4); [lia|lia|lia|auto|]. rewrite E4. cbn [obind].
      destruct (set_tiles_exact (w - 1) 0 eo Empty) as (b1 & F1 & P1); [lia|lia|lia|auto|]. rewrite F1. cbn [obind].
      destruct (set_tiles_exact (w - 1) eo (eo + m) (Belt RIGHT RIGHT)) as (b2 & F2 & P2); [lia|lia|lia|auto|]. rewrite F2. cbn [obind].
      destruct (set_colours_exact (w - 1) eo (eo + m) oc k) as (b3 & F3 & P3); [lia|lia|lia|exact Hk|exact Ho|]. rewrite F3. cbn [obind].
      destruct (set_tiles_exact (w - 1) (eo + m) h Empty) as (b4 & F4 & P4); [lia|lia|lia|auto|]. rewrite F4. cbn [obind].
      eexists. split; [reflexivity|]. rewrite !sat_app, !andb_true_iff, Q1, Q2, Q3, Q4, P1, P2, P3, P4.
      rewrite (lanes_parts 0 so (so + n)), (lanes_parts (w - 1) eo (eo + m)) by lia. tauto.
    - intros H. assert (X : (so + n <=? h) && (eo + m <=? h) = false) by (apply andb_false_iff; rewrite !Z.leb_gt; exact H). rewrite X. reflexivity.
  Qed.
End Offsets.

(** A single line of belts on the grid of the example of C52, from the upper left
    to the middle of the right side.  The colour of the output goes all the way;
    the colour of the input is on an empty cell. *)
Definition line_net : network := [((Some 0, Some 2), (Some 1, Some 2))].
Definition line_layout : layout := fun p => match p with
  | (0, 0) => Belt RIGHT RIGHT | (1, 0) => Belt RIGHT DOWN | (1, 1) => Belt DOWN RIGHT | (2, 1) => Belt RIGHT RIGHT | _ => Empty end.
Definition line_colours (p : pos) : Z := match line_layout p with Empty => 0 | _ => 1 end.
Definition line_solution : assignment := layout_assignment demo_bgrid line_layout 4 line_colours (fun _ => 0) (fun _ => 0) (fun _ => false).
Example C54_line_met : solves_init demo_bgrid line_solution /\ solves_colouring demo_bgrid line_solution /\ reads demo_bgrid line_solution line_layout /\
  get_input_output_colours line_net = Some ((0, 1), (1, 1)).
Proof.
  split; [|split; [|split; [|reflexivity]]].
  - destruct (init_clauses demo_bgrid) as [cs|] eqn:E; [|vm_compute in E; discriminate]. exists cs. split; [exact E|].
    assert (X : match init_clauses demo_bgrid with Some cs => sat line_solution cs | None => false end = true) by (vm_compute; reflexivity). rewrite E in X. exact X.
  - assert (X : match prevent_bad_colouring demo_bgrid with Some cs => sat line_solution cs | None => false end = true) by (vm_compute; reflexivity).
    destruct (prevent_bad_colouring demo_bgrid) as [cs|] eqn:E; [|discriminate]. exists cs. auto.
  - assert (X : forallb (fun p => match decoded demo_bgrid line_solution p with Some t => if tile_eq_dec t (line_layout p) then true else false | None => false end)
      (iterate_tiles (geo demo_bgrid)) = true) by (vm_compute; reflexivity).
    intros p Hp. rewrite forallb_forall in X. specialize (X p (proj2 (iterate_tiles_in _ _) Hp)).
    unfold decoded in X. destruct (read_tile _) as [t|]; [|discriminate]. destruct (tile_eq_dec t (line_layout p)); [congruence|discriminate].
Qed.
Example C54_line : match setup_balancer_ends_with_offsets demo_bgrid line_net 0 1 with Some cs => sat line_solution cs | None => false end = true.
Proof. vm_compute. reflexivity. Qed.
Print Assumptions C54_exactly.
