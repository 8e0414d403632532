(** Property theorem C113: what [shrink_underground] excludes, and more on C70. *)
From Coq Require Import String ZArith List Bool Lia.
From Verif Require Import Spec_Cnf Spec_Tile Spec_Layout Spec_Pattern M_Json M_Tile M_Util M_Card M_Template M_Grid M_Balancer M_Optimise M_Shrink
  P_Cnf P_Util P_Card P_Tile P_Layout P_List P_Template P_Walk P_Grid P_GridSound P_GridComplete P_Transport T_Grid P_Pattern T_Pattern.
Import ListNotations.
Local Open Scope string_scope.
Open Scope Z_scope.

(** A tunnel that enters the ground before an empty cell, or leaves it behind one. *)
Definition slack_entrance (A : area) (T : layout) (p : pos) (d : dir) : Prop :=
  exists q, neighbour A p d = Some q /\ T p = Underground d true /\ T q = Empty.
Definition slack_exit (A : area) (T : layout) (p : pos) (d : dir) : Prop :=
  exists q, neighbour A p d = Some q /\ T p = Empty /\ T q = Underground d false.

Section Solution.
  Variable g : grid.
  Variable e : edges.
  Variable a : assignment.
  Variable T : layout.
  Hypothesis W : wf_grid g.
  Hypothesis Sv : solves g e a.
  Hypothesis R : reads g a T.
  Notation A := (garea g).
  Notation V p := (view_of a (tile_at g p)).
  Let G := sol_rules g e a W Sv.
  Let Ur := sol_under g e a W Sv.
  Let HA : wf_area A := WA g W.

  Lemma empty_iff p : inside A p -> (ve (V p) = true <-> T p = Empty).
  Proof.
    intros Hp. destruct (Sw g a T R G p Hp) as (_ & _ & E & _). rewrite E. destruct (T p); split; congruence.
  Qed.
  Lemma shrink_at_exact p d : inside A p ->
    (sat a (shrink_at g p d) = true <-> ~ slack_entrance A T p d /\ ~ slack_exit A T p d).
  Proof.
    intros Hp. unfold shrink_at. change (offset g p (dx d) (dy d)) with (get_tile_instance_offset (geo g) (fst p) (snd p) (dx d) (dy d)).
    rewrite (offset_neighbour g W). destruct (neighbour A p d) as [q|] eqn:En.
    2: { split; [intros _; split; intros (r & Hr & _); congruence|intros _; reflexivity]. }
    assert (Iq : inside A q) by (eapply ahead_inside; exact En).
    pose proof (tile_at_ok g p W Hp) as Op. pose proof (tile_at_ok g q W Iq) as Oq.
    assert (N1 : underground (tile_at g p) d <> 0) by (apply (ok_u _ Op)).
    assert (N2 : underground (tile_at g q) d <> 0) by (apply (ok_u _ Oq)).
    assert (N3 : is_empty (tile_at g p) <> 0) by (apply (ok_e _ Op)).
    assert (N4 : is_empty (tile_at g q) <> 0) by (apply (ok_e _ Oq)).
    rewrite P_Cnf.sat_app, andb_true_iff, !sat_implies2 by lia.
    rewrite !P_Cnf.sat_cons, !P_Cnf.satc_cons, !P_Cnf.satc_nil, !P_Cnf.sat_nil.
    rewrite !P_Cnf.evl_neg by assumption.
    change (evl a (underground (tile_at g p) d)) with (vu (V p) d). change (evl a (underground (tile_at g q) d)) with (vu (V q) d).
    change (evl a (is_empty (tile_at g p))) with (ve (V p)). change (evl a (is_empty (tile_at g q))) with (ve (V q)).
    pose proof (empty_iff p Hp) as Ep. pose proof (empty_iff q Iq) as Eq.
    destruct (Ur p d Hp) as (_ & U1 & _). destruct (U1 q En) as [U2 U3]. clear U1.
    destruct (Ur q d Iq) as (_ & _ & U1). destruct (U1 p (neighbour_back A p d q HA Hp En)) as [U4 U5]. clear U1.
    split.
    - intros [H1 H2]. split.
      + intros (r & Er & Tp & Tq). assert (r = q) as -> by congruence.
        destruct (ui_at g a T R G p d Hp Tp) as [X1 X2]. destruct (uin_vu g a T R G Ur p d Hp Tp) as [X3 _].
        specialize (H1 ltac:(rewrite X3; reflexivity) (U2 X1 X2)). apply Eq in Tq. rewrite Tq in H1. discriminate.
      + intros (r & Er & Tp & Tq). assert (r = q) as -> by congruence.
        destruct (uo_at g a T R G q d Iq Tq) as [X1 X2]. destruct (uout_vu g a T R G Ur q d Iq Tq) as [X3 _].
        specialize (H2 (U4 X1 X2) ltac:(rewrite X3; reflexivity)). apply Ep in Tp. rewrite Tp in H2. discriminate.
    - intros [H1 H2]. split.
      + intros Hu Hq. destruct (vu (V p) d) eqn:Eu; [discriminate|]. destruct (U5 Hq eq_refl) as [X1 X2].
        destruct (ve (V q)) eqn:Ev; [|reflexivity]. exfalso. apply H1. exists q.
        split; [exact En|]. split; [apply (is_ui_at g a T R G); assumption|apply Eq; reflexivity].
      + intros Hu Hq. destruct (vu (V q) d) eqn:Eu; [discriminate|]. destruct (U3 Hu eq_refl) as [X1 X2].
        destruct (ve (V p)) eqn:Ev; [|reflexivity]. exfalso. apply H2. exists q.
        split; [exact En|]. split; [apply Ep; reflexivity|apply (is_uo_at g a T R G); assumption].
  Qed.

  (** ** C113 *)
  Theorem C113_slack_tunnels : sat a (shrink_underground g) = true <->
    forall p d, inside A p -> ~ slack_entrance A T p d /\ ~ slack_exit A T p d.
  Proof.
    unfold shrink_underground. rewrite (tiles_sat g a). split.
    - intros H p d Hp. apply shrink_at_exact; [exact Hp|]. specialize (H p Hp). rewrite (dirs_sat a) in H. apply H.
    - intros H p Hp. rewrite (dirs_sat a). intros d. apply shrink_at_exact; auto.
  Qed.

  (** The bound in [C70_empty_tunnels] is no restriction: no tunnel of a solution is
      longer. *)
  Lemma bore_bounded p d k q : inside A p -> bore A T p d k q -> k <= useful g + 1.
  Proof.
    intros Hp B. pose proof B as (Hk & Tp & Tq & Eq & Cl).
    assert (Hs : k < extent A d).
    { destruct (Z.lt_ge_cases k (extent A d)) as [|Hge]; [assumption|exfalso]. assert (Hpos : 0 < extent A d) by (destruct HA; destruct d; assumption).
      pose proof (ahead_extent A p d HA Hp) as Ex. destruct (Z.eq_dec k (extent A d)) as [->|].
      - rewrite Eq in Ex. destruct (wraps A d); [|discriminate]. injection Ex as ->. congruence.
      - destruct (Cl (extent A d)) as (r & Er & Nb); [lia|]. rewrite Ex in Er. destruct (wraps A d); [|discriminate]. injection Er as <-.
        apply Nb. rewrite Tp. cbn. destruct d; reflexivity. }
    assert (Hm : k <= Z.max (width (geo g)) (height (geo g)) - 1) by (destruct d; cbn in Hs; lia).
    unfold useful. destruct (glen g) as [l|] eqn:El; [|lia].
    destruct (Z.le_gt_cases k (l + 1)) as [|Hl]; [lia|exfalso].
    pose proof Sv as (_ & _ & _ & _ & (cs & Ec & Hc)). apply (length_sat g W a cs Ec) in Hc. unfold length_rule in Hc. rewrite El in Hc.
    destruct (Cl 1) as (r & Er & _); [lia|]. apply (Hc r d (ahead_inside _ _ _ _ _ Er)).
    intros i Hi. rewrite (ahead_add A p d 1 i r HA Er). destruct (Cl (1 + i)) as (r' & Er' & _); [lia|]. exists r'. split; [exact Er'|].
    apply (bore_vu g W a T R G Ur p d k q Hp B (1 + i)); [lia|exact Er'].
  Qed.
  Theorem C70_empty_tunnels_any : sat a (prevent_empty_along_underground g) = true <-> forall p d k, inside A p -> ~ empty_tunnel A T p d k.
  Proof.
    rewrite (C70_empty_tunnels g e a T W Sv R). split; intros H p d k Hp.
    - intros (q & Hk & Tp & Eq & Tq & Em). apply (H p d k Hp); [|exists q; auto 7].
      apply (bore_bounded p d k q Hp). split; [exact Hk|]. split; [exact Tp|]. split; [exact Tq|]. split; [exact Eq|].
      intros j Hj. destruct (Em j Hj) as (r & Er & Tr). exists r. split; [exact Er|]. rewrite Tr. exact (fun F => F).
    - intros _. apply H. exact Hp.
  Qed.
End Solution.

(** A tunnel behind or before a straight belt, that could be longer: the layout
    is excluded by [expand_underground], and any layout in which the tunnel takes
    the cell of the belt, so that its old end is empty, by [shrink_underground]. *)
Theorem C113_clash_always g e a a' T T' l b d k : wf_grid g -> solves g e a -> reads g a T -> solves g e a' -> reads g a' T' ->
  glen g = Some l -> 2 <= k <= l -> inside (garea g) b -> inside (garea g) (far b d (k + 1)) ->
  (late_entrance (garea g) T b d k /\ (exists p, neighbour (garea g) b d = Some p /\ T' b = Underground d true /\ T' p = Empty)) \/
  (early_exit (garea g) T b d k /\ exists q q', ahead (garea g) b d k = Some q /\ neighbour (garea g) q d = Some q' /\ T' q = Empty /\ T' q' = Underground d false) ->
  exists cs, expand_underground g 0 0 None None = Some cs /\ sat a cs = false /\ sat a' (shrink_underground g) = false.
Proof.
  intros W So R So' R' Gl Hk Hb Hf H.
  assert (Reg : forall p, inside (garea g) p -> in_region 0 0 (width (geo g) - 1) (height (geo g) - 1) p) by (intros [x y] [Hx Hy]; cbn in Hx, Hy; split; cbn; lia).
  destruct (C70_short_tunnels g e a T W So R l 0 0 None None Gl) as (cs & Ec & Sc); try lia. exists cs. split; [exact Ec|]. split; apply not_true_is_false; intros K.
  - destruct (proj1 Sc K b d k Hk (Reg b Hb) (Reg _ Hf)) as [N1 N2]. destruct H as [[H _]|[H _]]; contradiction.
  - pose proof (proj1 (C113_slack_tunnels g e a' T' W So' R') K) as N. destruct H as [[_ (p & Ep & T1 & T2)]|[_ (q & q' & Eq & Eq' & T1 & T2)]].
    + apply (proj1 (N b d Hb)). exists p. auto.
    + apply (proj2 (N q d (ahead_inside _ _ _ _ _ Eq))). exists q'. auto.
Qed.

(** The belt that [expand_underground] wants to be part of the tunnel
    ([C70_short_tunnels]) leaves an empty cell when it is, and that is what
    [shrink_underground] excludes: of these two layouts each is excluded by one
    of the two. *)
Definition longer_cells : list (pos * tile) :=
  [((0, 1), Underground RIGHT true); ((2, 0), Belt DOWN DOWN); ((2, 1), Belt DOWN DOWN); ((2, 2), Belt DOWN DOWN); ((3, 1), Underground RIGHT false); ((4, 1), Belt RIGHT UP); ((4, 0), Belt UP UP)].
Definition both L l : list bool :=
  let g := pat_grid L in let a := pat_assignment L l in
  [sat a (shrink_underground g); match expand_underground g 0 0 None None with Some cs => sat a cs | None => false end].
Example longer_met : wf_grid (pat_grid (Some 6)) /\ solves (pat_grid (Some 6)) (EBool true) (pat_assignment (Some 6) longer_cells) /\ reads (pat_grid (Some 6)) (pat_assignment (Some 6) longer_cells) (on_cells longer_cells).
Proof. pat. Qed.
Example C113_clash : both (Some 6) short_cells = [true; false] /\ both (Some 6) longer_cells = [false; true].
Proof. split; vm_compute; reflexivity. Qed.
Example C113_demo :
  slack_entrance (garea (pat_grid (Some 6))) (on_cells longer_cells) (0, 1) RIGHT /\
  (forall p d, inside (garea (pat_grid (Some 6))) p ->
     ~ slack_entrance (garea (pat_grid (Some 6))) (on_cells short_cells) p d /\ ~ slack_exit (garea (pat_grid (Some 6))) (on_cells short_cells) p d).
Proof.
  split.
  - exists (1, 1). repeat split.
  - destruct short_met as (W & Sv & R). apply (C113_slack_tunnels (pat_grid (Some 6)) (EBool true) (pat_assignment (Some 6) short_cells) (on_cells short_cells) W Sv R).
    vm_compute. reflexivity.
Qed.
Print Assumptions C113_slack_tunnels.
Print Assumptions C113_clash_always.
Print Assumptions C70_empty_tunnels_any.
