(** The meaning of the clauses of solver.py, clause group by clause group. *)
From Coq Require Import String ZArith List Bool Lia.
From Verif Require Import Spec_Cnf Spec_Tile Spec_Layout M_Json M_Tile M_Util M_Card M_Template M_Grid
  P_Cnf P_Util P_Card P_Tile P_Layout P_List P_Template.
Import ListNotations.
Open Scope Z_scope.

(** ** Small sat lemmas *)
Section Sat.
  Variable a : assignment.

  Lemma directions_all d : In d directions.
  Proof. destruct d; cbn; tauto. Qed.

  Lemma sat_implies1 x cs : x <> 0 ->
    (sat a (implies [x] cs) = true <-> (evl a x = true -> sat a cs = true)).
  Proof.
    intros H. rewrite sat_implies by (repeat constructor; exact H). cbn [forallb]. rewrite andb_true_r.
    destruct (evl a x), (sat a cs); cbn; intuition congruence.
  Qed.
  Lemma sat_implies2 x y cs : x <> 0 -> y <> 0 ->
    (sat a (implies [x; y] cs) = true <-> (evl a x = true -> evl a y = true -> sat a cs = true)).
  Proof.
    intros H H2. rewrite sat_implies by (repeat constructor; assumption). cbn [forallb]. rewrite andb_true_r.
    destruct (evl a x), (evl a y), (sat a cs); cbn; intuition congruence.
  Qed.
  Lemma sat_implies3 x y z cs : x <> 0 -> y <> 0 -> z <> 0 ->
    (sat a (implies [x; y; z] cs) = true <-> (evl a x = true -> evl a y = true -> evl a z = true -> sat a cs = true)).
  Proof.
    intros H H2 H3. rewrite sat_implies by (repeat constructor; assumption). cbn [forallb]. rewrite andb_true_r.
    destruct (evl a x), (evl a y), (evl a z), (sat a cs); cbn; intuition congruence.
  Qed.

  Lemma sat_all_false ls : Forall nonzero ls ->
    (sat a (set_all_false ls) = true <-> forall l, In l ls -> evl a l = false).
  Proof.
    intros H. rewrite set_all_false_sat, forallb_forall by assumption.
    split; intros HH l Hl; specialize (HH l Hl); apply negb_true_iff; assumption.
  Qed.

  Variable f : dir -> lit.
  Hypothesis Hf : forall d, f d <> 0.

  Lemma nonzero_map l : Forall nonzero (map f l).
  Proof. apply Forall_forall. intros x Hx. apply in_map_iff in Hx. destruct Hx as (d & <- & _). apply Hf. Qed.

  Lemma sat_false_map l : sat a (set_all_false (map f l)) = true <-> forall d, In d l -> evl a (f d) = false.
  Proof.
    rewrite sat_all_false by apply nonzero_map. split.
    - intros H d Hd. apply H. apply in_map. exact Hd.
    - intros H x Hx. apply in_map_iff in Hx. destruct Hx as (d & <- & Hd). auto.
  Qed.

  Lemma satc_map l : satc a (map f l) = true <-> exists d, In d l /\ evl a (f d) = true.
  Proof.
    rewrite satc_In. split.
    - intros (x & Hx & E). apply in_map_iff in Hx. destruct Hx as (d & <- & Hd). eauto.
    - intros (d & Hd & E). exists (f d). split; [apply in_map; exact Hd|exact E].
  Qed.

  Lemma satc_dirs : satc a (map f directions) = true <-> exists d, evl a (f d) = true.
  Proof. rewrite satc_map. split; [intros (d & _ & E)|intros (d & E)]; exists d; auto using directions_all. Qed.
  Lemma sat_false_dirs : sat a (set_all_false (map f directions)) = true <-> forall d, evl a (f d) = false.
  Proof. rewrite sat_false_map. split; auto using directions_all. Qed.

  Lemma amo_dirs : sat a (quadratic_amo (map f directions)) = true <->
    forall d e, evl a (f d) = true -> evl a (f e) = true -> d = e.
  Proof.
    rewrite quadratic_amo_sat by apply nonzero_map. unfold count, values. cbn [map directions count_true].
    split.
    - intros H d e Hd He. destruct d, e; try reflexivity; exfalso;
        destruct (evl a (f RIGHT)), (evl a (f UP)), (evl a (f LEFT)), (evl a (f DOWN)); cbn in *; try lia; try discriminate.
    - intros H.
      assert (X : forall d e, d <> e -> evl a (f d) && evl a (f e) = false).
      { intros d e Hde. destruct (evl a (f d)) eqn:E1, (evl a (f e)) eqn:E2; try reflexivity. exfalso. apply Hde. auto. }
      pose proof (X RIGHT UP ltac:(discriminate)); pose proof (X RIGHT LEFT ltac:(discriminate));
      pose proof (X RIGHT DOWN ltac:(discriminate)); pose proof (X UP LEFT ltac:(discriminate));
      pose proof (X UP DOWN ltac:(discriminate)); pose proof (X LEFT DOWN ltac:(discriminate)).
      destruct (evl a (f RIGHT)), (evl a (f UP)), (evl a (f LEFT)), (evl a (f DOWN)); cbn in *; try discriminate; lia.
  Qed.
End Sat.

Lemma amo2 a x y : x <> 0 -> y <> 0 ->
  (sat a (quadratic_amo [x; y]) = true <-> ~ (evl a x = true /\ evl a y = true)).
Proof.
  intros Hx Hy. rewrite quadratic_amo_sat by (repeat constructor; assumption). unfold count, values.
  cbn [map count_true]. destruct (evl a x), (evl a y); cbn; intuition (try lia; try discriminate).
Qed.

Lemma sat_oflat {A} a (f : A -> option cnf) l cs : oflat f l = Some cs ->
  (sat a cs = true <-> forall x, In x l -> exists c, f x = Some c /\ sat a c = true).
Proof.
  unfold oflat. destruct (omap f l) as [css|] eqn:E; [|discriminate]. cbn. intros [= <-].
  revert css E. induction l as [|x l IH]; intros css E; cbn in E.
  - injection E as <-. cbn. split; [intros _ x []|reflexivity].
  - destruct (f x) as [c|] eqn:Ex; [|discriminate]. cbn in E. destruct (omap f l) as [cs|] eqn:El; [|discriminate].
    cbn in E. injection E as <-. cbn [concat]. rewrite sat_app, andb_true_iff, (IH cs eq_refl). split.
    + intros [H1 H2] y [<-|Hy]; [exists c; auto|auto].
    + intros H. split; [destruct (H x (or_introl eq_refl)) as (c' & E' & S'); congruence|intros y Hy; apply H; right; exact Hy].
Qed.

Lemma oflat_some {A} (f : A -> option cnf) l :
  (forall x, In x l -> exists c, f x = Some c) -> exists cs, oflat f l = Some cs.
Proof.
  unfold oflat. intros H. enough (exists css, omap f l = Some css) as [css ->] by (eexists; reflexivity).
  induction l as [|x l IH]; [eexists; reflexivity|]. cbn. destruct (H x (or_introl eq_refl)) as [c ->].
  destruct IH as [css ->]; [intros y Hy; apply H; right; exact Hy|]. eexists; reflexivity.
Qed.

Lemma Some_inj {A} (x y : A) : Some x = Some y -> x = y.
Proof. congruence. Qed.

(** ** Views: the truth values of a tile's variables *)
Record view := {
  vb : bool; ve : bool; vs : bool; vui : bool; vuo : bool; vh : bool; vinp : bool; voutp : bool;
  vi : dir -> bool; vo : dir -> bool; vu : dir -> bool }.

Definition view_of (a : assignment) (t : tvars) : view := {|
  vb := evl a (is_belt t); ve := evl a (is_empty t); vs := evl a (is_splitter t);
  vui := evl a (is_underground_in t); vuo := evl a (is_underground_out t); vh := evl a (is_splitter_head t);
  vinp := evl a (is_input t); voutp := evl a (is_output t);
  vi := fun d => evl a (input_dir t d); vo := fun d => evl a (output_dir t d); vu := fun d => evl a (underground t d) |}.

Record vars_ok (t : tvars) : Prop := {
  ok_b : is_belt t <> 0; ok_e : is_empty t <> 0; ok_s : is_splitter t <> 0; ok_ui : is_underground_in t <> 0;
  ok_uo : is_underground_out t <> 0; ok_h : is_splitter_head t <> 0; ok_in : is_input t <> 0; ok_out : is_output t <> 0;
  ok_i : forall d, input_dir t d <> 0; ok_o : forall d, output_dir t d <> 0; ok_u : forall d, underground t d <> 0;
  ok_c : Forall nonzero (colour t); ok_cx : Forall nonzero (colour_ux t); ok_cy : Forall nonzero (colour_uy t) }.

Inductive kind := KB | KE | KS | KI | KO.
Definition keqb (k l : kind) : bool :=
  match k, l with KB, KB | KE, KE | KS, KS | KI, KI | KO, KO => true | _, _ => false end.

(** What the clauses of one tile say. *)
Record tile_rules (v : view) : Prop := {
  r_kind : exists k, vb v = keqb k KB /\ ve v = keqb k KE /\ vs v = keqb k KS /\ vui v = keqb k KI /\ vuo v = keqb k KO;
  r_empty : ve v = true -> forall d, vi v d = false /\ vo v d = false;
  r_belt : vb v = true -> (exists d, vi v d = true) /\ exists d, vo v d = true;
  r_uin : vui v = true -> (exists d, vi v d = true) /\ forall d, vo v d = false;
  r_uout : vuo v = true -> (exists d, vo v d = true) /\ forall d, vi v d = false;
  r_split : vs v = true -> exists d, vi v d = true \/ vo v d = true;
  r_in1 : forall d e, vi v d = true -> vi v e = true -> d = e;
  r_out1 : forall d e, vo v d = true -> vo v e = true -> d = e;
  r_ux : ~ (vu v RIGHT = true /\ vu v LEFT = true);
  r_uy : ~ (vu v UP = true /\ vu v DOWN = true);
  r_head : vh v = true -> vs v = true;
  r_straight : forall d e, vs v = true -> vi v d = true -> vo v e = true -> d = e;
  r_turn : forall d, vi v d = true -> vo v (opposite d) = false
}.

Lemma one5 a t : vars_ok t ->
  (sat a (quadratic_one (tile_type t)) = true <->
   exists k, vb (view_of a t) = keqb k KB /\ ve (view_of a t) = keqb k KE /\ vs (view_of a t) = keqb k KS /\
             vui (view_of a t) = keqb k KI /\ vuo (view_of a t) = keqb k KO).
Proof.
  intros H. rewrite quadratic_one_sat by (unfold tile_type; repeat (constructor; [apply H|]); constructor).
  unfold count, values, tile_type. cbn [map count_true view_of vb ve vs vui vuo].
  destruct (evl a (is_belt t)), (evl a (is_empty t)), (evl a (is_splitter t)), (evl a (is_underground_in t)), (evl a (is_underground_out t)); cbn;
    (split; [intros C; first [exfalso; lia | exists KB; repeat split; reflexivity | exists KE; repeat split; reflexivity
       | exists KS; repeat split; reflexivity | exists KI; repeat split; reflexivity | exists KO; repeat split; reflexivity ]
     | intros (k & C); destruct k; cbn in C; intuition (try discriminate; try lia)]).
Qed.

Lemma satc_app_iff a c d : satc a (c ++ d) = true <-> satc a c = true \/ satc a d = true.
Proof. rewrite satc_app, orb_true_iff. reflexivity. Qed.
Lemma sat_app_iff a c d : sat a (c ++ d) = true <-> sat a c = true /\ sat a d = true.
Proof. rewrite sat_app, andb_true_iff. reflexivity. Qed.
Lemma sat_cons_iff a c d : sat a (c :: d) = true <-> satc a c = true /\ sat a d = true.
Proof. rewrite sat_cons, andb_true_iff. reflexivity. Qed.
Lemma sat_one a c : sat a [c] = true <-> satc a c = true.
Proof. rewrite sat_cons, sat_nil, andb_true_r. reflexivity. Qed.
Lemma satc_one a l : satc a [l] = true <-> evl a l = true.
Proof. rewrite satc_cons, satc_nil, orb_false_r. reflexivity. Qed.
Lemma satc_neg_one a l : l <> 0 -> (satc a [- l] = true <-> evl a l = false).
Proof. intros H. rewrite satc_one, evl_neg, negb_true_iff by exact H. reflexivity. Qed.
Lemma satc_cons_iff a l c : satc a (l :: c) = true <-> evl a l = true \/ satc a c = true.
Proof. rewrite satc_cons, orb_true_iff. reflexivity. Qed.
Lemma evl_neg_iff a l : l <> 0 -> (evl a (- l) = true <-> evl a l = false).
Proof. intros H. rewrite evl_neg, negb_true_iff by exact H. reflexivity. Qed.

Lemma in_del d e : In e (filter (fun e => negb (dir_eqb e d)) directions) <-> e <> d.
Proof. rewrite filter_In. split; [intros [_ H] ->; rewrite dir_eqb_refl in H; discriminate|].
  intros H. split; [apply directions_all|]. destruct (dir_eqb_spec e d); [contradiction|reflexivity]. Qed.

Lemma sat_del a f d : (forall d, f d <> 0) ->
  (sat a (set_all_false (del_dir f d)) = true <-> forall e, e <> d -> evl a (f e) = false).
Proof.
  intros H. unfold del_dir. rewrite sat_false_map by exact H. split; intros HH e He; apply HH; apply in_del; exact He.
Qed.

Lemma tile_clauses_sat a t : vars_ok t -> (sat a (tile_clauses t) = true <-> tile_rules (view_of a t)).
Proof.
  intros H. pose proof (ok_i t H) as Hi. pose proof (ok_o t H) as Ho. pose proof (ok_u t H) as Hu.
  unfold tile_clauses. rewrite !sat_app_iff, !sat_flat_map, one5 by exact H.
  rewrite !sat_implies1 by apply H.
  unfold all_direction, inputs, outputs. rewrite amo_dirs by exact Hi. rewrite amo_dirs by exact Ho.
  rewrite !amo2 by apply Hu. rewrite !sat_app_iff, !sat_cons_iff, !sat_nil.
  rewrite !sat_false_dirs by assumption.
  rewrite sat_all_false by (apply Forall_app; split; apply nonzero_map; assumption).
  rewrite !satc_app_iff, !satc_dirs. rewrite satc_cons_iff, satc_one, evl_neg_iff by apply H.
  split.
  - intros (H1 & H2 & H3 & H4 & H5 & H6 & H7 & H8 & H9 & H10 & H11 & H12 & H13).
    assert (HT : forall d, (~ (evl a (input_dir t d) = true /\ evl a (output_dir t (opposite d)) = true)) /\
                 (evl a (is_splitter t) = true -> evl a (input_dir t d) = true -> evl a (output_dir t (next d)) = false)).
    { intros d. specialize (H13 d (directions_all d)). rewrite sat_app_iff, amo2, sat_implies2, sat_one, satc_neg_one, reverse_opp in H13
        by (apply Hi || apply Ho || apply H). exact H13. }
    constructor; cbn [view_of vb ve vs vui vuo vh vi vo vu vinp voutp]; auto.
    + intros E d. split; apply H2; try exact E; apply in_app_iff; [left|right]; apply in_map; apply directions_all.
    + intros E. specialize (H3 E). tauto.
    + intros E. specialize (H4 E). tauto.
    + intros E. specialize (H5 E). tauto.
    + intros E. destruct (H6 E) as [[[d Hd]|[d Hd]] _]; exists d; auto.
    + intros E. destruct H11 as [[C|C] _]; [congruence|exact C].
    + intros d e E1 E2 E3. specialize (H12 d (directions_all d)). rewrite sat_app_iff, !sat_implies2, !sat_del in H12
        by (apply H || apply Hi || apply Ho || assumption).
      destruct H12 as [H12 _]. specialize (H12 E1 E2). destruct (dir_eqb_spec d e); [assumption|].
      rewrite H12 in E3 by congruence. discriminate.
    + intros d E. destruct (HT d) as [C _]. destruct (evl a (output_dir t (opposite d))); [exfalso; auto|reflexivity].
  - intros R. destruct R as [R1 R2 R3 R4 R5 R6 R7 R8 R9 R10 R11 R12 R13].
    cbn [view_of vb ve vs vui vuo vh vi vo vu vinp voutp] in *.
    split; [exact R1|]. split.
    { intros E l Hl. apply in_app_iff in Hl. destruct Hl as [Hl|Hl]; apply in_map_iff in Hl; destruct Hl as (d & <- & _);
      destruct (R2 E d); assumption. }
    split; [intros E; destruct (R3 E); tauto|]. split; [intros E; destruct (R4 E); tauto|].
    split; [intros E; destruct (R5 E); tauto|].
    split; [intros E; destruct (R6 E) as (d & [C|C]); split; [left|reflexivity|right|reflexivity]; exists d; exact C|].
    repeat (split; [first [exact R7|exact R8|exact R9|exact R10]|]).
    split. { split; [|reflexivity]. destruct (evl a (is_splitter_head t)); [right; apply R11; reflexivity|left; reflexivity]. }
    split.
    + intros d _. rewrite sat_app_iff, !sat_implies2, !sat_del by (apply H || apply Hi || apply Ho || assumption).
      split; intros E1 E2 e He.
      * destruct (evl a (output_dir t e)) eqn:E; [|reflexivity]. exfalso. apply He. symmetry. apply (R12 d e); assumption.
      * destruct (evl a (input_dir t e)) eqn:E; [|reflexivity]. exfalso. apply He. apply (R12 e d); assumption.
    + intros d _. rewrite sat_app_iff, amo2, sat_implies2, sat_one, satc_neg_one, reverse_opp by (apply Hi || apply Ho || apply H).
      split; [intros [C1 C2]; rewrite R13 in C2 by exact C1; discriminate|].
      intros E1 E2. destruct (evl a (output_dir t (next d))) eqn:E; [|reflexivity].
      pose proof (R12 d (next d) E1 E2 E) as C. destruct d; discriminate.
Qed.

(** ** Variables of the grid *)
Definition wf_grid (g : grid) : Prop :=
  wf_geometry (geo g) /\ 0 <= gtop g /\
  match gcolours g with None => True | Some c => 1 <= c end /\
  match glen g with None => True | Some l => 0 <= l end.

Definition garea (g : grid) : area := area_of (geo g).

Lemma tile_size_pos g : 20 + 3 * Z.of_nat (colour_bits g) <= tile_size g.
Proof.
  unfold tile_size, tile_template. cbn [variable_count app fold_right snd shape_size].
  rewrite fold_right_app. unfold colour_bits. destruct (gcolours g); cbn [fold_right snd variable_count]; lia.
Qed.

Lemma tile_base_nonneg g p : wf_grid g -> inside (garea g) p -> gtop g <= tile_base g p.
Proof.
  intros (_ & Ht & _) [Hx Hy]. unfold tile_base. cbn [garea area_of aw ah] in *. pose proof (tile_size_pos g).
  assert (0 <= snd p * width (geo g)) by (apply Z.mul_nonneg_nonneg; lia).
  assert (0 <= (snd p * width (geo g) + fst p) * tile_size g) by (apply Z.mul_nonneg_nonneg; lia). lia.
Qed.

Lemma fresh_nonzero top k : 0 <= top -> Forall nonzero (fresh top k).
Proof. intros H. apply Forall_forall. intros v Hv. apply fresh_In in Hv. unfold nonzero. lia. Qed.

Lemma tile_at_ok g p : wf_grid g -> inside (garea g) p -> vars_ok (tile_at g p).
Proof.
  intros W I. pose proof (tile_base_nonneg g p W I). destruct W as (_ & Ht & _).
  unfold tile_at. constructor; cbn [tile_vars is_belt is_empty is_splitter is_underground_in is_underground_out is_splitter_head is_input is_output input_dir output_dir underground colour colour_ux colour_uy];
    try lia; try (intros d; pose proof (dir_value_bound d); lia); apply fresh_nonzero; lia.
Qed.

Lemma colour_fits c : 1 <= c -> 0 <= c - 1 < 2 ^ Z.of_nat (Z.to_nat (bit_length (c - 1))).
Proof.
  intros H. split; [lia|]. unfold bit_length. destruct (Z.eqb_spec (c - 1) 0) as [->|N]; [cbn; lia|].
  rewrite Z2Nat.id by (pose proof (Z.log2_nonneg (c - 1)); lia).
  replace (Z.log2 (c - 1) + 1) with (Z.succ (Z.log2 (c - 1))) by lia. apply Z.log2_spec. lia.
Qed.

Lemma colour_len g p : len (colour (tile_at g p)) = Z.of_nat (colour_bits g) /\
  len (colour_ux (tile_at g p)) = Z.of_nat (colour_bits g) /\ len (colour_uy (tile_at g p)) = Z.of_nat (colour_bits g).
Proof. unfold len. cbn. rewrite !fresh_length. auto. Qed.

(** Colours of a tile are below the number of colours. *)
Definition colour_rule (g : grid) (a : assignment) (t : tvars) : Prop :=
  match gcolours g with
  | None => True
  | Some c => value a (colour t) < c /\ value a (colour_ux t) < c /\ value a (colour_uy t) < c
  end.

Lemma colour_clauses_sat g a p : wf_grid g -> inside (garea g) p ->
  exists cs, colour_clauses g (tile_at g p) = Some cs /\ (sat a cs = true <-> colour_rule g a (tile_at g p)).
Proof.
  intros W I. pose proof (tile_at_ok g p W I) as V. unfold colour_clauses, colour_rule.
  destruct W as (_ & _ & Wc & _). destruct (gcolours g) as [c|] eqn:Ec; [|exists []; split; [reflexivity|tauto]].
  destruct (colour_len g p) as (L1 & L2 & L3). pose proof (colour_fits c Wc) as Fc.
  assert (Eb : colour_bits g = Z.to_nat (bit_length (c - 1))) by (unfold colour_bits; rewrite Ec; reflexivity).
  rewrite <- Eb in Fc.
  assert (X : forall ls, len ls = Z.of_nat (colour_bits g) -> Forall nonzero ls ->
    exists cs, set_maximum (c - 1) ls = Some cs /\ (sat a cs = true <-> value a ls < c)).
  { intros ls L N. rewrite <- L in Fc. apply set_maximum_some in Fc. destruct Fc as [cs E]. exists cs. split; [exact E|].
    destruct (set_maximum_spec _ _ _ N E) as [_ S]. rewrite S. lia. }
  destruct (X _ L1 (ok_c _ V)) as (c1 & E1 & S1). destruct (X _ L2 (ok_cx _ V)) as (c2 & E2 & S2).
  destruct (X _ L3 (ok_cy _ V)) as (c3 & E3 & S3).
  unfold oflat. cbn [omap obind]. rewrite E1. cbn [obind]. rewrite E2. cbn [obind]. rewrite E3. cbn [obind].
  eexists. split; [reflexivity|]. cbn [concat]. rewrite !sat_app_iff, sat_nil, S1, S2, S3. tauto.
Qed.

(** ** Splitter pairing *)
Section Views.
  Variable g : grid.
  Hypothesis W : wf_grid g.
  Variable a : assignment.
  Notation A := (garea g).
  Notation V p := (view_of a (tile_at g p)).

  Lemma offset_ahead p d k : get_tile_instance_offset (geo g) (fst p) (snd p) (dx d * k) (dy d * k) = ahead A p d k.
  Proof.
    rewrite offset_place by apply W. unfold ahead. rewrite dx_step, dy_step. f_equal. f_equal; lia.
  Qed.
  Lemma offset_neighbour p d : get_tile_instance_offset (geo g) (fst p) (snd p) (dx d) (dy d) = neighbour A p d.
  Proof. unfold neighbour. rewrite <- offset_ahead. f_equal; lia. Qed.
  Lemma offset_back p d : get_tile_instance_offset (geo g) (fst p) (snd p) (- dx d) (- dy d) = neighbour A p (opposite d).
  Proof. rewrite <- offset_neighbour. f_equal; destruct d; reflexivity. Qed.

  Lemma lines_sat (F : (Z * Z) * option (Z * Z) -> cnf) d :
    sat a (flat_map F (iterate_tile_lines2 (geo g) (dir_vec d))) = true <->
    forall p, inside A p -> sat a (F (p, neighbour A p d)) = true.
  Proof.
    rewrite sat_flat_map. split.
    - intros H p Hp. apply H. apply iterate_tile_lines2_in; [apply W|]. exists p. split; [exact Hp|].
      f_equal. unfold neighbour, ahead. rewrite vec_step. cbn [fst snd]. f_equal. f_equal; lia.
    - intros H l Hl. apply iterate_tile_lines2_in in Hl; [|apply W]. destruct Hl as (p & Hp & ->).
      specialize (H p Hp). unfold neighbour, ahead in H. rewrite vec_step. cbn [fst snd].
      rewrite !Z.mul_1_l in H. exact H.
  Qed.

  Lemma tiles_sat (F : Z * Z -> cnf) :
    sat a (flat_map F (iterate_tiles (geo g))) = true <-> forall p, inside A p -> sat a (F p) = true.
  Proof. rewrite sat_flat_map. split; intros H p Hp; apply H; apply iterate_tiles_in; exact Hp. Qed.

  Lemma dirs_sat (F : dir -> cnf) : sat a (flat_map F directions) = true <-> forall d, sat a (F d) = true.
  Proof. rewrite sat_flat_map. split; intros H d; [apply H; apply directions_all|intros _; apply H]. Qed.

  (** A tile looks in direction [d] when it has an input or output there. *)
  Definition faces (v : view) (d : dir) : Prop := vi v d = true \/ vo v d = true.

  Definition pair_rule (p : Z * Z) (d : dir) : Prop :=
    match neighbour A p (anticlockwise d) with
    | None =>
        (faces (V p) d -> vs (V p) = true -> vh (V p) = false) /\
        (faces (V p) (opposite d) -> vs (V p) = true -> vh (V p) = true)
    | Some q =>
        (faces (V p) d -> vh (V p) = true -> vs (V q) = true /\ vh (V q) = false /\ faces (V q) d) /\
        (faces (V p) (opposite d) -> vs (V p) = true -> vh (V p) = false -> vh (V q) = true /\ faces (V q) (opposite d))
    end.

  Lemma splitter_line_sat p d : inside A p ->
    (sat a (splitter_line g d (p, neighbour A p (next d))) = true <-> pair_rule p d).
  Proof.
    intros Hp. pose proof (tile_at_ok g p W Hp) as Op. unfold pair_rule, splitter_line. cbn [fst snd].
    rewrite next_ac. destruct (neighbour A p (anticlockwise d)) as [q|] eqn:En.
    - assert (Hq : inside A q) by (eapply ahead_inside; exact En). pose proof (tile_at_ok g q W Hq) as Oq.
      unfold splitter_side. rewrite !sat_app_iff, reverse_opp.
      rewrite !sat_implies2 by (apply Op || apply Oq).
      rewrite !sat_implies3 by (try apply Op; try apply Oq; pose proof (ok_h _ Op); lia).
      rewrite !sat_cons_iff, !sat_nil, !satc_cons_iff, !satc_nil.
      rewrite !evl_neg_iff by (apply Op || apply Oq).
      unfold faces. cbn [view_of vb ve vs vui vuo vh vi vo vu vinp voutp].
      split.
      + intros ((A1 & A2 & A3 & A4) & (B1 & B2 & B3 & B4)). split.
        * intros [E|E] Hh; [specialize (A1 E Hh); specialize (A3 E Hh); clear - A1 A3|specialize (B1 E Hh); specialize (B3 E Hh); clear - B1 B3];
            intuition congruence.
        * intros [E|E] Hs Hh; [specialize (A2 E Hs Hh); specialize (A4 E Hs Hh); clear - A2 A4|specialize (B2 E Hs Hh); specialize (B4 E Hs Hh); clear - B2 B4];
            intuition congruence.
      + intros (H1 & H2).
        assert (K1 : forall x, evl a (x (tile_at g p) d) = true -> (x = input_dir \/ x = output_dir) -> evl a (is_splitter_head (tile_at g p)) = true -> 
          evl a (is_splitter (tile_at g q)) = true /\ evl a (is_splitter_head (tile_at g q)) = false /\
          (evl a (input_dir (tile_at g q) d) = true \/ evl a (output_dir (tile_at g q) d) = true)).
        { intros x E [-> | ->] Hh; apply H1; auto. }
        assert (K2 : forall x, evl a (x (tile_at g p) (opposite d)) = true -> (x = input_dir \/ x = output_dir) ->
          evl a (is_splitter (tile_at g p)) = true -> evl a (is_splitter_head (tile_at g p)) = false -> 
          evl a (is_splitter_head (tile_at g q)) = true /\
          (evl a (input_dir (tile_at g q) (opposite d)) = true \/ evl a (output_dir (tile_at g q) (opposite d)) = true)).
        { intros x E [-> | ->] Hs Hh; apply H2; auto. }
        clear H1 H2.
        repeat split; intros; first [ destruct (K1 input_dir) as (X1 & X2 & X3); [assumption|auto|assumption|clear - X1 X2 X3]
          | destruct (K1 output_dir) as (X1 & X2 & X3); [assumption|auto|assumption|clear - X1 X2 X3]
          | destruct (K2 input_dir) as (X1 & X2); [assumption|auto|assumption|assumption|clear - X1 X2]
          | destruct (K2 output_dir) as (X1 & X2); [assumption|auto|assumption|assumption|clear - X1 X2]]; tauto.
    - rewrite !sat_cons_iff, !sat_nil, !satc_cons_iff, !satc_nil, reverse_opp.
      rewrite !evl_neg_iff by (apply Op).
      assert (K : forall x y z : bool, (x = false \/ y = false \/ z = false \/ false = true) <-> (x = true -> y = true -> z = false))
        by (intros [] [] []; intuition congruence).
      assert (K' : forall x y z : bool, (x = false \/ y = false \/ z = true \/ false = true) <-> (x = true -> y = true -> z = true))
        by (intros [] [] []; intuition congruence).
      rewrite !K, !K'. unfold faces. cbn [view_of vb ve vs vui vuo vh vi vo vu vinp voutp]. clear. split.
      + intros (H1 & H2 & H3 & H4 & _). split; intros [E|E]; auto.
      + intros (H1 & H2). repeat split; auto.
  Qed.

  Lemma splitter_clauses_sat : sat a (splitter_clauses g) = true <-> forall p d, inside A p -> pair_rule p d.
  Proof.
    unfold splitter_clauses. rewrite dirs_sat. split.
    - intros H p d Hp. apply splitter_line_sat; [exact Hp|]. specialize (H d). rewrite lines_sat in H. auto.
    - intros H d. apply lines_sat. intros p Hp. apply splitter_line_sat; auto.
  Qed.

  (** ** Input and output flags *)
  Definition flag_rule (f : bool) (b : dir -> bool) (ds : list dir) : Prop := f = existsb b ds.

  Lemma flag_clauses_sat fl (f : dir -> lit) ds : fl <> 0 -> (forall d, f d <> 0) ->
    (sat a (flag_clauses fl (map f ds)) = true <-> flag_rule (evl a fl) (fun d => evl a (f d)) ds).
  Proof.
    intros H1 H2. unfold flag_clauses, flag_rule. rewrite sat_app_iff, sat_flat_map, sat_implies1, sat_one, satc_map by assumption.
    split.
    - intros [E1 E2]. destruct (existsb _ ds) eqn:Ex.
      + apply existsb_exists in Ex. destruct Ex as (d & Hd & Ed). specialize (E2 (f d) (in_map f ds d Hd)).
        rewrite sat_implies1, sat_one, satc_one in E2 by apply H2. auto.
      + destruct (evl a fl) eqn:Ef; [|reflexivity]. destruct (E1 eq_refl) as (d & Hd & Ed).
        assert (existsb (fun d => evl a (f d)) ds = true) by (apply existsb_exists; eauto). congruence.
    - intros E. split.
      + intros Ef. rewrite E in Ef. apply existsb_exists in Ef. destruct Ef as (d & Hd & Ed). eauto.
      + intros l Hl. apply in_map_iff in Hl. destruct Hl as (d & <- & Hd). rewrite sat_implies1, sat_one, satc_one by apply H2.
        intros Ed. rewrite E. apply existsb_exists. eauto.
  Qed.

  (** The sides of a tile that the constructor treats as open to the outside:
      directions in which an input arrives. *)
  Definition in_sides (p : Z * Z) : list dir :=
    let '(x, y) := p in
    if x =? 0 then if y =? 0 then [RIGHT; DOWN] else if y =? height (geo g) - 1 then [RIGHT; UP] else [RIGHT]
    else if x =? width (geo g) - 1 then if y =? 0 then [LEFT; DOWN] else if y =? height (geo g) - 1 then [LEFT; UP] else [LEFT]
    else if y =? 0 then [DOWN] else if y =? height (geo g) - 1 then [UP] else [].

  Definition edge_rule (p : Z * Z) : Prop :=
    flag_rule (vinp (V p)) (vi (V p)) (in_sides p) /\
    flag_rule (voutp (V p)) (vo (V p)) (map opposite (in_sides p)).

  Lemma edge_clauses_sat p : inside A p -> (sat a (edge_clauses_at g p) = true <-> edge_rule p).
  Proof.
    intros Hp. pose proof (tile_at_ok g p W Hp) as Op. unfold edge_clauses_at, edge_rule, in_sides. destruct p as [x y].
    assert (X : forall ins outs, outs = map opposite ins ->
      (sat a (edge_flags (tile_at g (x, y)) ins outs) = true <->
        flag_rule (vinp (V (x, y))) (vi (V (x, y))) ins /\ flag_rule (voutp (V (x, y))) (vo (V (x, y))) (map opposite ins))).
    { intros ins outs ->. unfold edge_flags. rewrite sat_app_iff, !flag_clauses_sat by apply Op. reflexivity. }
    destruct (x =? 0); [destruct (y =? 0); [|destruct (y =? height (geo g) - 1)]; apply X; reflexivity|].
    destruct (x =? width (geo g) - 1); [destruct (y =? 0); [|destruct (y =? height (geo g) - 1)]; apply X; reflexivity|].
    destruct (y =? 0); [apply X; reflexivity|]. destruct (y =? height (geo g) - 1); [apply X; reflexivity|].
    rewrite !sat_cons_iff, sat_nil, !satc_neg_one by apply Op. unfold flag_rule. cbn. tauto.
  Qed.

  (** ** The constructor *)
  Definition grid_rules : Prop :=
    (forall p, inside A p -> tile_rules (V p) /\ colour_rule g a (tile_at g p) /\ edge_rule p) /\
    forall p d, inside A p -> pair_rule p d.

  Lemma init_sat : exists cs, init_clauses g = Some cs /\ (sat a cs = true <-> grid_rules).
  Proof.
    assert (E : exists cs, oflat (fun p => let* cc := colour_clauses g (tile_at g p) in
                             Some (tile_clauses (tile_at g p) ++ cc)%list) (iterate_tiles (geo g)) = Some cs).
    { apply oflat_some. intros p Hp. apply iterate_tiles_in in Hp.
      destruct (colour_clauses_sat g a p W Hp) as (cc & -> & _). eexists; reflexivity. }
    destruct E as [cs E]. unfold init_clauses. rewrite E. cbn [obind].
    destruct W as ((Hw & Hh) & Ht & Hc & Hl).
    replace (match gcolours g with None => true | Some c => 1 <=? c end) with true
      by (destruct (gcolours g); [symmetry; apply Z.leb_le; exact Hc|reflexivity]).
    replace (match glen g with None => true | Some l => 0 <=? l end) with true
      by (destruct (glen g); [symmetry; apply Z.leb_le; exact Hl|reflexivity]).
    apply Z.ltb_lt in Hw. apply Z.ltb_lt in Hh. rewrite Hw, Hh. cbn [andb negb].
    eexists. split; [reflexivity|].
    rewrite !sat_app_iff, splitter_clauses_sat, (sat_oflat a _ _ _ E), tiles_sat. unfold grid_rules. split.
    - intros (H1 & H2 & H3). split; [|exact H2]. intros p Hp.
      destruct (H1 p) as (c & Ec & Sc); [apply iterate_tiles_in; exact Hp|].
      destruct (colour_clauses_sat g a p W Hp) as (cc & Ecc & Scc). rewrite Ecc in Ec. cbn [obind] in Ec. apply Some_inj in Ec. subst c.
      rewrite sat_app_iff in Sc. destruct Sc as [S1 S2]. split; [apply tile_clauses_sat; [apply tile_at_ok|]; assumption|].
      split; [apply Scc; exact S2|]. apply edge_clauses_sat; auto.
    - intros (H1 & H2). split; [|split; [exact H2|]].
      + intros p Hp. apply iterate_tiles_in in Hp. destruct (H1 p Hp) as (R1 & R2 & R3).
        destruct (colour_clauses_sat g a p W Hp) as (cc & Ecc & Scc). rewrite Ecc. cbn [obind]. eexists. split; [reflexivity|].
        rewrite sat_app_iff. split; [apply tile_clauses_sat; [apply tile_at_ok|]; assumption|apply Scc; exact R2].
      + intros p Hp. apply edge_clauses_sat; [exact Hp|]. apply H1. exact Hp.
  Qed.

  (** ** Intersection *)
  Definition link_rule (p : Z * Z) (d : dir) : Prop :=
    match neighbour A p d with
    | None => True
    | Some q =>
        vo (V p) d = vi (V q) d /\
        (vi (V p) d = true -> vs (V p) = true -> vs (V q) = false ->
         forall i o, vi (V q) i = true -> vo (V q) o = true -> i <> d ->
           ((i = anticlockwise d \/ i = clockwise d) /\ (o = i \/ o = d)) \/
           (i = opposite d /\ (o = anticlockwise d \/ o = clockwise d)) -> False)
    end.

  Lemma intersection_sat : sat a (prevent_intersection g) = true <-> forall p d, inside A p -> link_rule p d.
  Proof.
    unfold prevent_intersection. rewrite dirs_sat.
    assert (X : forall p d, inside A p -> (sat a (intersection_line g d (p, neighbour A p d)) = true <-> link_rule p d)).
    { intros p d Hp. pose proof (tile_at_ok g p W Hp) as Op. unfold intersection_line, link_rule. cbn [fst snd].
      destruct (neighbour A p d) as [q|] eqn:En; [|split; reflexivity].
      assert (Hq : inside A q) by (eapply ahead_inside; exact En). pose proof (tile_at_ok g q W Hq) as Oq.
      rewrite sat_app_iff, literals_same_sat, eqb_true_iff by (apply Op || apply Oq).
      rewrite sat_implies3 by (try apply Op; try apply Oq; pose proof (ok_s _ Oq); lia).
      rewrite !sat_cons_iff, !sat_nil, !satc_cons_iff, !satc_nil.
      rewrite !evl_neg_iff by (apply Oq). rewrite next_ac, prev_c, reverse_opp.
      cbn [view_of vb ve vs vui vuo vh vi vo vu vinp voutp].
      split; intros [E H]; (split; [exact E|]).
      - intros E1 E2 E3 i o Ei Eo Hne Hc. specialize (H E1 E2 E3).
        destruct Hc as [[[->| ->] [->| ->]]|[-> [->| ->]]]; rewrite ?Ei, ?Eo in H; intuition congruence.
      - intros E1 E2 E3. specialize (H E1 E2 E3).
        assert (Y : forall i o, i <> d -> ((i = anticlockwise d \/ i = clockwise d) /\ (o = i \/ o = d)) \/
           (i = opposite d /\ (o = anticlockwise d \/ o = clockwise d)) ->
           evl a (input_dir (tile_at g q) i) = false \/ evl a (output_dir (tile_at g q) o) = false \/ false = true).
        { intros i o Hn Hc. destruct (evl a (input_dir (tile_at g q) i)) eqn:Ei; [|auto].
          destruct (evl a (output_dir (tile_at g q) o)) eqn:Eo; [|auto]. exfalso. apply (H i o); assumption. }
        assert (Na : anticlockwise d <> d) by (destruct d; discriminate).
        assert (Nc : clockwise d <> d) by (destruct d; discriminate).
        assert (No : opposite d <> d) by (destruct d; discriminate).
        repeat split; apply Y; tauto. }
    split.
    - intros H p d Hp. specialize (H d). rewrite lines_sat in H. apply X; auto.
    - intros H d. apply lines_sat. intros p Hp. apply X; auto.
  Qed.

  (** ** Undergrounds *)
  Definition under_rule (p : Z * Z) (d : dir) : Prop :=
    ((vui (V p) = true -> vi (V p) d = true -> vu (V p) d = false /\ vu (V p) (opposite d) = false) /\
     (vuo (V p) = true -> vo (V p) d = true -> vu (V p) d = false /\ vu (V p) (opposite d) = false)) /\
    (forall q, neighbour A p d = Some q ->
       (vui (V p) = true -> vi (V p) d = true -> vu (V q) d = true) /\
       (vu (V p) d = true -> vu (V q) d = false -> vuo (V q) = true /\ vo (V q) d = true)) /\
    (forall q, neighbour A p (opposite d) = Some q ->
       (vuo (V p) = true -> vo (V p) d = true -> vu (V q) d = true) /\
       (vu (V p) d = true -> vu (V q) d = false -> vui (V q) = true /\ vi (V q) d = true)).

  Lemma undergrounding_sat : sat a (prevent_bad_undergrounding g) = true <-> forall p d, inside A p -> under_rule p d.
  Proof.
    unfold prevent_bad_undergrounding. rewrite dirs_sat.
    assert (X : forall p d, inside A p -> (sat a (undergrounding_at g d p) = true <-> under_rule p d)).
    { intros p d Hp. pose proof (tile_at_ok g p W Hp) as Op. unfold undergrounding_at, under_rule.
      rewrite offset_neighbour, offset_back, reverse_opp.
      rewrite !sat_app_iff, !sat_implies2 by apply Op. rewrite !sat_cons_iff, !sat_nil, !satc_neg_one by apply Op.
      cbn [view_of vb ve vs vui vuo vh vi vo vu vinp voutp].
      assert (F : forall q e, neighbour A p e = Some q -> vars_ok (tile_at g q)).
      { intros q e En. apply tile_at_ok; [exact W|]. eapply ahead_inside; exact En. }
      assert (M : forall e (C : Z * Z -> cnf) (P : Z * Z -> Prop),
        (forall q, neighbour A p e = Some q -> (sat a (C q) = true <-> P q)) ->
        (sat a (match neighbour A p e with Some q => C q | None => [] end) = true <->
         forall q, neighbour A p e = Some q -> P q)).
      { intros e C P HP. destruct (neighbour A p e) as [q|].
        - rewrite (HP q eq_refl). split; [intros H r [= <-]; exact H|intros H; apply H; reflexivity].
        - split; [intros _ r [=]|reflexivity]. }
      rewrite !(M _ _ _ (fun q E => iff_refl _)).
      split.
      - intros (H1 & H2 & H3 & H4 & H5 & H6). split; [tauto|]. split.
        + intros q En. pose proof (F q _ En) as Oq. specialize (H3 q En). specialize (H5 q En).
          rewrite sat_implies2, sat_one, satc_one in H3 by apply Op.
          rewrite sat_implies2, !sat_cons_iff, !satc_one, evl_neg_iff in H5 by (try apply Op; try apply Oq; pose proof (ok_u _ Oq d); lia).
          tauto.
        + intros q En. pose proof (F q _ En) as Oq. specialize (H4 q En). specialize (H6 q En).
          rewrite sat_implies2, sat_one, satc_one in H4 by apply Op.
          rewrite sat_implies2, !sat_cons_iff, !satc_one, evl_neg_iff in H6 by (try apply Op; try apply Oq; pose proof (ok_u _ Oq d); lia).
          tauto.
      - intros ((H1 & H1') & H2 & H3). repeat split.
        1-8: try (apply H1; assumption); try (apply H1'; assumption).
        + intros q En. rewrite sat_implies2, sat_one, satc_one by apply Op. apply H2. exact En.
        + intros q En. rewrite sat_implies2, sat_one, satc_one by apply Op. apply H3. exact En.
        + intros q En. pose proof (F q _ En) as Oq.
          rewrite sat_implies2, !sat_cons_iff, !satc_one, evl_neg_iff by (try apply Op; try apply Oq; pose proof (ok_u _ Oq d); lia).
          destruct (H2 q En). rewrite sat_nil. tauto.
        + intros q En. pose proof (F q _ En) as Oq.
          rewrite sat_implies2, !sat_cons_iff, !satc_one, evl_neg_iff by (try apply Op; try apply Oq; pose proof (ok_u _ Oq d); lia).
          destruct (H3 q En). rewrite sat_nil. tauto. }
    split.
    - intros H p d Hp. specialize (H d). rewrite tiles_sat in H. apply X; auto.
    - intros H d. apply tiles_sat. intros p Hp. apply X; auto.
  Qed.

  (** ** Maximum underground length *)
  Definition length_rule : Prop :=
    match glen g with
    | None => True
    | Some l => forall p d, inside A p ->
        ~ forall i, 0 <= i <= l -> exists q, ahead A p d i = Some q /\ vu (V q) d = true
    end.

  Lemma length_clause_sat l d p :
    match length_clause g l d p with
    | Some c => (forall i, 0 <= i <= l -> exists q, ahead A p d i = Some q) /\
                (satc a c = true <-> exists i q, 0 <= i <= l /\ ahead A p d i = Some q /\ vu (V q) d = false)
    | None => exists i, 0 <= i <= l /\ ahead A p d i = None
    end.
  Proof.
    unfold length_clause.
    assert (X : forall ks, match omap (fun i => let* q := get_tile_instance_offset (geo g) (fst p) (snd p) (dx d * i) (dy d * i) in
                 Some (- underground (tile_at g q) d)) ks with
      | Some c => (forall i, In i ks -> exists q, ahead A p d i = Some q) /\
                (satc a c = true <-> exists i q, In i ks /\ ahead A p d i = Some q /\ vu (V q) d = false)
      | None => exists i, In i ks /\ ahead A p d i = None end).
    { induction ks as [|k ks IH]; cbn [omap].
      - split; [intros i []|]. rewrite satc_nil. split; [discriminate|intros (i & q & [] & _)].
      - rewrite offset_ahead. destruct (ahead A p d k) as [q|] eqn:Ek; cbn [obind]; [|exists k; split; [left; reflexivity|exact Ek]].
        destruct (omap _ ks) as [c|]; cbn [obind]; [|destruct IH as (i & Hi & Ei); exists i; split; [right; exact Hi|exact Ei]].
        destruct IH as [I1 I2]. assert (Hq : inside A q) by (eapply ahead_inside; exact Ek).
        pose proof (tile_at_ok g q W Hq) as Oq. split.
        + intros i [<-|Hi]; [eauto|auto].
        + rewrite satc_cons_iff, evl_neg_iff, I2 by apply Oq. split.
          * intros [E|(i & r & Hi & Er & Ur)]; [exists k, q; cbn; auto|exists i, r; cbn; auto].
          * intros (i & r & [<-|Hi] & Er & Ur); [left; rewrite Ek in Er; injection Er as <-; exact Ur|right; eauto]. }
    specialize (X (range (l + 1))). destruct (omap _ _) as [c|].
    - destruct X as [X1 X2]. split.
      + intros i Hi. apply X1. apply range_in. lia.
      + rewrite X2. split; intros (i & q & Hi & H); exists i, q; (split; [|exact H]); [apply range_in in Hi; lia|apply range_in; lia].
    - destruct X as (i & Hi & E). exists i. apply range_in in Hi. split; [lia|exact E].
  Qed.

  Lemma length_sat cs : enforce_maximum_underground_length g = Some cs -> (sat a cs = true <-> length_rule).
  Proof.
    unfold enforce_maximum_underground_length, length_rule. destruct (glen g) as [l|]; [|intros [= <-]; cbn; tauto].
    destruct (Z.leb_spec 1 l) as [Hl|]; [|discriminate]. cbn [negb]. intros E. apply Some_inj in E. subst cs. rewrite dirs_sat.
    assert (X : forall p d, (sat a (match length_clause g l d p with Some c => [c] | None => [] end) = true <->
        ~ forall i, 0 <= i <= l -> exists q, ahead A p d i = Some q /\ vu (V q) d = true)).
    { intros p d. pose proof (length_clause_sat l d p) as L. destruct (length_clause g l d p) as [c|].
      - destruct L as [L1 L2]. rewrite sat_one, L2. split.
        + intros (i & q & Hi & Eq & Uq) C. destruct (C i Hi) as (q' & Eq' & Uq'). congruence.
        + intros N. destruct (satc a c) eqn:Ec; [apply L2; reflexivity|]. exfalso. apply N. intros i Hi.
          destruct (L1 i Hi) as [q Eq]. exists q. split; [exact Eq|].
          destruct (vu (V q) d) eqn:U; [reflexivity|]. assert (false = true); [|discriminate]. apply L2. eauto.
      - rewrite sat_nil. split; [|reflexivity]. intros _ C. destruct L as (i & Hi & E). destruct (C i Hi) as (q & Eq & _). congruence. }
    split.
    - intros H p d Hp. specialize (H d). rewrite tiles_sat in H. apply X. auto.
    - intros H d. apply tiles_sat. intros p Hp. apply X. auto.
  Qed.

  (** ** Blocking the edges *)
  (** The tile at [p] has a blocked edge of the grid next to it in direction [d]. *)
  Definition at_edge (e : edges) (p : Z * Z) (d : dir) : Prop :=
    let '(min_x, min_y, max_x, max_y) := expand_edges e in
    match d with
    | LEFT => min_x = true /\ fst p = 0
    | RIGHT => max_x = true /\ fst p = width (geo g) - 1
    | UP => min_y = true /\ snd p = 0
    | DOWN => max_y = true /\ snd p = height (geo g) - 1
    end.

  Lemma edges_sat e (F : Z * Z -> dir -> cnf) :
    sat a ((let '(min_x, min_y, max_x, max_y) := expand_edges e in
      let w := width (geo g) in let h := height (geo g) in
      ((if min_x then flat_map (fun y => F (0, y) LEFT) (range h) else []) ++
       (if max_x then flat_map (fun y => F (w - 1, y)%Z RIGHT) (range h) else []) ++
       (if min_y then flat_map (fun x => F (x, 0) UP) (range w) else []) ++
       (if max_y then flat_map (fun x => F (x, h - 1)%Z DOWN) (range w) else [])))%list) = true <->
    forall p d, inside A p -> at_edge e p d -> sat a (F p d) = true.
  Proof.
    unfold at_edge. destruct (expand_edges e) as [[[mx my] Mx] My]. cbn zeta. rewrite !sat_app_iff.
    destruct W as [[Ww Wh] _].
    assert (X : forall (b : bool) n (G : Z -> cnf), sat a (if b then flat_map G (range n) else []) = true <->
      (b = true -> forall i, 0 <= i < n -> sat a (G i) = true)).
    { intros b n G. destruct b.
      - rewrite sat_flat_map. split; [intros H _ i Hi; apply H, range_in; exact Hi|intros H i Hi; apply H; [reflexivity|apply range_in; exact Hi]].
      - rewrite sat_nil. split; [intros _ [=]|reflexivity]. }
    rewrite !X. unfold inside. cbn [garea area_of aw ah]. split.
    - intros (H1 & H2 & H3 & H4) [x y] d [Hx Hy] E. cbn [fst snd] in *.
      destruct d; destruct E as [E ->]; auto.
    - intros H. repeat split; intros E i Hi; apply H; cbn [fst snd]; try lia; auto.
  Qed.

  Definition edge_under_rule (e : edges) : Prop := forall p d, inside A p -> at_edge e p d ->
    (vu (V p) d = false /\ vu (V p) (opposite d) = false) /\
    (vi (V p) d = true -> vui (V p) = false) /\ (vo (V p) (opposite d) = true -> vuo (V p) = false).

  Lemma block_underground_sat e : sat a (block_underground_through_edges g e) = true <-> edge_under_rule e.
  Proof.
    unfold block_underground_through_edges.
    pose (F := fun p d => block_underground_at (tile_at g p) (match d with RIGHT | LEFT => [RIGHT; LEFT] | _ => [UP; DOWN] end) d).
    pose proof (edges_sat e F) as E. unfold F in E. cbn match in E. rewrite E. clear E F.
    unfold edge_under_rule.
    assert (X : forall p d, inside A p -> (sat a (block_underground_at (tile_at g p) (match d with RIGHT | LEFT => [RIGHT; LEFT] | _ => [UP; DOWN] end) d) = true <->
      (vu (V p) d = false /\ vu (V p) (opposite d) = false) /\
      (vi (V p) d = true -> vui (V p) = false) /\ (vo (V p) (opposite d) = true -> vuo (V p) = false))).
    { intros p d Hp. pose proof (tile_at_ok g p W Hp) as Op. unfold block_underground_at.
      rewrite !sat_app_iff, sat_false_map, !sat_implies1, !sat_one, !satc_neg_one, reverse_opp by apply Op.
      cbn [view_of vb ve vs vui vuo vh vi vo vu vinp voutp].
      enough ((forall d0, In d0 match d with RIGHT | LEFT => [RIGHT; LEFT] | _ => [UP; DOWN] end -> evl a (underground (tile_at g p) d0) = false) <->
        (evl a (underground (tile_at g p) d) = false /\ evl a (underground (tile_at g p) (opposite d)) = false)) by tauto.
      split.
      - intros H. split; apply H; destruct d; cbn; tauto.
      - intros [H1 H2] f Hf. destruct d, f; cbn in *; try assumption; intuition congruence. }
    split; intros H p d Hp He; apply X; auto.
  Qed.

  Definition edge_belt_rule (e : edges) : Prop := forall p d, inside A p -> at_edge e p d ->
    (vi (V p) (opposite d) = false /\ vo (V p) d = false) /\
    (vi (V p) d = true -> exists f, vo (V p) f = true) /\ (vo (V p) (opposite d) = true -> exists f, vi (V p) f = true).

  Lemma block_belts_sat e : sat a (block_belts_through_edges g e) = true <-> edge_belt_rule e.
  Proof.
    unfold block_belts_through_edges.
    pose (F := fun p d => block_belts_at (tile_at g p) d).
    pose proof (edges_sat e F) as E. unfold F in E. rewrite E. clear E F.
    unfold edge_belt_rule.
    assert (X : forall p d, inside A p -> (sat a (block_belts_at (tile_at g p) d) = true <->
       (vi (V p) (opposite d) = false /\ vo (V p) d = false) /\
      (vi (V p) d = true -> exists f, vo (V p) f = true) /\ (vo (V p) (opposite d) = true -> exists f, vi (V p) f = true))).
    { intros p d Hp. pose proof (tile_at_ok g p W Hp) as Op. unfold block_belts_at.
      rewrite sat_app_iff. cbn [set_all_false map]. rewrite !sat_cons_iff, !sat_nil, !satc_neg_one, !satc_cons_iff, !evl_neg_iff, reverse_opp by apply Op.
      unfold outputs, inputs. rewrite !satc_dirs. cbn [view_of vb ve vs vui vuo vh vi vo vu vinp voutp].
      destruct (evl a (input_dir (tile_at g p) d)), (evl a (output_dir (tile_at g p) (opposite d))); intuition congruence. }
    split; intros H p d Hp He; apply X; auto.
  Qed.
End Views.
