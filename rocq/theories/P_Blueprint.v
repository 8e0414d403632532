(** Proofs about blueprint.py. *)
From Coq Require Import ZArith List Bool String Lia FinFun.
From Verif Require Import Spec_Tile Spec_Layout Spec_Transform Spec_Blueprint M_Json M_Tile M_Blueprint M_Rotate
  P_Tile P_Rotate P_Layout P_List.
Import ListNotations.
Open Scope Z_scope.

(** ** Cells *)
Lemma zrange_in n x : In x (zrange n) <-> 0 <= x < n.
Proof.
  unfold zrange. rewrite in_map_iff. split.
  - intros (k & <- & H). apply in_seq in H. lia.
  - intros H. exists (Z.to_nat x). split; [lia|]. apply in_seq. lia.
Qed.

Lemma cells_in w h p : In p (cells w h) <-> 0 <= fst p < w /\ 0 <= snd p < h.
Proof.
  unfold cells. rewrite in_flat_map. split.
  - intros (y & Hy & H). apply in_map_iff in H. destruct H as (x & <- & Hx).
    apply zrange_in in Hx, Hy. auto.
  - intros [Hx Hy]. exists (snd p). split; [apply zrange_in; assumption|].
    apply in_map_iff. exists (fst p). split; [destruct p; reflexivity|apply zrange_in; assumption].
Qed.

Lemma zrange_S n : 0 <= n -> zrange (n + 1) = 0 :: map (Z.add 1) (zrange n).
Proof.
  intros H. unfold zrange. replace (Z.to_nat (n + 1)) with (S (Z.to_nat n)) by lia.
  cbn [seq map]. f_equal. rewrite <- seq_shift, !map_map. apply map_ext. intros. lia.
Qed.

Lemma enum_row_eq y r : forall x, enum_row x y r =
  map (fun i => ((x + i, y), nth (Z.to_nat i) r Empty)) (zrange (Z.of_nat (List.length r))).
Proof.
  induction r as [|t r IH]; intros x; [reflexivity|].
  cbn [enum_row List.length]. rewrite Nat2Z.inj_succ. rewrite <- Z.add_1_r, zrange_S by lia.
  cbn [map]. f_equal; [rewrite Z.add_0_r; reflexivity|]. rewrite IH, map_map. apply map_ext_in. intros i Hi.
  apply zrange_in in Hi. replace (Z.to_nat (1 + i)) with (S (Z.to_nat i)) by lia. cbn [nth].
  replace (x + (1 + i)) with (x + 1 + i) by lia. reflexivity.
Qed.

Lemma enum_rows_eq w g : Forall (fun r => List.length r = w) g -> forall y, enum_rows y g =
  flat_map (fun j => map (fun i => ((i, y + j), nth (Z.to_nat i) (nth (Z.to_nat j) g []) Empty)) (zrange (Z.of_nat w)))
    (zrange (Z.of_nat (List.length g))).
Proof.
  induction 1 as [|r g Hr _ IH]; intros y; [reflexivity|].
  cbn [enum_rows List.length]. rewrite Nat2Z.inj_succ, <- Z.add_1_r, zrange_S by lia.
  cbn [flat_map]. f_equal.
  - rewrite enum_row_eq, Hr. apply map_ext. intros i. cbn [Z.to_nat nth]. rewrite Z.add_0_r. reflexivity.
  - rewrite IH. rewrite !flat_map_concat_map. apply f_equal. rewrite map_map. apply map_ext_in. intros j Hj.
    apply zrange_in in Hj. replace (Z.to_nat (1 + j)) with (S (Z.to_nat j)) by lia. cbn [nth].
    apply map_ext. intros i. replace (y + (1 + j)) with (y + 1 + j) by lia. reflexivity.
Qed.

Lemma flat_map_map {A B C} (f : B -> C) (g : A -> list B) l :
  map f (flat_map g l) = flat_map (fun x => map f (g x)) l.
Proof. induction l; cbn; [reflexivity|]. rewrite map_app. f_equal. assumption. Qed.

Lemma enum_grid_eq h w g : rect h w g ->
  enum_grid g = map (fun p => (p, layout_of g p)) (cells (Z.of_nat w) (Z.of_nat h)).
Proof.
  intros [H1 H2]. unfold enum_grid. rewrite (enum_rows_eq w g H2). rewrite H1. unfold cells.
  rewrite flat_map_map. rewrite !flat_map_concat_map. apply f_equal. apply map_ext. intros j.
  rewrite map_map. reflexivity.
Qed.

Lemma NoDup_zrange n : NoDup (zrange n).
Proof. unfold zrange. apply NoDup_map_inj; [intros; lia|apply seq_NoDup]. Qed.

Lemma NoDup_cells w h : NoDup (cells w h).
Proof.
  unfold cells. apply NoDup_flat_map; [apply NoDup_zrange| |].
  - intros y _. apply NoDup_map_inj; [congruence|apply NoDup_zrange].
  - intros x y b _ _ Hb Hc. apply in_map_iff in Hb, Hc. destruct Hb as (? & <- & _). destruct Hc as (? & E & _). congruence.
Qed.

(** ** Positions and dictionaries *)
Lemma pos_eqb_spec p q : reflect (p = q) (pos_eqb p q).
Proof.
  destruct p as [a b], q as [c d]. unfold pos_eqb. cbn [fst snd].
  destruct (Z.eqb_spec a c), (Z.eqb_spec b d); constructor; congruence.
Qed.

Lemma lookup_in {A} p (a : A) l : lookup p l = Some a -> In (p, a) l.
Proof.
  induction l as [|[q b] l IH]; cbn; [discriminate|].
  destruct (pos_eqb_spec p q) as [->|N]; [intros [= ->]; left; reflexivity|right; auto].
Qed.
Lemma lookup_none {A} p (l : list ((Z * Z) * A)) : lookup p l = None <-> forall a, ~ In (p, a) l.
Proof.
  induction l as [|[q b] l IH]; cbn; [split; auto|].
  destruct (pos_eqb_spec p q) as [->|N].
  - split; [discriminate|]. intros H. exfalso. apply (H b). left. reflexivity.
  - rewrite IH. split; intros H a.
    + intros [E|E]; [congruence|]. eapply H; eassumption.
    + intros C. eapply H. right. eassumption.
Qed.

Lemma fold_min l : forall a, (fold_left Z.min l a <= a /\ (forall x, In x l -> fold_left Z.min l a <= x)) /\
  (fold_left Z.min l a = a \/ In (fold_left Z.min l a) l).
Proof.
  induction l as [|b l IH]; intros a; cbn.
  - split; [split; [lia|intros x []]|left; reflexivity].
  - destruct (IH (Z.min a b)) as [[H1 H2] H3]. split.
    + split; [lia|]. intros x [<-|Hx]; [lia|auto].
    + destruct H3 as [H3|H3]; [|right; right; assumption].
      rewrite H3. destruct (Z.min_spec a b) as [[_ ->]|[_ ->]]; auto.
Qed.
Lemma fold_max l : forall a, (a <= fold_left Z.max l a /\ (forall x, In x l -> x <= fold_left Z.max l a)) /\
  (fold_left Z.max l a = a \/ In (fold_left Z.max l a) l).
Proof.
  induction l as [|b l IH]; intros a; cbn.
  - split; [split; [lia|intros x []]|left; reflexivity].
  - destruct (IH (Z.max a b)) as [[H1 H2] H3]. split.
    + split; [lia|]. intros x [<-|Hx]; [lia|auto].
    + destruct H3 as [H3|H3]; [|right; right; assumption].
      rewrite H3. destruct (Z.max_spec a b) as [[_ ->]|[_ ->]]; auto.
Qed.
Lemma min_list_some l : l <> [] -> exists m, min_list l = Some m /\ In m l /\ forall x, In x l -> m <= x.
Proof.
  destruct l as [|a l]; [contradiction|]. intros _. cbn [min_list]. destruct (fold_min l a) as [[H1 H2] H3].
  eexists. split; [reflexivity|]. split.
  - destruct H3 as [->|H3]; [left; reflexivity|right; assumption].
  - intros x [<-|Hx]; auto.
Qed.
Lemma max_list_some l : l <> [] -> exists m, max_list l = Some m /\ In m l /\ forall x, In x l -> x <= m.
Proof.
  destruct l as [|a l]; [contradiction|]. intros _. cbn [max_list]. destruct (fold_max l a) as [[H1 H2] H3].
  eexists. split; [reflexivity|]. split.
  - destruct H3 as [->|H3]; [left; reflexivity|right; assumption].
  - intros x [<-|Hx]; auto.
Qed.

(** ** Making entities *)
Definition straight (t : tile) : tile := match t with Belt _ o => Belt o o | other => other end.

(** What the entity of a cell is imported as. *)
Definition emits (c : (Z * Z) * tile) : list ((Z * Z) * tile) :=
  let '((x, y), t) := c in
  match t with
  | Empty | Filler | Assembler _ _ | Splitter _ false => []
  | Belt _ o => [((x, y), Belt o o)]
  | Splitter d true => [((x + step_x (anticlockwise d), y + step_y (anticlockwise d)), Splitter d false);
                        ((x, y), Splitter d true)]
  | other => [((x, y), other)]
  end.

Lemma from_factorio_key d : from_factorio (match dir_key d with Some f => f | None => 0 end) = Some d.
Proof. destruct d; reflexivity. Qed.

Lemma half x : (2 * x + 1) / 2 = x.
Proof. Z.div_mod_to_equations. lia. Qed.
Lemma half_plus x v : (2 * x + 1 + v + v) / 2 = x + v.
Proof. Z.div_mod_to_equations. lia. Qed.
Lemma half_minus x v : (2 * x + 1 + v - v) / 2 = x.
Proof. Z.div_mod_to_equations. lia. Qed.

Lemma tile_entity_emits l n c : blueprintable (snd c) ->
  exists oe, tile_entity l n c = Some oe /\
    match oe with
    | None => emits c = []
    | Some e => e_number e = n /\ import_entity e = Some (emits c) /\ emits c <> []
    end.
Proof.
  destruct c as [[x y] t]. cbn [snd]. intros HB. destruct t as [| |i o|d e|d e|d k|a b]; cbn [blueprintable] in HB.
  - eexists. split; [reflexivity|]. reflexivity.
  - eexists. split; [reflexivity|]. reflexivity.
  - eexists. split; [reflexivity|]. cbn [e_number]. split; [reflexivity|]. split; [|discriminate].
    unfold import_entity. cbn [e_name e_direction e_x2 e_y2 e_type obind]. rewrite from_factorio_key. cbn [obind].
    rewrite !half. destruct l, o; reflexivity.
  - eexists. split; [reflexivity|]. cbn [e_number]. split; [reflexivity|]. split; [|discriminate].
    unfold import_entity. cbn [e_name e_direction e_x2 e_y2 e_type obind]. rewrite from_factorio_key. cbn [obind].
    rewrite !half. destruct l, e; reflexivity.
  - destruct e; eexists; (split; [reflexivity|]); [|reflexivity].
    cbn [e_number]. split; [reflexivity|]. split; [|discriminate].
    unfold import_entity. cbn [e_name e_direction e_x2 e_y2 e_type obind]. rewrite from_factorio_key. cbn [obind].
    rewrite next_ac, dx_step, dy_step, vec_step. rewrite !half_plus, !half_minus.
    destruct l; reflexivity.
  - eexists. split; [reflexivity|]. cbn [e_number]. split; [reflexivity|]. split; [|discriminate].
    unfold import_entity. cbn [e_name e_direction e_x2 e_y2 e_type].
    destruct HB as [-> | ->]; cbn [Z.eqb Pos.eqb obind]; rewrite from_factorio_key; cbn [obind];
      rewrite !half; rewrite !reverse_opp; destruct d; reflexivity.
  - contradiction.
Qed.

Lemma make_entities_some l cs : Forall (fun c => blueprintable (snd c)) cs -> forall n acc,
  exists es, make_entities l n cs = Some es /\
    map e_number es = map (fun i => n + i) (zrange (Z.of_nat (List.length es))) /\
    import_entities acc es = Some (fold_left (fun a c => emits c ++ a) cs acc) /\
    (es = [] <-> forall c, In c cs -> emits c = []).
Proof.
  induction 1 as [|c cs Hc _ IH]; intros n acc; cbn [make_entities fold_left].
  - exists []. repeat split; auto. intros _ c [].
  - destruct (tile_entity_emits l n c Hc) as (oe & -> & HE). cbn [obind]. destruct oe as [e|].
    + destruct HE as (Hn & Hi & Hne). destruct (IH (n + 1) (emits c ++ acc)) as (es & -> & Hm & Hie & _).
      cbn [obind]. exists (e :: es). split; [reflexivity|]. split; [|split].
      * cbn [map List.length]. rewrite Hn, Hm. rewrite Nat2Z.inj_succ, <- Z.add_1_r, zrange_S by lia.
        cbn [map]. f_equal; [lia|]. rewrite map_map. apply map_ext. intros. lia.
      * cbn [import_entities]. rewrite Hi. cbn [obind]. exact Hie.
      * split; [discriminate|]. intros H. exfalso. apply Hne, H. left. reflexivity.
    + rewrite HE. cbn [app]. destruct (IH n acc) as (es & -> & Hm & Hie & Hz). exists es. repeat split; auto.
      * intros E c0 [<-|Hc0]; [exact HE|]. apply Hz; assumption.
      * intros H. apply Hz. intros c0 Hc0. apply H. right. exact Hc0.
Qed.

Lemma fold_emits_in cs x : forall acc,
  In x (fold_left (fun a c => emits c ++ a) cs acc) <-> In x acc \/ exists c, In c cs /\ In x (emits c).
Proof.
  induction cs as [|c cs IH]; intros acc; cbn [fold_left].
  - split; [auto|]. intros [H|(c & [] & _)]. assumption.
  - rewrite IH, in_app_iff. split.
    + intros [[H|H]|(c0 & H1 & H2)]; [right; exists c; split; [left; reflexivity|assumption]|left; assumption|].
      right. exists c0. split; [right; assumption|assumption].
    + intros [H|(c0 & [<-|H1] & H2)]; auto. right. eauto.
Qed.

(** ** The imported dictionary *)
Section Import.
  Variables (w h : Z) (T : layout).
  Let A := closed w h.
  Hypothesis HB : forall p, inside A p -> blueprintable (T p).
  Hypothesis HS : splitters_paired A T.

  Let cs := map (fun p => (p, T p)) (cells w h).
  Let D := fold_left (fun a c => emits c ++ a) cs [].

  Lemma cells_inside p : In p (cells w h) <-> inside A p.
  Proof. rewrite cells_in. reflexivity. Qed.

  Lemma closed_neighbour p d q : neighbour A p d = Some q <->
    q = (fst p + step_x d, snd p + step_y d) /\ inside A q.
  Proof.
    unfold neighbour, ahead, place. cbn [wrapx wrapy A closed fst snd]. rewrite !Z.mul_1_l.
    destruct (insideb A _) eqn:E; split.
    - intros [= <-]. split; [reflexivity|]. apply insideb_iff. exact E.
    - intros [-> _]. reflexivity.
    - discriminate.
    - intros [-> H]. apply insideb_iff in H. congruence.
  Qed.

  Lemma D_sound p t : In (p, t) D -> inside A p /\ ~ blank (T p) /\ t = straight (T p).
  Proof.
    intros H. apply fold_emits_in in H. destruct H as [[]|(c & Hc & He)].
    apply in_map_iff in Hc. destruct Hc as (q & <- & Hq). apply cells_inside in Hq.
    destruct q as [x y]. cbn [emits] in He.
    destruct (T (x, y)) as [| |i o|d e|d e|d k|a b] eqn:Tq; cbn in He; try contradiction.
    - destruct He as [[= <- <-]|[]]. rewrite Tq. cbn. auto.
    - destruct He as [[= <- <-]|[]]. rewrite Tq. cbn. auto.
    - destruct e; cbn in He; [|contradiction]. destruct He as [[= <- <-]|[[= <- <-]|[]]].
      + destruct (HS (x, y) d true Hq Tq) as (q & Hn & Hm). apply closed_neighbour in Hn.
        destruct Hn as [-> Hi]. cbn [fst snd mate_side] in *. rewrite Hm. cbn. auto.
      + rewrite Tq. cbn. auto.
    - destruct He as [[= <- <-]|[]]. rewrite Tq. cbn. auto.
  Qed.

  Lemma D_complete p : inside A p -> ~ blank (T p) -> exists t, In (p, t) D.
  Proof.
    intros Hp HN.
    assert (Own : forall t, In (p, t) (emits (p, T p)) -> exists t, In (p, t) D).
    { intros t Ht. exists t. apply fold_emits_in. right. exists (p, T p). split; [|assumption].
      apply in_map_iff. exists p. split; [reflexivity|apply cells_inside; assumption]. }
    destruct p as [x y]. destruct (T (x, y)) as [| |i o|d e|d e|d k|a b] eqn:Tp.
    - exfalso. apply HN. exact I.
    - exfalso. apply HN. exact I.
    - eapply Own. left. reflexivity.
    - eapply Own. left. reflexivity.
    - destruct e; [eapply Own; right; left; reflexivity|].
      destruct (HS (x, y) d false Hp Tp) as (q & Hn & Hm). apply closed_neighbour in Hn.
      destruct Hn as [-> Hi]. cbn [fst snd mate_side negb] in *.
      exists (Splitter d false). apply fold_emits_in. right.
      exists ((x + step_x (clockwise d), y + step_y (clockwise d)), Splitter d true). split.
      + apply in_map_iff. eexists. split; [|apply cells_inside; exact Hi]. cbn [fst snd]. rewrite Hm. reflexivity.
      + left. apply pair_equal_spec. split; [|reflexivity]. apply pair_equal_spec. destruct d; cbn; lia.
    - eapply Own. left. reflexivity.
    - specialize (HB (x, y) Hp). rewrite Tp in HB. contradiction.
  Qed.

  Lemma D_lookup p : lookup p D =
    if insideb A p then match T p with Empty | Filler => None | t => Some (straight t) end else None.
  Proof.
    destruct (lookup p D) as [t|] eqn:E.
    - apply lookup_in in E. apply D_sound in E. destruct E as (Hi & HN & ->).
      apply insideb_iff in Hi. rewrite Hi. destruct (T p); cbn in *; try reflexivity; tauto.
    - rewrite lookup_none in E. destruct (insideb A p) eqn:Ei; [|reflexivity].
      apply insideb_iff in Ei. destruct (T p) eqn:Tp; try reflexivity;
        (exfalso; destruct (D_complete p Ei) as (t & Ht); [rewrite Tp; tauto|eapply E; eassumption]).
  Qed.
End Import.

(** ** Resolving belt inputs *)
Lemma scan_inputs_spec f i :
  scan_inputs f all_dirs None = Some i <-> f i = true /\ forall d, f d = true -> d = i.
Proof.
  unfold all_dirs. cbn [scan_inputs]. split.
  - destruct (f RIGHT) eqn:E0, (f UP) eqn:E1, (f LEFT) eqn:E2, (f DOWN) eqn:E3; try discriminate;
      intros [= <-]; (split; [assumption|]); intros d; destruct d; congruence.
  - intros [H1 H2].
    destruct (f RIGHT) eqn:E0, (f UP) eqn:E1, (f LEFT) eqn:E2, (f DOWN) eqn:E3;
      try (pose proof (H2 RIGHT E0)); try (pose proof (H2 UP E1)); try (pose proof (H2 LEFT E2)); try (pose proof (H2 DOWN E3));
      try congruence; subst; try reflexivity; destruct i; congruence.
Qed.

Definition same_outputs (T T' : Z * Z -> tile) : Prop := forall q, output_direction (T q) = output_direction (T' q).

Lemma feeds_cell_ext T T' w h x y d : same_outputs T T' -> feeds_cell T w h x y d = feeds_cell T' w h x y d.
Proof. intros H. unfold feeds_cell. rewrite H. reflexivity. Qed.

Lemma scan_ext f f' ds : (forall d, f d = f' d) -> forall c, scan_inputs f ds c = scan_inputs f' ds c.
Proof. intros H. induction ds as [|d ds IH]; intros c; cbn; [reflexivity|]. rewrite H. destruct (f' d), c; auto. Qed.

Definition resolved (w h : Z) (T : Z * Z -> tile) (p : Z * Z) : tile :=
  match T p with
  | Belt _ o => Belt (match scan_inputs (feeds_cell T w h (fst p) (snd p)) all_dirs None with
                      | Some i => i | None => o end) o
  | t => t
  end.

Lemma resolve_cells_spec w h T0 ps : NoDup ps ->
  (forall p, In p ps -> valid_tile (resolved w h T0 p)) ->
  forall T, same_outputs T T0 -> (forall p, In p ps -> T p = T0 p) ->
  exists T', resolve_cells w h T ps = Some T' /\
    forall q, (In q ps -> T' q = resolved w h T0 q) /\ (~ In q ps -> T' q = T q).
Proof.
  induction 1 as [|p ps Hp N IH]; intros HV T HO HT; cbn [resolve_cells].
  - exists T. split; [reflexivity|]. intros q. split; [intros []|reflexivity].
  - assert (Tp : T p = T0 p) by (apply HT; left; reflexivity).
    assert (Step : exists T1, resolve_cell w h T p = Some T1 /\ T1 p = resolved w h T0 p /\
      (forall q, q <> p -> T1 q = T q) /\ same_outputs T1 T0).
    { unfold resolve_cell. pose proof (HV p (or_introl eq_refl)) as V. unfold resolved in *. rewrite Tp.
      destruct (T0 p) as [| |i o|d e|d e|d k|a b] eqn:E0; try (exists T; repeat split; auto; congruence).
      rewrite (scan_ext _ (feeds_cell T0 w h (fst p) (snd p))) by (intros d; apply feeds_cell_ext; assumption).
      rewrite mk_belt_some by exact V. cbn [obind].
      eexists. split; [reflexivity|]. split; [|split].
      - cbv beta. destruct (pos_eqb_spec p p); [reflexivity|contradiction].
      - intros q Hq. cbv beta. destruct (pos_eqb_spec q p); [contradiction|reflexivity].
      - intros q. cbv beta. destruct (pos_eqb_spec q p) as [->|Hq]; [rewrite E0; reflexivity|apply HO]. }
    destruct Step as (T1 & -> & E1 & E2 & E3). cbn [obind].
    destruct (IH (fun q Hq => HV q (or_intror Hq)) T1 E3) as (T' & -> & HT').
    { intros q Hq. rewrite E2 by (intros ->; contradiction). apply HT. right. assumption. }
    exists T'. split; [reflexivity|]. intros q. split.
    + intros [<-|Hq]; [|apply HT'; assumption]. rewrite (proj2 (HT' p) Hp). exact E1.
    + intros Hq. rewrite (proj2 (HT' q)) by (intros C; apply Hq; right; assumption).
      apply E2. intros ->. apply Hq. left. reflexivity.
Qed.

Lemma rows_of_rect w h T : 0 <= w -> 0 <= h -> rect (Z.to_nat h) (Z.to_nat w) (rows_of w h T).
Proof.
  intros Hw Hh. unfold rows_of, zrange. split.
  - rewrite !map_length, seq_length. reflexivity.
  - rewrite Forall_map. apply Forall_forall. intros y _. rewrite !map_length, seq_length. reflexivity.
Qed.

Lemma nth_zrange n i : 0 <= i < n -> nth (Z.to_nat i) (zrange n) 0 = i.
Proof.
  intros H. unfold zrange. change 0 with (Z.of_nat 0) at 1. rewrite map_nth, seq_nth by lia. lia.
Qed.

Lemma length_zrange n : List.length (zrange n) = Z.to_nat n.
Proof. unfold zrange. rewrite map_length, seq_length. reflexivity. Qed.

Lemma layout_rows_of w h T x y : 0 <= x < w -> 0 <= y < h -> layout_of (rows_of w h T) (x, y) = T (x, y).
Proof.
  intros Hx Hy. unfold layout_of, rows_of. cbn [fst snd].
  rewrite nth_indep with (d' := (fun y => map (fun x => T (x, y)) (zrange w)) 0)
    by (rewrite map_length, length_zrange; lia).
  rewrite (map_nth (fun y => map (fun x => T (x, y)) (zrange w))). rewrite nth_zrange by assumption.
  rewrite nth_indep with (d' := (fun x => T (x, y)) 0) by (rewrite map_length, length_zrange; lia).
  rewrite (map_nth (fun x => T (x, y))). rewrite nth_zrange by assumption. reflexivity.
Qed.

(** ** Round trip *)
Lemma output_pushes t d : (exists o, output_direction t = Some o /\ dir_eqb o d = true) <-> pushes t d.
Proof.
  destruct t as [| |i o|u e|u e|u e|a b]; cbn; try (split; [intros (x & [=] & _)|tauto]).
  - split; [intros (x & [= <-] & E)|intros ->; eexists; split; [reflexivity|apply dir_eqb_refl]].
    destruct (dir_eqb_spec o d); congruence.
  - destruct e; [split; [intros (x & [=] & _)|tauto]|].
    split; [intros (x & [= <-] & E)|intros ->; eexists; split; [reflexivity|apply dir_eqb_refl]].
    destruct (dir_eqb_spec u d); congruence.
  - split; [intros (x & [= <-] & E)|intros ->; eexists; split; [reflexivity|apply dir_eqb_refl]].
    destruct (dir_eqb_spec u d); congruence.
Qed.

Lemma output_straight t : output_direction (straight t) = output_direction t.
Proof. destruct t; reflexivity. Qed.

Lemma feeds_cell_iff T w h x y d : feeds_cell T w h x y d = true <->
  inside (closed w h) (x - step_x d, y - step_y d) /\ pushes (T (x - step_x d, y - step_y d)) d.
Proof.
  unfold feeds_cell. rewrite dx_step, dy_step. cbv zeta. rewrite <- output_pushes.
  unfold inside. cbn [closed aw ah fst snd].
  destruct (Z.ltb_spec (x - step_x d) 0), (Z.leb_spec w (x - step_x d)), (Z.ltb_spec (y - step_y d) 0),
    (Z.leb_spec h (y - step_y d)); cbn [orb];
    try (split; [discriminate|intros [? _]; lia]).
  destruct (output_direction _) as [o|]; split; try discriminate.
  - intros E. split; [lia|eauto].
  - intros (_ & x0 & [= <-] & E). exact E.
  - intros (_ & x0 & [=] & E).
Qed.

Lemma blueprint_round_trip l w h g : let A := closed w h in let T := layout_of g in
  rect (Z.to_nat h) (Z.to_nat w) g -> 0 < w -> 0 < h ->
  (forall p, inside A p -> blueprintable (T p)) -> splitters_paired A T -> inputs_inferred A T ->
  exists es, make_blueprint l g = Some es /\
    ((forall p, inside A p -> blank (T p)) -> import_blueprint es = Some []) /\
    ((exists p, inside A p /\ ~ blank (T p)) ->
     exists x0 y0 w' h' g', import_blueprint es = Some g' /\ 0 < w' /\ 0 < h' /\
       rect (Z.to_nat h') (Z.to_nat w') g' /\ bounding_box A T x0 y0 w' h' /\
       forall x y, 0 <= x < w' -> 0 <= y < h' -> layout_of g' (x, y) = unfill (T (x + x0, y + y0))).
Proof.
  intros A T R Hw Hh HB HS HI.
  set (cs := map (fun p => (p, T p)) (cells w h)).
  assert (Ecs : enum_grid g = cs).
  { rewrite (enum_grid_eq _ _ _ R). unfold cs. rewrite !Z2Nat.id by lia. reflexivity. }
  assert (Fcs : Forall (fun c => blueprintable (snd c)) cs).
  { unfold cs. rewrite Forall_map. apply Forall_forall. intros p Hp. cbn [snd]. apply HB. apply cells_in in Hp. exact Hp. }
  destruct (make_entities_some l cs Fcs 1 []) as (es & Em & _ & Ei & Ez).
  exists es. unfold make_blueprint. rewrite Ecs. split; [exact Em|].
  set (D := fold_left (fun a c => emits c ++ a) cs []) in *.
  assert (Dl := D_lookup w h T HB HS). fold A cs D in Dl.
  assert (Dc := D_complete w h T HB HS). fold A cs D in Dc.
  assert (Ds := D_sound w h T HS). fold A cs D in Ds.
  split.
  - intros Hbl. assert (es = []) as ->; [|reflexivity].
    apply Ez. intros c Hc. apply in_map_iff in Hc. destruct Hc as (p & <- & Hp).
    apply cells_in in Hp. specialize (Hbl p Hp). destruct p as [x y]. destruct (T (x, y)) eqn:E; cbn in Hbl; try contradiction;
      cbn [emits]; reflexivity.
  - intros (p0 & Hp0 & Hn0).
    destruct (Dc p0 Hp0 Hn0) as (t0 & Ht0).
    destruct es as [|e es'] eqn:Ees.
    { exfalso. assert (Hz := proj1 Ez eq_refl). apply fold_emits_in in Ht0. destruct Ht0 as [[]|(c & Hc & He)].
      rewrite (Hz c Hc) in He. exact He. }
    unfold import_blueprint. rewrite Ei. cbn [obind].
    assert (NE : forall {B} (f : (Z * Z) * tile -> B), map f D <> []).
    { intros B f E. apply map_eq_nil in E. rewrite E in Ht0. exact Ht0. }
    destruct (min_list_some (map (fun c => fst (fst c)) D) (NE _ _)) as (mx & -> & Imx & Lmx). cbn [obind].
    destruct (min_list_some (map (fun c => snd (fst c)) D) (NE _ _)) as (my & -> & Imy & Lmy). cbn [obind].
    set (D' := map (fun c => ((fst (fst c) - mx, snd (fst c) - my), snd c)) D).
    assert (NE' : forall {B} (f : (Z * Z) * tile -> B), map f D' <> []).
    { intros B f E. apply map_eq_nil in E. apply map_eq_nil in E. rewrite E in Ht0. exact Ht0. }
    destruct (max_list_some (map (fun c => fst (fst c)) D') (NE' _ _)) as (Mx & -> & IMx & LMx). cbn [obind].
    destruct (max_list_some (map (fun c => snd (fst c)) D') (NE' _ _)) as (My & -> & IMy & LMy). cbn [obind].
    set (T0 := fun p => match lookup p D' with Some t => t | None => Empty end).
    assert (InD' : forall x y t, In ((x, y), t) D' <-> In ((x + mx, y + my), t) D).
    { intros x y t. unfold D'. rewrite in_map_iff. split.
      - intros ([[a b] c] & [= <- <- <-] & H). cbn [fst snd]. replace (a - mx + mx) with a by lia.
        replace (b - my + my) with b by lia. exact H.
      - intros H. exists ((x + mx, y + my), t). split; [|exact H]. cbn [fst snd]. f_equal. f_equal; lia. }
    assert (LD' : forall x y, lookup (x, y) D' = lookup (x + mx, y + my) D).
    { intros x y. destruct (lookup (x, y) D') as [t|] eqn:E1.
      - apply lookup_in in E1. apply InD' in E1. destruct (lookup (x + mx, y + my) D) as [t'|] eqn:E2.
        + apply lookup_in in E2. apply Ds in E1, E2. f_equal. destruct E1 as (_ & _ & ->), E2 as (_ & _ & ->). reflexivity.
        + rewrite lookup_none in E2. exfalso. eapply E2. exact E1.
      - symmetry. rewrite lookup_none in *. intros a Ha. apply (E1 a). apply InD'. exact Ha. }
    assert (T0eq : forall x y, T0 (x, y) =
       if insideb A (x + mx, y + my) then straight (unfill (T (x + mx, y + my))) else Empty).
    { intros x y. unfold T0. rewrite LD', Dl. destruct (insideb A _); [|reflexivity].
      destruct (T (x + mx, y + my)); reflexivity. }
    (* the box *)
    assert (Box : forall x y, inside A (x, y) -> ~ blank (T (x, y)) -> mx <= x < mx + (Mx + 1) /\ my <= y < my + (My + 1)).
    { intros x y Hi Hn. destruct (Dc (x, y) Hi Hn) as (t & Ht).
      assert (B1 : mx <= x) by (apply Lmx; apply in_map_iff; exists ((x, y), t); auto).
      assert (B2 : my <= y) by (apply Lmy; apply in_map_iff; exists ((x, y), t); auto).
      assert (Ht' : In ((x - mx, y - my), t) D').
      { apply InD'. replace (x - mx + mx) with x by lia. replace (y - my + my) with y by lia. exact Ht. }
      assert (B3 : x - mx <= Mx) by (apply LMx; apply in_map_iff; exists ((x - mx, y - my), t); auto).
      assert (B4 : y - my <= My) by (apply LMy; apply in_map_iff; exists ((x - mx, y - my), t); auto).
      lia. }
    assert (MxN : 0 <= Mx /\ 0 <= My).
    { destruct p0 as [x y]. specialize (Box x y Hp0 Hn0). lia. }
    (* resolution *)
    assert (FC : forall x y d, 0 <= x < Mx + 1 -> 0 <= y < My + 1 ->
       (feeds_cell T0 (Mx + 1) (My + 1) x y d = true <-> fed_from A T (x + mx, y + my) d)).
    { intros x y d Hx Hy. rewrite feeds_cell_iff. unfold fed_from. split.
      - intros [Hi HP]. rewrite T0eq in HP. destruct (insideb A _) eqn:Ei'; [|destruct HP].
        apply insideb_iff in Ei'.
        exists (x - step_x d + mx, y - step_y d + my). split.
        + apply closed_neighbour. split; [|exact Ei']. cbn [fst snd]. f_equal; destruct d; cbn; lia.
        + destruct (T (x - step_x d + mx, y - step_y d + my)); exact HP.
      - intros (q & Hq & HP). apply closed_neighbour in Hq. destruct Hq as [Eq Hi]. cbn [fst snd] in Eq.
        assert (Eq' : q = (x - step_x d + mx, y - step_y d + my)) by (rewrite Eq; f_equal; destruct d; cbn; lia).
        subst q. rewrite Eq' in *.
        assert (Hn : ~ blank (T (x - step_x d + mx, y - step_y d + my))).
        { destruct (T (x - step_x d + mx, y - step_y d + my)); cbn in *; tauto. }
        specialize (Box _ _ Hi Hn). split.
        + unfold inside. cbn [closed aw ah fst snd]. lia.
        + rewrite T0eq. rewrite (proj2 (insideb_iff A _) Hi).
          destruct (T (x - step_x d + mx, y - step_y d + my)); exact HP. }
    assert (Res : forall x y, 0 <= x < Mx + 1 -> 0 <= y < My + 1 ->
       resolved (Mx + 1) (My + 1) T0 (x, y) = if insideb A (x + mx, y + my) then unfill (T (x + mx, y + my)) else Empty).
    { intros x y Hx Hy. unfold resolved. rewrite T0eq. destruct (insideb A _) eqn:Ei'; [|reflexivity].
      apply insideb_iff in Ei'. destruct (T (x + mx, y + my)) as [| |i o|d e0|d e0|d k|a b] eqn:Et; try reflexivity.
      cbn [unfill straight fst snd]. f_equal.
      destruct (HI _ i o Ei' Et) as [[H1 H2]|[H1 H2]].
      - rewrite (proj2 (scan_inputs_spec _ i)); [reflexivity|]. split; [apply FC; assumption|].
        intros d Hd. apply H2. apply FC; assumption.
      - destruct (scan_inputs _ all_dirs None) as [j|] eqn:Es; [|symmetry; exact H1].
        exfalso. apply scan_inputs_spec in Es. apply H2. exists j. destruct Es as [S1 S2]. split; [apply FC; assumption|].
        intros d Hd. apply S2. apply FC; assumption. }
    destruct (resolve_cells_spec (Mx + 1) (My + 1) T0 (cells (Mx + 1) (My + 1)) (NoDup_cells _ _)) with (T := T0)
      as (T' & -> & HT').
    { intros [x y] Hp. apply cells_in in Hp. cbn [fst snd] in Hp. rewrite Res by tauto.
      destruct (insideb A _) eqn:Ei'; [|exact I]. apply insideb_iff in Ei'. specialize (HB _ Ei'). fold T in HB.
      destruct (T (x + mx, y + my)); cbn in *; try exact I; tauto. }
    { intros q. reflexivity. }
    { intros q _. reflexivity. }
    cbn [obind].
    exists mx, my, (Mx + 1), (My + 1). eexists. split; [reflexivity|]. split; [lia|]. split; [lia|].
    split; [apply rows_of_rect; lia|]. split.
    + split; [exact Box|].
      assert (Wit : forall c, In c D -> inside A (fst c) /\ ~ blank (T (fst c))).
      { intros [p t] Hc. apply Ds in Hc. tauto. }
      apply in_map_iff in Imx, Imy, IMx, IMy.
      destruct Imx as ([[a1 b1] c1] & <- & J1). destruct Imy as ([[a2 b2] c2] & <- & J2).
      destruct IMx as ([[a3 b3] c3] & <- & J3). destruct IMy as ([[a4 b4] c4] & <- & J4).
      cbn [fst snd] in *. apply InD' in J3, J4.
      apply Wit in J1, J2, J3, J4. cbn [fst snd] in *.
      split; [exists b1; exact J1|]. split; [exists (b3 + b2)|].
      { replace (a1 + (a3 + 1) - 1) with (a3 + a1) by lia. exact J3. }
      split; [exists a2; exact J2|]. exists (a4 + a1). replace (b2 + (b4 + 1) - 1) with (b4 + b2) by lia. exact J4.
    + intros x y Hx Hy. rewrite layout_rows_of by assumption.
      rewrite (proj1 (HT' (x, y))) by (apply cells_in; split; assumption).
      rewrite Res by assumption. destruct (insideb A _) eqn:Ei'; [reflexivity|].
      assert (O : ~ inside A (x + mx, y + my)) by (rewrite <- insideb_iff; congruence).
      (* every box cell lies in the grid *)
      exfalso. apply O. clear -Imx Imy IMx IMy Ds InD' Hx Hy.
      apply in_map_iff in Imx, Imy, IMx, IMy.
      destruct Imx as ([[a1 b1] c1] & <- & J1). destruct Imy as ([[a2 b2] c2] & <- & J2).
      destruct IMx as ([[a3 b3] c3] & <- & J3). destruct IMy as ([[a4 b4] c4] & <- & J4).
      cbn [fst snd] in *. apply InD' in J3, J4. apply Ds in J1, J2, J3, J4.
      destruct J1 as [J1 _], J2 as [J2 _], J3 as [J3 _], J4 as [J4 _].
      unfold inside in *. cbn [A closed aw ah fst snd] in *. lia.
Qed.

(** ** Entities (C22) *)
(** [e] is the entity of level [l] for tile [t] in cell [(x, y)]; positions are
    doubled, so the centre of the cell is [(2 x + 1, 2 y + 1)] and the centre of
    two neighbouring cells is the sum of their coordinates plus one. *)
Definition entity_for (l : level) (p : Z * Z) (t : tile) (e : entity) : Prop :=
  let (x, y) := p in
  match t with
  | Belt _ o => e_x2 e = 2 * x + 1 /\ e_y2 e = 2 * y + 1 /\
      e_name e = Some (belt_variant l) /\ e_direction e = compass o /\ e_type e = None
  | Underground d entrance => e_x2 e = 2 * x + 1 /\ e_y2 e = 2 * y + 1 /\
      e_name e = Some (underground_variant l) /\ e_direction e = compass d /\
      e_type e = Some (if entrance then "input"%string else "output"%string)
  | Splitter d _ => e_x2 e = x + (x + step_x (anticlockwise d)) + 1 /\ e_y2 e = y + (y + step_y (anticlockwise d)) + 1 /\
      e_name e = Some (splitter_variant l) /\ e_direction e = compass d /\ e_type e = None
  | Inserter d k => e_x2 e = 2 * x + 1 /\ e_y2 e = 2 * y + 1 /\
      e_name e = (if k =? 0 then Some "inserter"%string else if k =? 1 then Some "long-handed-inserter"%string else None) /\
      e_direction e = compass (opposite d) /\ e_type e = None
  | _ => False
  end.

Lemma dir_key_compass d : dir_key d = compass d.
Proof. destruct d; reflexivity. Qed.

Lemma make_entities_list l cs : (forall c, In c cs -> match snd c with Assembler _ _ => False | _ => True end) -> forall n,
  exists es ps, make_entities l n cs = Some es /\
    map e_number es = map (fun i => n + i) (zrange (Z.of_nat (List.length es))) /\
    Forall2 (fun c e => entity_for l (fst c) (snd c) e) ps es /\
    (forall c, In c ps <-> In c cs /\ has_entity (snd c)) /\ (NoDup cs -> NoDup ps).
Proof.
  induction cs as [|c cs IH]; intros HA n; cbn [make_entities].
  - exists [], []. split; [reflexivity|]. split; [reflexivity|]. split; [constructor|]. split; [cbn; tauto|constructor].
  - assert (Step : exists oe, tile_entity l n c = Some oe /\
      match oe with None => ~ has_entity (snd c) | Some e => e_number e = n /\ has_entity (snd c) /\ entity_for l (fst c) (snd c) e end).
    { specialize (HA c (or_introl eq_refl)). destruct c as [[x y] t]. cbn [fst snd] in *.
      destruct t as [| |i o|d e|d e|d k|a b]; cbn [tile_entity has_entity entity_for] in *;
        try contradiction; try (exists None; split; [reflexivity|intros [] ]).
      - eexists. split; [reflexivity|]. cbn [e_number e_x2 e_y2 e_name e_direction e_type]. rewrite dir_key_compass. auto 10.
      - eexists. split; [reflexivity|]. cbn [e_number e_x2 e_y2 e_name e_direction e_type]. rewrite dir_key_compass. auto 10.
      - destruct e; eexists; (split; [reflexivity|]); [|intros []]. cbn [e_number e_x2 e_y2 e_name e_direction e_type].
        rewrite next_ac, dx_step, dy_step, dir_key_compass. repeat split; auto; lia.
      - eexists. split; [reflexivity|]. cbn [e_number e_x2 e_y2 e_name e_direction e_type]. rewrite dir_key_compass, reverse_opp. auto 10. }
    destruct Step as (oe & -> & HO). cbn [obind]. assert (HA' := fun c0 Hc0 => HA c0 (or_intror Hc0)).
    destruct oe as [e|].
    + destruct HO as (Hn & HE & HF). destruct (IH HA' (n + 1)) as (es & ps & -> & Hm & H2 & H3 & H4). cbn [obind].
      exists (e :: es), (c :: ps). split; [reflexivity|]. split; [|split; [|split]].
      * cbn [map List.length]. rewrite Hn, Hm. rewrite Nat2Z.inj_succ, <- Z.add_1_r, zrange_S by lia.
        cbn [map]. f_equal; [lia|]. rewrite map_map. apply map_ext. intros. lia.
      * constructor; assumption.
      * intros c0. cbn [In]. rewrite H3. split; [intros [->|[]]; auto|intros [[->|] ?]; auto].
      * intros N. inversion N; subst. constructor; [|auto]. rewrite H3. tauto.
    + destruct (IH HA' n) as (es & ps & -> & Hm & H2 & H3 & H4).
      exists es, ps. split; [reflexivity|]. split; [exact Hm|]. split; [exact H2|]. split.
      * intros c0. cbn [In]. rewrite H3. split; [tauto|]. intros [[->|] ?]; tauto.
      * intros N. inversion N; subst. auto.
Qed.

Lemma NoDup_Forall2 {A B C} (P : A -> B -> Prop) (f : B -> C) l k : Forall2 P l k -> NoDup l ->
  (forall a b a' b', In a l -> In a' l -> P a b -> P a' b' -> f b = f b' -> a = a') -> NoDup (map f k).
Proof.
  induction 1 as [|a b l k Hab H IH]; intros N HI; cbn [map]; constructor.
  - intros C1. apply in_map_iff in C1. destruct C1 as (b' & E & Hb').
    assert (Ex : exists a', In a' l /\ P a' b').
    { clear -H Hb'. induction H; [destruct Hb'|]. destruct Hb' as [<-|Hb']; [exists x; split; [left; reflexivity|assumption]|].
      destruct (IHForall2 Hb') as (a' & ? & ?). exists a'. split; [right; assumption|assumption]. }
    destruct Ex as (a' & Ha' & HP). inversion N; subst.
    assert (a = a') by (apply (HI a b a' b'); auto; [left; reflexivity|right; assumption]). subst. contradiction.
  - apply IH; [inversion N; assumption|]. intros a1 b1 a2 b2 H1 H2. apply HI; right; assumption.
Qed.

Lemma blueprint_entities l w h g : let A := closed w h in let T := layout_of g in
  rect (Z.to_nat h) (Z.to_nat w) g -> 0 <= w -> 0 <= h ->
  (forall p, inside A p -> match T p with Assembler _ _ => False | _ => True end) -> splitters_paired A T ->
  exists es ps, make_blueprint l g = Some es /\
    map e_number es = map (Z.add 1) (zrange (Z.of_nat (List.length es))) /\
    Forall2 (fun p e => entity_for l p (T p) e) ps es /\
    (forall p, In p ps <-> inside A p /\ has_entity (T p)) /\ NoDup ps /\
    NoDup (map (fun e => (e_x2 e, e_y2 e)) es).
Proof.
  intros A T R Hw Hh HA HS.
  set (cs := map (fun p => (p, T p)) (cells w h)).
  assert (Ecs : enum_grid g = cs).
  { rewrite (enum_grid_eq _ _ _ R). unfold cs. rewrite !Z2Nat.id by lia. reflexivity. }
  assert (Ncs : NoDup cs).
  { unfold cs. apply NoDup_map_inj; [congruence|apply NoDup_cells]. }
  destruct (make_entities_list l cs) with (n := 1) as (es & cps & Em & Hm & H2 & H3 & H4).
  { intros c Hc. apply in_map_iff in Hc. destruct Hc as (p & <- & Hp). apply cells_in in Hp. apply HA. exact Hp. }
  assert (Hcps : forall c, In c cps -> c = (fst c, T (fst c)) /\ inside A (fst c) /\ has_entity (T (fst c))).
  { intros c Hc. apply H3 in Hc. destruct Hc as [Hc He]. apply in_map_iff in Hc. destruct Hc as (p & <- & Hp).
    cbn [fst snd] in *. apply cells_in in Hp. auto. }
  assert (F2 : Forall2 (fun p e => entity_for l p (T p) e) (map fst cps) es).
  { clear -H2 Hcps. induction H2 as [|c e cps es H H2 IH]; cbn [map]; constructor.
    - destruct (Hcps c (or_introl eq_refl)) as [E _]. rewrite E in H. exact H.
    - apply IH. intros c0 Hc0. apply Hcps. right. assumption. }
  assert (In2 : forall p, In p (map fst cps) <-> inside A p /\ has_entity (T p)).
  { intros p. rewrite in_map_iff. split.
    - intros (c & <- & Hc). apply Hcps in Hc. tauto.
    - intros [Hi He]. exists (p, T p). split; [reflexivity|]. apply H3. split; [|exact He].
      apply in_map_iff. exists p. split; [reflexivity|apply cells_in; exact Hi]. }
  assert (ND : NoDup (map fst cps)).
  { specialize (H4 Ncs). clear -H4 Hcps. induction H4 as [|c cps Hc N IH]; cbn [map]; constructor.
    - intros C. apply in_map_iff in C. destruct C as (c' & E & Hc').
      destruct (Hcps c (or_introl eq_refl)) as [E1 _]. destruct (Hcps c' (or_intror Hc')) as [E2 _].
      rewrite E in E2. apply Hc. rewrite E1, <- E2. exact Hc'.
    - apply IH. intros c0 Hc0. apply Hcps. right. assumption. }
  exists es, (map fst cps). unfold make_blueprint. rewrite Ecs.
  split; [exact Em|]. split; [exact Hm|]. split; [exact F2|]. split; [exact In2|]. split; [exact ND|].
  apply (NoDup_Forall2 _ _ _ _ F2 ND).
  intros [x y] e [x' y'] e' Hp Hp' HE HE' Heq. apply In2 in Hp, Hp'.
  apply pair_equal_spec in Heq. destruct Heq as [Hx Hy].
  assert (Mate : forall x y d, inside A (x, y) -> T (x, y) = Splitter d true ->
     T (x + step_x (anticlockwise d), y + step_y (anticlockwise d)) = Splitter d false).
  { intros a b d Hi Ht. destruct (HS _ _ _ Hi Ht) as (q & Hq & Hm'). apply closed_neighbour in Hq.
    destruct Hq as [-> _]. exact Hm'. }
  destruct Hp as [Hi He], Hp' as [Hi' He'].
  destruct (T (x, y)) as [| |i o|d b|d b|d k|a b] eqn:Et; cbn [entity_for] in HE; try contradiction;
  destruct (T (x', y')) as [| |i' o'|d' b'|d' b'|d' k'|a' b'] eqn:Et'; cbn [entity_for] in HE'; try contradiction;
    try (destruct HE as (Ex & Ey & _), HE' as (Ex' & Ey' & _); rewrite Ex, Ex' in Hx; rewrite Ey, Ey' in Hy;
         first [apply pair_equal_spec; lia
               |exfalso; destruct d; cbn [anticlockwise step_x step_y] in Hx, Hy; lia
               |exfalso; destruct d'; cbn [anticlockwise step_x step_y] in Hx, Hy; lia|idtac]).
  destruct b; [|contradiction]. destruct b'; [|contradiction].
  pose proof (Mate _ _ _ Hi Et) as M1. clear Mate.
  assert (C : (x = x' /\ y = y') \/ (x' = x + step_x (anticlockwise d) /\ y' = y + step_y (anticlockwise d))).
  { destruct d, d'; cbn in *; lia. }
  destruct C as [[-> ->]|[-> ->]]; [reflexivity|]. congruence.
Qed.

(** ** Belt-only imports (C23) *)
Definition belt_entity (l : level) (n x y : Z) (d : dir) : entity :=
  {| e_number := n; e_x2 := 2 * x + 1; e_y2 := 2 * y + 1; e_name := Some (belt_variant l);
     e_direction := compass d; e_type := None |}.

Lemma import_belt l n x y d : import_entity (belt_entity l n x y d) = Some [((x, y), Belt d d)].
Proof.
  unfold import_entity, belt_entity. cbn [e_name e_direction e_x2 e_y2 e_type obind].
  rewrite <- dir_key_compass, from_factorio_key. cbn [obind]. rewrite !half. destruct l, d; reflexivity.
Qed.

(** A belt to be placed: level, number, cell, direction. *)
Definition belt_spec : Type := (level * Z * (Z * Z) * dir)%type.
Definition belt_of (b : belt_spec) : entity :=
  let '(l, n, (x, y), d) := b in belt_entity l n x y d.
Definition cell_of (b : belt_spec) : Z * Z := let '(_, _, p, _) := b in p.
Definition dir_of (b : belt_spec) : dir := let '(_, _, _, d) := b in d.

Lemma import_belts bs : forall acc,
  import_entities acc (map belt_of bs) = Some (rev (map (fun b => (cell_of b, Belt (dir_of b) (dir_of b))) bs) ++ acc).
Proof.
  induction bs as [|[[[l n] [x y]] d] bs IH]; intros acc; cbn [map import_entities rev]; [reflexivity|].
  cbn [belt_of]. rewrite import_belt. cbn [obind]. rewrite IH. cbn [cell_of dir_of]. rewrite <- app_assoc. reflexivity.
Qed.

Lemma import_belts_some bs : bs <> [] ->
  (forall b c, In b bs -> In c bs -> dir_of c = opposite (dir_of b) ->
     cell_of c <> (fst (cell_of b) + step_x (dir_of b), snd (cell_of b) + step_y (dir_of b))) ->
  exists g, import_blueprint (map belt_of bs) = Some g.
Proof.
  intros NE HF. unfold import_blueprint.
  destruct (map belt_of bs) as [|e0 es0] eqn:Em; [apply map_eq_nil in Em; contradiction|]. rewrite <- Em. clear Em e0 es0.
  rewrite import_belts. cbn [obind]. rewrite app_nil_r.
  set (D := rev (map (fun b => (cell_of b, Belt (dir_of b) (dir_of b))) bs)).
  assert (InD : forall p t, In (p, t) D -> exists b, In b bs /\ p = cell_of b /\ t = Belt (dir_of b) (dir_of b)).
  { intros p t H. unfold D in H. rewrite <- in_rev in H. apply in_map_iff in H. destruct H as (b & [= <- <-] & Hb). eauto. }
  assert (ND : D <> []).
  { unfold D. intros E. apply (f_equal (@rev _)) in E. rewrite rev_involutive in E. cbn in E. apply map_eq_nil in E. contradiction. }
  assert (ND2 : forall B (f : (Z * Z) * tile -> B), map f D <> []) by (intros B f E; apply map_eq_nil in E; contradiction).
  destruct (min_list_some (map (fun c => fst (fst c)) D) (ND2 _ _)) as (mx & -> & _ & _). cbn [obind].
  destruct (min_list_some (map (fun c => snd (fst c)) D) (ND2 _ _)) as (my & -> & _ & _). cbn [obind].
  set (D' := map (fun c => ((fst (fst c) - mx, snd (fst c) - my), snd c)) D).
  assert (ND3 : forall B (f : (Z * Z) * tile -> B), map f D' <> []) by (intros B f E; apply map_eq_nil in E; apply map_eq_nil in E; contradiction).
  destruct (max_list_some (map (fun c => fst (fst c)) D') (ND3 _ _)) as (Mx & -> & _ & _). cbn [obind].
  destruct (max_list_some (map (fun c => snd (fst c)) D') (ND3 _ _)) as (My & -> & _ & _). cbn [obind].
  set (T0 := fun p => match lookup p D' with Some t => t | None => Empty end).
  assert (T0s : forall x y, T0 (x, y) = Empty \/
     exists b, In b bs /\ cell_of b = (x + mx, y + my) /\ T0 (x, y) = Belt (dir_of b) (dir_of b)).
  { intros x y. unfold T0. destruct (lookup (x, y) D') as [t|] eqn:E; [right|left; reflexivity].
    apply lookup_in in E. apply in_map_iff in E. destruct E as ([[a b] t'] & E & H). cbn [fst snd] in E.
    injection E as E1 E2 E3. apply InD in H. destruct H as (c & Hc & H1 & H2). exists c. split; [exact Hc|].
    split; [rewrite <- H1; f_equal; lia|congruence]. }
  destruct (resolve_cells_spec (Mx + 1) (My + 1) T0 (cells (Mx + 1) (My + 1)) (NoDup_cells _ _)) with (T := T0)
    as (T' & -> & _).
  - intros [x y] _. unfold resolved. destruct (T0s x y) as [E|(b & Hb & Ec & E)]; rewrite E; [exact I|].
    cbn [fst snd valid_tile]. destruct (scan_inputs _ all_dirs None) as [i|] eqn:Es;
      [|destruct (dir_of b); discriminate].
    apply scan_inputs_spec in Es. destruct Es as [Es _]. apply feeds_cell_iff in Es. destruct Es as [_ HP].
    intros EO. destruct (T0s (x - step_x i) (y - step_y i)) as [E2|(c & Hc & Ecc & E2)]; rewrite E2 in HP; [exact HP|].
    cbn [pushes] in HP. apply (HF c b Hc Hb); [rewrite HP; exact EO|].
    rewrite Ecc, Ec, HP. cbn [fst snd]. f_equal; lia.
  - intros q. reflexivity.
  - intros q _. reflexivity.
  - eexists. reflexivity.
Qed.
