(** Proofs about grid transforms (rotate.py): the dihedral group. *)
From Coq Require Import ZArith List Bool String Lia.
From Verif Require Import Spec_Tile Spec_Layout M_Json M_Tile M_Rotate P_Tile.
Import ListNotations.

Definition rect {A} (h w : nat) (g : list (list A)) : Prop :=
  List.length g = h /\ Forall (fun r => List.length r = w) g.

Definition gg {A} (d : A) (g : list (list A)) (i j : nat) : A := nth j (nth i g []) d.

Section Grid.
  Context {A : Type} (d : A).
  Implicit Types g : list (list A).

  Lemma rect_row h w g i : rect h w g -> (i < h)%nat -> List.length (nth i g []) = w.
  Proof.
    intros [H1 H2] Hi. rewrite Forall_forall in H2. apply H2. apply nth_In. lia.
  Qed.

  Lemma rect_ext h w g1 g2 : rect h w g1 -> rect h w g2 ->
    (forall i j, (i < h)%nat -> (j < w)%nat -> gg d g1 i j = gg d g2 i j) -> g1 = g2.
  Proof.
    intros R1 R2 E. apply nth_ext with (d := []) (d' := []); [destruct R1, R2; congruence|].
    intros i Hi. assert (Hi' : (i < h)%nat) by (destruct R1; lia).
    apply nth_ext with (d := d) (d' := d).
    - rewrite (rect_row h w g1), (rect_row h w g2); auto.
    - intros j Hj. rewrite (rect_row h w g1) in Hj by auto. apply E; auto.
  Qed.

  Lemma gw_rect h w g : rect h w g -> (0 < h)%nat -> gw g = w.
  Proof.
    intros [H1 H2] Hh. destruct g as [|r g]; cbn in H1; [lia|]. inversion H2; assumption.
  Qed.

  Lemma rect_rev h w g : rect h w g -> rect h w (rev g).
  Proof. intros [H1 H2]. split; [rewrite rev_length; assumption|apply Forall_rev; assumption]. Qed.

  Lemma rect_map_rev h w g : rect h w g -> rect h w (map (@rev A) g).
  Proof.
    intros [H1 H2]. split; [rewrite map_length; assumption|].
    rewrite Forall_map. eapply Forall_impl; [|exact H2]. intros r Hr. rewrite rev_length. exact Hr.
  Qed.

  Lemma rect_transpose h w g : rect h w g -> (0 < h)%nat -> rect w h (transpose d g).
  Proof.
    intros R Hh. split.
    - unfold transpose. rewrite map_length, seq_length. eapply gw_rect; eauto.
    - unfold transpose. rewrite Forall_map. apply Forall_forall. intros j _.
      rewrite map_length. apply R.
  Qed.

  Lemma gg_rev h w g i j : rect h w g -> (i < h)%nat -> gg d (rev g) i j = gg d g (h - 1 - i) j.
  Proof.
    intros [H1 _] Hi. unfold gg. rewrite rev_nth by lia. rewrite H1.
    replace (h - S i)%nat with (h - 1 - i)%nat by lia. reflexivity.
  Qed.

  Lemma gg_map_rev h w g i j : rect h w g -> (i < h)%nat -> (j < w)%nat ->
    gg d (map (@rev A) g) i j = gg d g i (w - 1 - j).
  Proof.
    intros R Hi Hj. unfold gg. rewrite nth_indep with (d' := rev []) by (rewrite map_length; destruct R; lia).
    rewrite map_nth. rewrite rev_nth by (rewrite (rect_row h w); auto).
    rewrite (rect_row h w) by auto. replace (w - S j)%nat with (w - 1 - j)%nat by lia. reflexivity.
  Qed.

  Lemma gg_transpose h w g i j : rect h w g -> (i < w)%nat -> (j < h)%nat ->
    gg d (transpose d g) i j = gg d g j i.
  Proof.
    intros R Hi Hj. unfold gg, transpose.
    assert (W : gw g = w) by (eapply gw_rect; eauto; lia). rewrite W.
    rewrite nth_indep with (d' := (fun j => map (fun row => nth j row d) g) 0%nat)
      by (rewrite map_length, seq_length; lia).
    rewrite (map_nth (fun j => map (fun row => nth j row d) g)). rewrite seq_nth by lia. cbn [Nat.add].
    rewrite nth_indep with (d' := (fun row => nth i row d) []) by (rewrite map_length; destruct R; lia).
    rewrite (map_nth (fun row => nth i row d)). reflexivity.
  Qed.
End Grid.

(** Size of the result. *)
Definition swaps (o : operation) : bool := match o with ROT_90 | ROT_270 => true | _ => false end.
Definition oh (o : operation) (h w : nat) := if swaps o then w else h.
Definition ow (o : operation) (h w : nat) := if swaps o then h else w.

(** Source cell of a cell of the result. *)
Definition src (o : operation) (h w i j : nat) : nat * nat :=
  match o with
  | NO_OP => (i, j)
  | ROT_90 => (j, w - 1 - i)
  | ROT_180 => (h - 1 - i, w - 1 - j)
  | ROT_270 => (h - 1 - j, i)
  | FLIP_X => (i, w - 1 - j)
  | FLIP_Y => (h - 1 - i, j)
  end%nat.

Lemma rect_op {A} (d : A) o h w g : rect h w g -> (0 < h)%nat ->
  rect (oh o h w) (ow o h w) (grid_op d o g).
Proof.
  intros R Hh. destruct o; cbn;
    auto using rect_rev, rect_map_rev, rect_transpose.
Qed.

Lemma gg_op {A} (d : A) o h w g i j : rect h w g -> (0 < h)%nat ->
  (i < oh o h w)%nat -> (j < ow o h w)%nat ->
  gg d (grid_op d o g) i j = gg d g (fst (src o h w i j)) (snd (src o h w i j)).
Proof.
  intros R Hh Hi Hj. unfold oh, ow in *. destruct o; cbn [swaps src fst snd grid_op] in *.
  - reflexivity.
  - rewrite gg_transpose with (h := h) (w := w) by auto using rect_map_rev.
    rewrite gg_map_rev with (h := h) (w := w); auto.
  - rewrite gg_map_rev with (h := h) (w := w) by auto using rect_rev.
    rewrite gg_rev with (h := h) (w := w); auto.
  - rewrite gg_map_rev with (h := w) (w := h) by auto using rect_transpose.
    rewrite gg_transpose with (h := h) (w := w); auto. lia.
  - rewrite gg_map_rev with (h := h) (w := w); auto.
  - rewrite gg_rev with (h := h) (w := w); auto.
Qed.

Lemma src_bound o h w i j : (i < oh o h w)%nat -> (j < ow o h w)%nat ->
  (fst (src o h w i j) < h)%nat /\ (snd (src o h w i j) < w)%nat.
Proof. destruct o; cbn; lia. Qed.

(** Composition of two operations equals a third whenever sizes and sources agree. *)
Lemma grid_op_comp {A} (d : A) o1 o2 o3 h w g : rect h w g -> (0 < h)%nat -> (0 < w)%nat ->
  (forall h w, oh o3 h w = oh o2 (oh o1 h w) (ow o1 h w)) ->
  (forall h w, ow o3 h w = ow o2 (oh o1 h w) (ow o1 h w)) ->
  (forall i j, (i < oh o3 h w)%nat -> (j < ow o3 h w)%nat ->
     let s := src o2 (oh o1 h w) (ow o1 h w) i j in
     src o1 h w (fst s) (snd s) = src o3 h w i j) ->
  grid_op d o2 (grid_op d o1 g) = grid_op d o3 g.
Proof.
  intros R Hh Hw E1 E2 E3.
  assert (Hh1 : (0 < oh o1 h w)%nat) by (unfold oh; destruct (swaps o1); assumption).
  assert (R1 := rect_op d o1 h w g R Hh).
  assert (R2 := rect_op d o2 _ _ _ R1 Hh1).
  assert (R3 := rect_op d o3 h w g R Hh).
  rewrite E1, E2 in R3. eapply rect_ext with (d := d); [exact R2|exact R3|].
  intros i j Hi Hj. rewrite gg_op with (h := oh o1 h w) (w := ow o1 h w) by assumption.
  destruct (src_bound o2 _ _ i j Hi Hj) as [B1 B2].
  rewrite gg_op with (h := h) (w := w) by assumption.
  rewrite <- E1 in Hi. rewrite <- E2 in Hj.
  rewrite gg_op with (h := h) (w := w) by assumption.
  specialize (E3 i j Hi Hj). cbn zeta in E3. rewrite E3. reflexivity.
Qed.

Ltac comp := eapply grid_op_comp; eauto; intros; cbn in *; try reflexivity; f_equal; lia.

(** Transforms commute with cell-wise maps. *)
Lemma grid_op_map {A B} (dA : A) (dB : B) (f : A -> B) o h w (g : list (list A)) :
  rect h w g -> (0 < h)%nat ->
  grid_op dB o (map (map f) g) = map (map f) (grid_op dA o g).
Proof.
  intros R Hh. destruct o; cbn [grid_op]; try reflexivity.
  - unfold transpose.
    assert (W1 : gw (map (@rev B) (map (map f) g)) = w).
    { eapply gw_rect; [|exact Hh]. apply rect_map_rev. destruct R as [R1 R2]. split; [rewrite map_length; assumption|].
      rewrite Forall_map. eapply Forall_impl; [|exact R2]. intros r Hr. rewrite map_length. exact Hr. }
    assert (W2 : gw (map (@rev A) g) = w) by (eapply gw_rect; [apply rect_map_rev, R|exact Hh]).
    rewrite W1, W2. rewrite (map_map _ (map f)). apply map_ext_in. intros j Hj. apply in_seq in Hj.
    rewrite !map_map. apply map_ext_in. intros r Hr.
    destruct R as [_ R2]. rewrite Forall_forall in R2. specialize (R2 r Hr).
    rewrite <- map_rev. rewrite nth_indep with (d' := f dA) by (rewrite map_length, rev_length; lia).
    rewrite map_nth. reflexivity.
  - rewrite <- map_rev. rewrite !map_map. apply map_ext. intros. symmetry. apply map_rev.
  - unfold transpose.
    assert (W1 : gw (map (map f) g) = w).
    { eapply gw_rect; [|exact Hh]. destruct R as [R1 R2]. split; [rewrite map_length; assumption|].
      rewrite Forall_map. eapply Forall_impl; [|exact R2]. intros r Hr. rewrite map_length. exact Hr. }
    assert (W2 : gw g = w) by (eapply gw_rect; [apply R|exact Hh]).
    rewrite W1, W2. rewrite !map_map. apply map_ext_in. intros j Hj. apply in_seq in Hj.
    rewrite map_rev. f_equal. rewrite !map_map. apply map_ext_in. intros r Hr.
    destruct R as [_ R2]. rewrite Forall_forall in R2. specialize (R2 r Hr).
    rewrite nth_indep with (d' := f dA) by (rewrite map_length; lia).
    rewrite map_nth. reflexivity.
  - rewrite !map_map. apply map_ext. intros. symmetry. apply map_rev.
  - symmetry. apply map_rev.
Qed.

(** Tiles. *)
Definition tau (o : operation) (t : tile) : tile :=
  match tile_op o t with Some t' => t' | None => t end.

Lemma tile_op_tau o t : valid_tile t -> transformable t = true ->
  tile_op o t = Some (tau o t) /\ valid_tile (tau o t).
Proof.
  intros V Tr. destruct t as [| |i e|d e|d e|d e|x y]; try discriminate Tr; unfold tau.
  - destruct i, e; try (exfalso; apply V; reflexivity); destruct o; cbn; split; congruence.
  - destruct o, d; cbn; auto.
  - destruct o, d; cbn; auto.
  - destruct o, d; cbn; auto.
Qed.

Lemma tau_nontrans o t : transformable t = false -> tau o t = t.
Proof. destruct t; try discriminate; intros _; destruct o; reflexivity. Qed.

Lemma tau_valid o t : valid_tile t -> valid_tile (tau o t).
Proof.
  intros V. destruct (transformable t) eqn:E; [apply tile_op_tau; assumption|].
  rewrite tau_nontrans; assumption.
Qed.

Lemma tau_comp o1 o2 o3 :
  (forall t, valid_tile t -> transformable t = true -> tau o2 (tau o1 t) = tau o3 t) ->
  forall t, valid_tile t -> tau o2 (tau o1 t) = tau o3 t.
Proof.
  intros H t V. destruct (transformable t) eqn:E; [auto|]. rewrite !tau_nontrans; rewrite ?tau_nontrans; auto.
Qed.

Ltac tcomp := intros t V; destruct t as [| |i e|d e|d e|d e|x y];
  [reflexivity|reflexivity|destruct i, e; first [reflexivity|exfalso; apply V; reflexivity]
  |destruct d; reflexivity|destruct d, e; reflexivity|destruct d; reflexivity|reflexivity].

(** A cell of the JSON grid that shows tile [t]. *)
Definition cell_shows (c : json) (t : tile) : Prop :=
  exists l, c = JObj l /\ assoc "tile"%string l = Some (tile_write t) /\ valid_tile t.

Definition cellf (o : operation) (c : json) : json :=
  match cell_op o c with Some c' => c' | None => c end.

Lemma cell_op_spec o c t : cell_shows c t ->
  cell_op o c = Some (cellf o c) /\
  (forall l, c = JObj l -> cellf o c = JObj (aset "tile"%string (tile_write (tau o t)) l)) /\
  cell_shows (cellf o c) (tau o t).
Proof.
  intros (l & -> & HA & V).
  assert (E : cell_op o (JObj l) = Some (JObj (aset "tile"%string (tile_write (tau o t)) l))).
  { unfold cell_op. cbn [jget]. rewrite HA. cbn [obind]. rewrite tile_read_write by assumption. cbn [obind].
    destruct (transformable t) eqn:Tr.
    - destruct (tile_op_tau o t V Tr) as [-> _]. reflexivity.
    - rewrite tau_nontrans by assumption. rewrite aset_same by assumption. reflexivity. }
  unfold cellf. rewrite E. split; [reflexivity|]. split.
  - intros l' [= <-]. reflexivity.
  - eexists. split; [reflexivity|]. split; [apply assoc_aset|apply tau_valid; assumption].
Qed.

Lemma cellf_comp o1 o2 o3 c t : cell_shows c t ->
  (forall t, valid_tile t -> tau o2 (tau o1 t) = tau o3 t) ->
  cellf o2 (cellf o1 c) = cellf o3 c.
Proof.
  intros Hc H. destruct (cell_op_spec o1 c t Hc) as (_ & F1 & S1).
  destruct (cell_op_spec o2 _ _ S1) as (_ & F2 & _).
  destruct (cell_op_spec o3 c t Hc) as (_ & F3 & _).
  destruct Hc as (l & -> & _ & V).
  rewrite (F3 l eq_refl). rewrite (F1 l eq_refl) in *. rewrite (F2 _ eq_refl).
  rewrite aset_aset. rewrite H by assumption. reflexivity.
Qed.

Definition good_grid (h w : nat) (g : list (list json)) : Prop :=
  rect h w g /\ (0 < h)%nat /\ (0 < w)%nat /\ forall r c, In r g -> In c r -> exists t, cell_shows c t.

Lemma In_gg {A} (d : A) h w g r c : rect h w g -> In r g -> In c r ->
  exists i j, (i < h)%nat /\ (j < w)%nat /\ c = gg d g i j.
Proof.
  intros R Hr Hc. apply In_nth with (d := []) in Hr. destruct Hr as (i & Hi & <-).
  apply In_nth with (d := d) in Hc. destruct Hc as (j & Hj & <-).
  assert (i < h)%nat by (destruct R; lia). rewrite (rect_row h w) in Hj by assumption.
  exists i, j. auto.
Qed.

Lemma gg_In {A} (d : A) h w g i j : rect h w g -> (i < h)%nat -> (j < w)%nat ->
  In (nth i g []) g /\ In (gg d g i j) (nth i g []).
Proof.
  intros R Hi Hj. split; [apply nth_In; destruct R; lia|].
  apply nth_In. rewrite (rect_row h w); assumption.
Qed.

Lemma good_grid_op o h w g : good_grid h w g ->
  good_grid (oh o h w) (ow o h w) (grid_op JNull o g).
Proof.
  intros (R & Hh & Hw & H). split; [apply rect_op; assumption|].
  split; [unfold oh; destruct (swaps o); assumption|]. split; [unfold ow; destruct (swaps o); assumption|].
  intros r c Hr Hc. destruct (In_gg JNull _ _ _ r c (rect_op JNull o h w g R Hh) Hr Hc) as (i & j & Hi & Hj & ->).
  rewrite gg_op with (h := h) (w := w) by assumption.
  destruct (src_bound o h w i j Hi Hj) as [B1 B2].
  destruct (gg_In JNull h w g _ _ R B1 B2) as [I1 I2]. eapply H; eassumption.
Qed.

Lemma good_grid_map o h w g : good_grid h w g -> good_grid h w (map (map (cellf o)) g).
Proof.
  intros ([R1 R2] & Hh & Hw & H). repeat split; try assumption.
  - rewrite map_length. assumption.
  - rewrite Forall_map. eapply Forall_impl; [|exact R2]. intros r Hr. rewrite map_length. exact Hr.
  - intros r c Hr Hc. apply in_map_iff in Hr. destruct Hr as (r0 & <- & Hr).
    apply in_map_iff in Hc. destruct Hc as (c0 & <- & Hc). destruct (H r0 c0 Hr Hc) as [t Ht].
    exists (tau o t). apply cell_op_spec. assumption.
Qed.

Lemma rotate_line_some o h w g : good_grid h w g ->
  rotate_line o g = Some (map (map (cellf o)) (grid_op JNull o g)).
Proof.
  intros G. unfold rotate_line. apply omap_map_some. intros r Hr.
  apply omap_map_some. intros c Hc.
  destruct (good_grid_op o h w g G) as (_ & _ & _ & H). destruct (H r c Hr Hc) as [t Ht].
  apply (cell_op_spec o c t Ht).
Qed.

Lemma rotate_comp o1 o2 o3 h w g : good_grid h w g ->
  grid_op JNull o2 (grid_op JNull o1 g) = grid_op JNull o3 g ->
  (forall t, valid_tile t -> tau o2 (tau o1 t) = tau o3 t) ->
  (let* g1 := rotate_line o1 g in rotate_line o2 g1) = rotate_line o3 g.
Proof.
  intros G HG HT. rewrite (rotate_line_some o1 h w g G). cbn [obind].
  assert (G1 := good_grid_op o1 h w g G). assert (G2 := good_grid_map o1 _ _ _ G1).
  rewrite (rotate_line_some o2 _ _ _ G2).
  rewrite (grid_op_map JNull JNull (cellf o1) o2 (oh o1 h w) (ow o1 h w)) by apply G1.
  rewrite HG. rewrite (rotate_line_some o3 h w g G). f_equal.
  destruct (good_grid_op o3 h w g G) as (_ & _ & _ & H).
  rewrite map_map. apply map_ext_in. intros r Hr. rewrite map_map. apply map_ext_in. intros c Hc.
  destruct (H r c Hr Hc) as [t Ht]. eapply cellf_comp; eauto.
Qed.

Lemma rotate_no_op h w g : good_grid h w g -> rotate_line NO_OP g = Some g.
Proof.
  intros G. rewrite (rotate_line_some NO_OP h w g G). f_equal. cbn [grid_op].
  rewrite <- (map_id g) at 2. apply map_ext_in. intros r Hr.
  rewrite <- (map_id r) at 2. apply map_ext_in. intros c Hc.
  destruct G as (_ & _ & _ & H). destruct (H r c Hr Hc) as [t Ht].
  destruct (cell_op_spec NO_OP c t Ht) as (_ & F & _). destruct Ht as (l & -> & HA & _).
  rewrite (F l eq_refl). f_equal. apply aset_same. exact HA.
Qed.

Lemma comp_90_90 h w g : good_grid h w g -> (let* g1 := rotate_line ROT_90 g in rotate_line ROT_90 g1) = rotate_line ROT_180 g.
Proof. intros G. destruct G as (R & Hh & Hw & H) eqn:E. eapply rotate_comp; [exact G|comp|tcomp]. Qed.
Lemma comp_180_90 h w g : good_grid h w g -> (let* g1 := rotate_line ROT_180 g in rotate_line ROT_90 g1) = rotate_line ROT_270 g.
Proof. intros G. destruct G as (R & Hh & Hw & H) eqn:E. eapply rotate_comp; [exact G|comp|tcomp]. Qed.
Lemma comp_270_90 h w g : good_grid h w g -> (let* g1 := rotate_line ROT_270 g in rotate_line ROT_90 g1) = Some g.
Proof.
  intros G. destruct G as (R & Hh & Hw & H) eqn:E. rewrite <- (rotate_no_op h w g G).
  eapply rotate_comp; [exact G|comp|tcomp].
Qed.
Lemma comp_180_180 h w g : good_grid h w g -> (let* g1 := rotate_line ROT_180 g in rotate_line ROT_180 g1) = Some g.
Proof.
  intros G. destruct G as (R & Hh & Hw & H) eqn:E. rewrite <- (rotate_no_op h w g G).
  eapply rotate_comp; [exact G|comp|tcomp].
Qed.
Lemma comp_x_x h w g : good_grid h w g -> (let* g1 := rotate_line FLIP_X g in rotate_line FLIP_X g1) = Some g.
Proof.
  intros G. destruct G as (R & Hh & Hw & H) eqn:E. rewrite <- (rotate_no_op h w g G).
  eapply rotate_comp; [exact G|comp|tcomp].
Qed.
Lemma comp_y_y h w g : good_grid h w g -> (let* g1 := rotate_line FLIP_Y g in rotate_line FLIP_Y g1) = Some g.
Proof.
  intros G. destruct G as (R & Hh & Hw & H) eqn:E. rewrite <- (rotate_no_op h w g G).
  eapply rotate_comp; [exact G|comp|tcomp].
Qed.
Lemma comp_x_y h w g : good_grid h w g -> (let* g1 := rotate_line FLIP_X g in rotate_line FLIP_Y g1) = rotate_line ROT_180 g.
Proof. intros G. destruct G as (R & Hh & Hw & H) eqn:E. eapply rotate_comp; [exact G|comp|tcomp]. Qed.
Lemma comp_y_x h w g : good_grid h w g -> (let* g1 := rotate_line FLIP_Y g in rotate_line FLIP_X g1) = rotate_line ROT_180 g.
Proof. intros G. destruct G as (R & Hh & Hw & H) eqn:E. eapply rotate_comp; [exact G|comp|tcomp]. Qed.
