(** Layout validity is invariant under the symmetries of the rectangle. *)
From Coq Require Import ZArith List Bool String Lia.
From Verif Require Import Spec_Tile Spec_Layout Spec_Transform M_Json M_Tile M_Rotate P_Tile P_Rotate.
Import ListNotations.
Open Scope Z_scope.

Lemma insideb_iff A p : insideb A p = true <-> inside A p.
Proof. unfold insideb, inside. rewrite !andb_true_iff, !Z.leb_le, !Z.ltb_lt. tauto. Qed.

Lemma place_inside A p q : place A p = Some q -> inside A q.
Proof.
  unfold place. destruct (insideb A _) eqn:E; [|discriminate]. intros [= <-].
  apply insideb_iff. exact E.
Qed.

Lemma ahead_inside A p d k q : ahead A p d k = Some q -> inside A q.
Proof. apply place_inside. Qed.

(** ** Generic statement *)
Record equivariant (A A' : area) (T T' : layout) (phi : pos -> pos) (delta : dir -> dir) (fl : bool) : Prop := {
  eq_opp : forall d, delta (opposite d) = opposite (delta d);
  eq_ac : forall d, delta (mate_side d true) = mate_side (delta d) (negb fl);
  eq_c : forall d, delta (mate_side d false) = mate_side (delta d) fl;
  eq_axis : forall d e, same_axis (delta d) (delta e) = same_axis d e;
  eq_dsurj : forall d', exists d, delta d = d';
  eq_dinj : forall d e, delta d = delta e -> d = e;
  eq_surj : forall q, inside A' q -> exists p, inside A p /\ phi p = q;
  eq_in : forall p, inside A p -> inside A' (phi p);
  eq_ahead : forall p d k, inside A p -> ahead A' (phi p) (delta d) k = option_map phi (ahead A p d k);
  eq_tile : forall p, inside A p -> T' (phi p) =
    match T p with
    | Belt i o => Belt (delta i) (delta o)
    | Underground d e => Underground (delta d) e
    | Splitter d h => Splitter (delta d) (xorb fl h)
    | Inserter d k => Inserter (delta d) k
    | other => other
    end
}.

Section Equi.
  Context {A A' : area} {T T' : layout} {phi : pos -> pos} {delta : dir -> dir} {fl : bool}.
  Hypothesis E : equivariant A A' T T' phi delta fl.

  Lemma e_pushes p d : inside A p -> (pushes (T' (phi p)) (delta d) <-> pushes (T p) d).
  Proof.
    intros H. rewrite (eq_tile _ _ _ _ _ _ _ E p H).
    destruct (T p) as [| |i o|u e|u e|u e|x y]; cbn; try tauto;
      try (destruct e; [tauto|]); split; intros HH; try (apply (eq_dinj _ _ _ _ _ _ _ E); assumption); congruence.
  Qed.
  Lemma e_takes p d : inside A p -> (takes (T' (phi p)) (delta d) <-> takes (T p) d).
  Proof.
    intros H. rewrite (eq_tile _ _ _ _ _ _ _ E p H).
    destruct (T p) as [| |i o|u e|u e|u e|x y]; cbn; try tauto;
      try (destruct e; [|tauto]); split; intros HH; try (apply (eq_dinj _ _ _ _ _ _ _ E); assumption); congruence.
  Qed.
  Lemma e_split p : inside A p -> (is_splitter_tile (T' (phi p)) <-> is_splitter_tile (T p)).
  Proof. intros H. rewrite (eq_tile _ _ _ _ _ _ _ E p H). destruct (T p); cbn; tauto. Qed.
  Lemma e_blocks p d : inside A p -> (blocks_tunnel (T' (phi p)) (delta d) <-> blocks_tunnel (T p) d).
  Proof.
    intros H. rewrite (eq_tile _ _ _ _ _ _ _ E p H). destruct (T p); cbn; try tauto.
    rewrite (eq_axis _ _ _ _ _ _ _ E). tauto.
  Qed.

  Lemma e_tunnel L p d q : inside A p -> tunnel A T L p d q -> tunnel A' T' L (phi p) (delta d) (phi q).
  Proof.
    intros Hp (k & Hk & Ha & Hb). exists k. split; [assumption|]. split.
    - rewrite (eq_ahead _ _ _ _ _ _ _ E) by assumption. rewrite Ha. reflexivity.
    - intros j Hj. destruct (Hb j Hj) as (r & Hr & Nb). exists (phi r). split.
      + rewrite (eq_ahead _ _ _ _ _ _ _ E) by assumption. rewrite Hr. reflexivity.
      + rewrite e_blocks by (eapply ahead_inside; eassumption). exact Nb.
  Qed.

  Lemma e_neigh p d q : inside A p -> neighbour A' (phi p) (delta d) = Some q ->
    exists q0, neighbour A p d = Some q0 /\ q = phi q0.
  Proof.
    intros Hp. unfold neighbour. rewrite (eq_ahead _ _ _ _ _ _ _ E) by assumption.
    destruct (ahead A p d 1) as [q0|]; cbn; [|discriminate]. intros [= <-]. eauto.
  Qed.

  Lemma equivariant_valid L : valid_layout A T L -> valid_layout A' T' L.
  Proof.
    intros (V1 & V2 & V3 & V4 & V5 & V6 & V7 & V8).
    assert (Dt : forall p, inside A p -> T' (phi p) = _) by exact (eq_tile _ _ _ _ _ _ _ E).
    repeat split.
    - intros q Hq. destruct (eq_surj _ _ _ _ _ _ _ E q Hq) as (p & Hp & <-).
      rewrite Dt by assumption. specialize (V1 p Hp). destruct (T p); auto.
      rewrite <- (eq_opp _ _ _ _ _ _ _ E). intros C. apply V1. apply (eq_dinj _ _ _ _ _ _ _ E). exact C.
    - intros q d head Hq HT. destruct (eq_surj _ _ _ _ _ _ _ E q Hq) as (p & Hp & <-).
      rewrite Dt in HT by assumption. destruct (T p) as [| |i o|u e|u e|u e|x y] eqn:Tp; try discriminate.
      injection HT as <- <-. destruct (V2 p u e Hp Tp) as (r & Hr & Tr).
      exists (phi r). split.
      + assert (MS : mate_side (delta u) (xorb fl e) = delta (mate_side u e)).
        { destruct e; [rewrite (eq_ac _ _ _ _ _ _ _ E)|rewrite (eq_c _ _ _ _ _ _ _ E)]; destruct fl; reflexivity. }
        rewrite MS. unfold neighbour in *. rewrite (eq_ahead _ _ _ _ _ _ _ E) by assumption.
        rewrite Hr. reflexivity.
      + rewrite Dt by (eapply ahead_inside; eassumption). rewrite Tr. f_equal. destruct fl, e; reflexivity.
    - intros q d r Hq HP HS HN. destruct (eq_surj _ _ _ _ _ _ _ E q Hq) as (p & Hp & <-).
      destruct (eq_dsurj _ _ _ _ _ _ _ E d) as (d0 & <-).
      destruct (e_neigh p d0 r Hp HN) as (r0 & Hr0 & ->).
      rewrite e_takes by (eapply ahead_inside; eassumption).
      eapply V3; eauto; [apply e_pushes; assumption|]. rewrite <- e_split; assumption.
    - intros q d r Hq HP HS HN. destruct (eq_surj _ _ _ _ _ _ _ E q Hq) as (p & Hp & <-).
      destruct (eq_dsurj _ _ _ _ _ _ _ E d) as (d0 & <-). rewrite <- (eq_opp _ _ _ _ _ _ _ E) in HN.
      destruct (e_neigh p (opposite d0) r Hp HN) as (r0 & Hr0 & ->).
      rewrite e_pushes by (eapply ahead_inside; eassumption).
      eapply V4; eauto; [apply e_takes; assumption|]. rewrite <- e_split; assumption.
    - intros q d head r i o Hq HT HN HB. destruct (eq_surj _ _ _ _ _ _ _ E q Hq) as (p & Hp & <-).
      rewrite Dt in HT by assumption. destruct (T p) as [| |i' o'|u e|u e|u e|x y] eqn:Tp; try discriminate.
      injection HT as <- <-. destruct (e_neigh p u r Hp HN) as (r0 & Hr0 & ->).
      rewrite Dt in HB by (eapply ahead_inside; eassumption).
      destruct (T r0) as [| |i' o'|u' e'|u' e'|u' e'|x y] eqn:Tr; try discriminate. injection HB as <- <-.
      f_equal. eapply V5; eauto.
    - intros q d head Hq HT. destruct (eq_surj _ _ _ _ _ _ _ E q Hq) as (p & Hp & <-).
      rewrite Dt in HT by assumption. destruct (T p) as [| |i' o'|u e|u e|u e|x y] eqn:Tp; try discriminate.
      injection HT as <- <-. destruct (V6 p u e Hp Tp) as [H|H]; [left|right]; intros r HN.
      + rewrite <- (eq_opp _ _ _ _ _ _ _ E) in HN. destruct (e_neigh p _ r Hp HN) as (r0 & Hr0 & ->).
        rewrite e_pushes by (eapply ahead_inside; eassumption). apply H. exact Hr0.
      + destruct (e_neigh p _ r Hp HN) as (r0 & Hr0 & ->).
        rewrite e_takes by (eapply ahead_inside; eassumption). apply H. exact Hr0.
    - intros q d Hq HT. destruct (eq_surj _ _ _ _ _ _ _ E q Hq) as (p & Hp & <-).
      rewrite Dt in HT by assumption. destruct (T p) as [| |i' o'|u e|u e|u e|x y] eqn:Tp; try discriminate.
      injection HT as <- ->. destruct (V7 p u Hp Tp) as (r & Tr & Tu). exists (phi r). split.
      + rewrite Dt, Tr; [reflexivity|]. destruct Tu as (k & _ & Ha & _). eapply ahead_inside; eassumption.
      + apply e_tunnel; assumption.
    - intros q d Hq HT. destruct (eq_surj _ _ _ _ _ _ _ E q Hq) as (p & Hp & <-).
      rewrite Dt in HT by assumption. destruct (T p) as [| |i' o'|u e|u e|u e|x y] eqn:Tp; try discriminate.
      injection HT as <- ->. destruct (V8 p u Hp Tp) as (r & Hr & Tr & Tu). exists (phi r). split; [|split].
      + apply (eq_in _ _ _ _ _ _ _ E). assumption.
      + rewrite Dt, Tr by assumption. reflexivity.
      + apply e_tunnel; assumption.
  Qed.
End Equi.

(** ** The symmetries *)
Definition inv_sym (s : symmetry) : symmetry :=
  match s with Turn90 => Turn270 | Turn270 => Turn90 | other => other end.

Lemma inv_sym_dir s d : image_dir (inv_sym s) (image_dir s d) = d.
Proof. destruct s, d; reflexivity. Qed.
Lemma inv_sym_sym s : inv_sym (inv_sym s) = s.
Proof. destruct s; reflexivity. Qed.
Lemma inv_sym_pos s A p : image_pos (inv_sym s) (image_area s A) (image_pos s A p) = p.
Proof. destruct p as [x y], s; cbn; f_equal; lia. Qed.
Lemma inv_sym_area s A : image_area (inv_sym s) (image_area s A) = A.
Proof. destruct A, s; reflexivity. Qed.
Lemma image_inside s A p : inside A p -> inside (image_area s A) (image_pos s A p).
Proof. destruct p as [x y]. unfold inside. destruct s; cbn; lia. Qed.

Lemma refl_mod n x : 0 < n -> (n - 1 - x) mod n = n - 1 - x mod n.
Proof.
  intros H. symmetry. apply Z.mod_unique with (q := - (x / n)).
  - left. pose proof (Z.mod_pos_bound x n H). lia.
  - pose proof (Z.div_mod x n ltac:(lia)). lia.
Qed.

Lemma eqb_bool_eq (b c : bool) : (b = true <-> c = true) -> b = c.
Proof. destruct b, c; intuition congruence. Qed.

Lemma image_place s A p : 0 < aw A -> 0 < ah A ->
  place (image_area s A) (image_pos s A p) = option_map (image_pos s A) (place A p).
Proof.
  intros Hw Hh. destruct p as [x y]. unfold place.
  set (q := (if wrapx A then fst (x, y) mod aw A else fst (x, y),
             if wrapy A then snd (x, y) mod ah A else snd (x, y))).
  set (q' := (if wrapx (image_area s A) then _ else _, if wrapy (image_area s A) then _ else _)).
  assert (Eq : q' = image_pos s A q).
  { unfold q', q. destruct s; cbn; try reflexivity; destruct (wrapx A), (wrapy A); cbn;
      rewrite ?refl_mod by assumption; reflexivity. }
  rewrite Eq.
  assert (Ei : insideb (image_area s A) (image_pos s A q) = insideb A q).
  { apply eqb_bool_eq. rewrite !insideb_iff. unfold inside. destruct q as [qx qy]. destruct s; cbn; lia. }
  rewrite Ei. destruct (insideb A q); reflexivity.
Qed.

Lemma image_ahead s A p d k : 0 < aw A -> 0 < ah A ->
  ahead (image_area s A) (image_pos s A p) (image_dir s d) k = option_map (image_pos s A) (ahead A p d k).
Proof.
  intros Hw Hh. unfold ahead. rewrite <- image_place by assumption. f_equal.
  destruct p as [x y], s, d; cbn; f_equal; lia.
Qed.

Lemma equivariant_of_sym s A T T' : 0 < aw A -> 0 < ah A ->
  (forall p, inside A p -> T' (image_pos s A p) = image_tile s (T p)) ->
  equivariant A (image_area s A) T T' (image_pos s A) (image_dir s) (mirrors s).
Proof.
  intros Hw Hh HT. constructor.
  - destruct s, d; reflexivity.
  - destruct s, d; reflexivity.
  - destruct s, d; reflexivity.
  - destruct s, d, e; reflexivity.
  - intros d'. exists (image_dir (inv_sym s) d'). rewrite <- (inv_sym_sym s) at 1. apply inv_sym_dir.
  - intros d e H. rewrite <- (inv_sym_dir s d), <- (inv_sym_dir s e). congruence.
  - intros q Hq. exists (image_pos (inv_sym s) (image_area s A) q). split.
    + rewrite <- (inv_sym_area s A) at 1. apply image_inside. assumption.
    + pose proof (inv_sym_pos (inv_sym s) (image_area s A) q) as H.
      rewrite inv_sym_sym, inv_sym_area in H. exact H.
  - intros p Hp. apply image_inside. assumption.
  - intros p d k Hp. apply image_ahead; assumption.
  - intros p Hp. rewrite HT by assumption. destruct (T p); reflexivity.
Qed.

Lemma image_tile_inv s t : image_tile (inv_sym s) (image_tile s t) = t.
Proof.
  destruct t; cbn; rewrite ?inv_sym_dir; try reflexivity.
  destruct s; cbn; destruct head; reflexivity.
Qed.

Lemma valid_symmetric s A T T' L : 0 < aw A -> 0 < ah A ->
  (forall p, inside A p -> T' (image_pos s A p) = image_tile s (T p)) ->
  (valid_layout A T L <-> valid_layout (image_area s A) T' L).
Proof.
  intros Hw Hh HT. split.
  - apply (equivariant_valid (equivariant_of_sym s A T T' Hw Hh HT)).
  - rewrite <- (inv_sym_area s A) at 2.
    refine (equivariant_valid (equivariant_of_sym (inv_sym s) (image_area s A) T' T _ _ _) L);
      [destruct s; assumption|destruct s; assumption|].
    intros q Hq.
    set (p := image_pos (inv_sym s) (image_area s A) q).
    assert (Hp : inside A p).
    { unfold p. rewrite <- (inv_sym_area s A) at 1. apply image_inside. assumption. }
    assert (Eq : q = image_pos s A p).
    { unfold p. pose proof (inv_sym_pos (inv_sym s) (image_area s A) q) as H.
      rewrite inv_sym_sym, inv_sym_area in H. symmetry. exact H. }
    rewrite Eq, HT by assumption. rewrite image_tile_inv. reflexivity.
Qed.

(** ** The operations of rotate.py are these symmetries *)
Definition sym_of (o : operation) : symmetry :=
  match o with
  | NO_OP => Identity | ROT_90 => Turn90 | ROT_180 => Turn180 | ROT_270 => Turn270
  | FLIP_X => MirrorX | FLIP_Y => MirrorY
  end.

Lemma tau_image o t : valid_tile t -> tau o t = image_tile (sym_of o) t.
Proof.
  destruct t as [| |i e|d e|d e|d e|x y]; intros V.
  - destruct o; reflexivity.
  - destruct o; reflexivity.
  - destruct o, i, e; first [reflexivity|exfalso; apply V; reflexivity].
  - destruct o, d; reflexivity.
  - destruct o, d, e; reflexivity.
  - destruct o, d; reflexivity.
  - destruct o; reflexivity.
Qed.

(** The tile shown by a cell. *)
Definition cell_tile (c : json) : option tile := let* tj := jget "tile"%string c in tile_read tj.
Definition read_grid (g : list (list json)) : option (list (list tile)) := omap (omap cell_tile) g.

Lemma cell_op_reads o c t : cell_tile c = Some t ->
  exists c', cell_op o c = Some c' /\ cell_tile c' = Some (tau o t).
Proof.
  unfold cell_tile, cell_op. destruct (jget "tile"%string c) as [tj|] eqn:E1; [|discriminate].
  cbn [obind]. intros E2. rewrite E2. cbn [obind].
  assert (V := tile_read_valid _ _ E2).
  destruct (transformable t) eqn:Tr.
  - destruct (tile_op_tau o t V Tr) as [-> V']. cbn [obind].
    destruct c; try discriminate. cbn [jset]. eexists. split; [reflexivity|].
    cbn [jget]. rewrite assoc_aset. cbn [obind]. apply tile_read_write. assumption.
  - exists c. split; [reflexivity|]. rewrite E1. cbn [obind]. rewrite tau_nontrans by assumption. exact E2.
Qed.

Lemma Forall2_nth {A B} (P : A -> B -> Prop) l l' dA dB : Forall2 P l l' ->
  forall i, (i < List.length l)%nat -> P (nth i l dA) (nth i l' dB).
Proof.
  induction 1 as [|a b l l' H _ IH]; intros i Hi; cbn in *; [lia|].
  destruct i as [|i]; [exact H|apply IH; lia].
Qed.

Lemma Forall2_map_ext {A B C} (P : A -> B -> Prop) l l' (f : A -> C) (g : B -> C) :
  Forall2 P l l' -> (forall a b, P a b -> f a = g b) -> map f l = map g l'.
Proof. induction 1; intros E; cbn; [reflexivity|]. f_equal; auto. Qed.

Definition total_tile (c : json) : tile := match cell_tile c with Some t => t | None => Empty end.

Lemma read_grid_map g G : read_grid g = Some G ->
  G = map (map total_tile) g /\ (forall r c, In r g -> In c r -> cell_tile c = Some (total_tile c)).
Proof.
  intros H. apply omap_inv in H. split.
  - induction H as [|r R g G Hr _ IH]; [reflexivity|]. cbn. f_equal; [|exact IH].
    apply omap_inv in Hr. clear -Hr. induction Hr as [|c t r R Hc _ IH]; [reflexivity|].
    cbn. f_equal; [|exact IH]. unfold total_tile. rewrite Hc. reflexivity.
  - induction H as [|r R g G Hr _ IH]; intros r0 c0 I1 I2; [destruct I1|].
    destruct I1 as [<-|I1]; [|eapply IH; eauto].
    apply omap_inv in Hr. clear -Hr I2. induction Hr as [|c t r R Hc _ IH]; [destruct I2|].
    destruct I2 as [<-|I2]; [|auto]. unfold total_tile. rewrite Hc. reflexivity.
Qed.

Lemma rect_map {A B} (f : A -> B) h w g : rect h w g -> rect h w (map (map f) g).
Proof.
  intros [R1 R2]. split; [rewrite map_length; assumption|].
  rewrite Forall_map. eapply Forall_impl; [|exact R2]. intros r Hr. rewrite map_length. exact Hr.
Qed.

Lemma rotate_line_reads o h w g G : rect h w g -> (0 < h)%nat -> (0 < w)%nat -> read_grid g = Some G ->
  exists g', rotate_line o g = Some g' /\ rect (oh o h w) (ow o h w) g' /\
    read_grid g' = Some (map (map (tau o)) (grid_op Empty o G)).
Proof.
  intros R Hh Hw HG. destruct (read_grid_map g G HG) as [-> HR].
  assert (HR' : forall r c, In r (grid_op JNull o g) -> In c r -> cell_tile c = Some (total_tile c)).
  { intros r c Hr Hc.
    destruct (In_gg JNull _ _ _ r c (rect_op JNull o h w g R Hh) Hr Hc) as (i & j & Hi & Hj & ->).
    rewrite gg_op with (h := h) (w := w) by assumption.
    destruct (src_bound o h w i j Hi Hj) as [B1 B2].
    destruct (gg_In JNull h w g _ _ R B1 B2) as [I1 I2]. eapply HR; eassumption. }
  exists (map (map (cellf o)) (grid_op JNull o g)).
  assert (Hc : forall r c, In r (grid_op JNull o g) -> In c r ->
    cell_op o c = Some (cellf o c) /\ cell_tile (cellf o c) = Some (tau o (total_tile c))).
  { intros r c Hr Hcc. destruct (cell_op_reads o c _ (HR' r c Hr Hcc)) as (c' & E1 & E2).
    unfold cellf. rewrite E1. auto. }
  split; [|split].
  - unfold rotate_line. apply omap_map_some. intros r Hr. apply omap_map_some. intros c Hcc.
    apply (Hc r c); assumption.
  - apply rect_map. apply rect_op; assumption.
  - rewrite (grid_op_map JNull Empty total_tile o h w) by assumption.
    unfold read_grid. 
    rewrite omap_map_some with (g := map total_tile).
    + f_equal. rewrite !map_map. apply map_ext_in. intros r Hr. rewrite !map_map. apply map_ext_in.
      intros c Hcc. destruct (Hc r c Hr Hcc) as [_ E]. unfold total_tile at 1. rewrite E. reflexivity.
    + intros r Hr. apply in_map_iff in Hr. destruct Hr as (r0 & <- & Hr).
      apply omap_map_some. intros c Hcc. apply in_map_iff in Hcc. destruct Hcc as (c0 & <- & Hcc).
      destruct (Hc r0 c0 Hr Hcc) as [_ E]. unfold total_tile. rewrite E. reflexivity.
Qed.

Lemma layout_of_gg g x y : layout_of g (x, y) = gg Empty g (Z.to_nat y) (Z.to_nat x).
Proof. reflexivity. Qed.

Definition grid_area (h w : nat) (wx wy : bool) : area :=
  {| aw := Z.of_nat w; ah := Z.of_nat h; wrapx := wx; wrapy := wy |}.

Lemma layout_of_op o h w (G : list (list tile)) wx wy p : rect h w G -> (0 < h)%nat ->
  (forall r t, In r G -> In t r -> valid_tile t) ->
  inside (grid_area h w wx wy) p ->
  layout_of (map (map (tau o)) (grid_op Empty o G)) (image_pos (sym_of o) (grid_area h w wx wy) p)
    = image_tile (sym_of o) (layout_of G p).
Proof.
  intros R Hh HV. destruct p as [x y]. unfold inside. cbn [fst snd grid_area aw ah]. intros [Hx Hy].
  destruct (image_pos (sym_of o) (grid_area h w wx wy) (x, y)) as [x' y'] eqn:E.
  rewrite !layout_of_gg.
  assert (B : (Z.to_nat y' < oh o h w)%nat /\ (Z.to_nat x' < ow o h w)%nat /\
    src o h w (Z.to_nat y') (Z.to_nat x') = (Z.to_nat y, Z.to_nat x)).
  { destruct o; cbn in E; injection E as <- <-; cbn; (split; [lia|split; [lia|]]); f_equal; lia. }
  destruct B as (B1 & B2 & B3).
  assert (Emap : gg Empty (map (map (tau o)) (grid_op Empty o G)) (Z.to_nat y') (Z.to_nat x')
     = tau o (gg Empty (grid_op Empty o G) (Z.to_nat y') (Z.to_nat x'))).
  { assert (R' := rect_op Empty o h w G R Hh). unfold gg.
    rewrite nth_indep with (d' := map (tau o) []) by (rewrite map_length; destruct R'; lia).
    rewrite map_nth. rewrite nth_indep with (d' := tau o Empty)
      by (rewrite map_length, (rect_row _ _ _ _ R' B1); lia).
    rewrite map_nth. reflexivity. }
  rewrite Emap. rewrite gg_op with (h := h) (w := w) by assumption. rewrite B3. cbn [fst snd].
  apply tau_image.
  destruct (gg_In Empty h w G (Z.to_nat y) (Z.to_nat x) R) as [I1 I2]; [lia|lia|]. eapply HV; eassumption.
Qed.

Lemma read_grid_valid g G : read_grid g = Some G -> forall r t, In r G -> In t r -> valid_tile t.
Proof.
  intros H. destruct (read_grid_map g G H) as [-> HR]. intros r t Hr Ht.
  apply in_map_iff in Hr. destruct Hr as (r0 & <- & Hr). apply in_map_iff in Ht. destruct Ht as (c & <- & Hc).
  specialize (HR r0 c Hr Hc). unfold cell_tile in HR. destruct (jget _ c) as [tj|]; [|discriminate].
  eapply tile_read_valid. exact HR.
Qed.

Lemma rotate_line_valid o h w g G wx wy : rect h w g -> (0 < h)%nat -> (0 < w)%nat -> read_grid g = Some G ->
  exists g' G', rotate_line o g = Some g' /\ read_grid g' = Some G' /\
    (forall p, inside (grid_area h w wx wy) p ->
       layout_of G' (image_pos (sym_of o) (grid_area h w wx wy) p) = image_tile (sym_of o) (layout_of G p)) /\
    (forall L, valid_layout (grid_area h w wx wy) (layout_of G) L <->
               valid_layout (image_area (sym_of o) (grid_area h w wx wy)) (layout_of G') L).
Proof.
  intros R Hh Hw HG. destruct (rotate_line_reads o h w g G R Hh Hw HG) as (g' & E1 & _ & E2).
  exists g'. eexists. split; [exact E1|]. split; [exact E2|].
  assert (RG : rect h w G).
  { destruct (read_grid_map g G HG) as [-> _]. apply rect_map. assumption. }
  assert (HT : forall p, inside (grid_area h w wx wy) p ->
       layout_of (map (map (tau o)) (grid_op Empty o G)) (image_pos (sym_of o) (grid_area h w wx wy) p)
       = image_tile (sym_of o) (layout_of G p)).
  { intros p Hp. apply layout_of_op; auto. eapply read_grid_valid; eassumption. }
  split; [exact HT|]. intros L. apply valid_symmetric; cbn; try lia. exact HT.
Qed.
