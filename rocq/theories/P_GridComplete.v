(** Every valid layout, with any colours, is the decoding of an assignment that
    satisfies the grid's clauses. *)
From Coq Require Import String ZArith List Bool Lia.
From Verif Require Import Spec_Cnf Spec_Tile Spec_Layout M_Json M_Tile M_Util M_Card M_Template M_Grid
  P_Cnf P_Util P_Card P_Tile P_Layout P_List P_Template P_Walk P_Grid P_GridSound.
Import ListNotations.
Open Scope Z_scope.

Lemma existsb_ext {X} (f h : X -> bool) l : (forall x, f x = h x) -> existsb f l = existsb h l.
Proof. intros H. induction l as [|x l IH]; cbn; [reflexivity|]. rewrite H, IH. reflexivity. Qed.

(** * Assignments given by a table *)
Definition var_owner (g : grid) (v : Z) : pos :=
  let i := (v - gtop g - 1) / tile_size g in (i mod width (geo g), i / width (geo g)).
Definition var_offset (g : grid) (v : Z) : Z := (v - gtop g - 1) mod tile_size g.

Definition table (g : grid) (F : pos -> Z -> bool) (a0 : assignment) : assignment := fun v =>
  if (gtop g <? v) && (v <=? gtop g + width (geo g) * height (geo g) * tile_size g) &&
     (var_offset g v <? 20 + 3 * Z.of_nat (colour_bits g))
  then F (var_owner g v) (var_offset g v) else a0 v.

Lemma owner_offset g p o : wf_grid g -> inside (garea g) p -> 0 <= o < tile_size g ->
  gtop g < tile_base g p + 1 + o <= gtop g + width (geo g) * height (geo g) * tile_size g /\
  var_owner g (tile_base g p + 1 + o) = p /\ var_offset g (tile_base g p + 1 + o) = o.
Proof.
  intros ((Hw & Hh) & _) [Hx Hy] Ho. cbn [garea area_of aw ah] in *. destruct p as [x y]. cbn [fst snd] in *.
  unfold var_owner, var_offset, tile_base. cbn [fst snd].
  set (w := width (geo g)) in *. set (h := height (geo g)) in *. set (s := tile_size g) in *. clearbody w h s.
  assert (Hi : 0 <= y * w + x < w * h) by nia.
  set (i := y * w + x) in *.
  replace (gtop g + i * s + 1 + o - gtop g - 1) with (o + i * s) by lia.
  rewrite Z.div_add by lia. rewrite Z.div_small by lia. rewrite Z.mod_add by lia. rewrite (Z.mod_small o) by lia.
  split; [|split; [|reflexivity]].
  - clearbody i. nia.
  - unfold i. replace (0 + (y * w + x)) with (x + y * w) by lia. rewrite Z.mod_add, Z.div_add by lia.
    rewrite Z.mod_small, Z.div_small by lia. f_equal.
Qed.

Lemma table_at g F a0 p o : wf_grid g -> inside (garea g) p -> 0 <= o < 20 + 3 * Z.of_nat (colour_bits g) ->
  evl (table g F a0) (tile_base g p + 1 + o) = F p o.
Proof.
  intros W Hp Ho. pose proof (tile_size_pos g) as Hs.
  destruct (owner_offset g p o W Hp ltac:(lia)) as (H1 & H2 & H3).
  pose proof (tile_base_nonneg g p W Hp). destruct W as (_ & Wt & _).
  unfold evl. replace (0 <? tile_base g p + 1 + o) with true by (symmetry; apply Z.ltb_lt; lia).
  unfold table. rewrite H2, H3.
  replace (gtop g <? tile_base g p + 1 + o) with true by (symmetry; apply Z.ltb_lt; lia).
  replace (tile_base g p + 1 + o <=? _) with true by (symmetry; apply Z.leb_le; lia).
  replace (o <? 20 + 3 * Z.of_nat (colour_bits g)) with true by (symmetry; apply Z.ltb_lt; lia). reflexivity.
Qed.

(** The table leaves the variables of the extras, and those of others, alone. *)
Lemma table_extras g F a0 p o : wf_grid g -> inside (garea g) p -> 20 + 3 * Z.of_nat (colour_bits g) <= o < tile_size g ->
  table g F a0 (tile_base g p + 1 + o) = a0 (tile_base g p + 1 + o).
Proof.
  intros W Hp Ho. destruct (owner_offset g p o W Hp ltac:(lia)) as (H1 & H2 & H3).
  unfold table. rewrite H3. replace (o <? 20 + 3 * Z.of_nat (colour_bits g)) with false by (symmetry; apply Z.ltb_ge; lia).
  rewrite andb_false_r. reflexivity.
Qed.
Lemma table_low g F a0 v : v <= gtop g -> table g F a0 v = a0 v.
Proof. intros H. unfold table. replace (gtop g <? v) with false by (symmetry; apply Z.ltb_ge; lia). reflexivity. Qed.
Lemma table_high g F a0 v : gtop g + width (geo g) * height (geo g) * tile_size g < v -> table g F a0 v = a0 v.
Proof. intros H. unfold table. replace (v <=? _) with false by (symmetry; apply Z.leb_gt; lia). rewrite andb_false_r. reflexivity. Qed.

(** Values of a block of variables given by the bits of a number. *)
Lemma num_testbits n k s : 0 <= n -> num (map (fun i => Z.testbit n (Z.of_nat i)) (seq s k)) = (n / 2 ^ Z.of_nat s) mod 2 ^ Z.of_nat k.
Proof.
  intros Hn. revert s. induction k as [|k IH]; intros s; cbn [seq map num]; [rewrite Z.mod_1_r; reflexivity|].
  rewrite IH. rewrite !Nat2Z.inj_succ, !Z.pow_succ_r by lia.
  set (q := 2 ^ Z.of_nat k). assert (Hq : 0 < q) by (apply Z.pow_pos_nonneg; lia).
  set (u := 2 ^ Z.of_nat s). assert (Hu : 0 < u) by (apply Z.pow_pos_nonneg; lia).
  rewrite Z.testbit_spec' by lia. fold u.
  replace (n / (2 * u)) with (n / u / 2) by (rewrite Z.div_div by lia; f_equal; lia).
  set (m := n / u). rewrite (Z.rem_mul_r m 2 q) by lia. reflexivity.
Qed.

(** * The fields of a layout *)
Definition takesb (t : tile) (d : dir) : bool :=
  match t with Belt i _ => dir_eqb i d | Underground e true => dir_eqb e d | Splitter e _ => dir_eqb e d | _ => false end.
Definition pushesb (t : tile) (d : dir) : bool :=
  match t with Belt _ o => dir_eqb o d | Underground e false => dir_eqb e d | Splitter e _ => dir_eqb e d | _ => false end.
Definition blocksb (t : tile) (d : dir) : bool :=
  match t with Underground e _ => same_axis e d | _ => false end.
Definition entranceb (t : tile) (d : dir) : bool :=
  match t with Underground e true => dir_eqb e d | _ => false end.

Lemma dir_eqb_iff d e : dir_eqb d e = true <-> d = e.
Proof. destruct (dir_eqb_spec d e); split; congruence. Qed.
Lemma takesb_iff t d : takesb t d = true <-> takes t d.
Proof. destruct t as [| |i o|e []|e h|e k|x y]; cbn; rewrite ?dir_eqb_iff; try tauto; split; congruence || tauto. Qed.
Lemma pushesb_iff t d : pushesb t d = true <-> pushes t d.
Proof. destruct t as [| |i o|e []|e h|e k|x y]; cbn; rewrite ?dir_eqb_iff; try tauto; split; congruence || tauto. Qed.
Lemma blocksb_iff t d : blocksb t d = true <-> blocks_tunnel t d.
Proof. destruct t as [| |i o|e b|e h|e k|x y]; cbn; split; congruence || tauto. Qed.
Lemma entranceb_iff t d : entranceb t d = true <-> t = Underground d true.
Proof. destruct t as [| |i o|e []|e h|e k|x y]; cbn; rewrite ?dir_eqb_iff; split; congruence. Qed.

Section Fields.
  Variable A : area.
  Variable T : layout.
  Variable L : Z.

  Definition f_in (p : pos) (d : dir) : bool :=
    takesb (T p) d && match neighbour A p (opposite d) with Some q => pushesb (T q) d | None => true end.
  Definition f_out (p : pos) (d : dir) : bool :=
    pushesb (T p) d && match neighbour A p d with Some q => takesb (T q) d | None => true end.
  Definition clear_behind (p : pos) (d : dir) (i : Z) : bool :=
    match ahead A p d (- i) with Some r => negb (blocksb (T r) d) | None => false end.
  Definition f_under (p : pos) (d : dir) : bool :=
    existsb (fun j =>
      match ahead A p d (- (j + 1)) with
      | Some e => entranceb (T e) d && forallb (clear_behind p d) (range (j + 1))
      | None => false
      end) (range L).
  Definition is_kind (k : kind) (t : tile) : bool :=
    match t with
    | Belt _ _ => keqb k KB | Empty => keqb k KE | Splitter _ _ => keqb k KS
    | Underground _ true => keqb k KI | Underground _ false => keqb k KO
    | _ => false
    end.
  Definition headb (t : tile) : bool := match t with Splitter _ h => h | _ => false end.

  Lemma f_under_iff p d : f_under p d = true <->
    exists j e, 1 <= j <= L /\ ahead A p d (- j) = Some e /\ T e = Underground d true /\
      forall i, 0 <= i < j -> exists r, ahead A p d (- i) = Some r /\ ~ blocks_tunnel (T r) d.
  Proof.
    unfold f_under. rewrite existsb_exists. split.
    - intros (j & Hj & E). apply range_in in Hj. destruct (ahead A p d (- (j + 1))) as [e|] eqn:Ee; [|discriminate].
      apply andb_true_iff in E. destruct E as [E1 E2]. apply entranceb_iff in E1. rewrite forallb_forall in E2.
      exists (j + 1), e. split; [lia|]. split; [exact Ee|]. split; [exact E1|].
      intros i Hi. specialize (E2 i (proj2 (range_in _ _) Hi)). unfold clear_behind in E2.
      destruct (ahead A p d (- i)) as [r|]; [|discriminate]. exists r. split; [reflexivity|].
      rewrite <- blocksb_iff. destruct (blocksb (T r) d); discriminate.
    - intros (j & e & Hj & Ee & Te & Hc). exists (j - 1). split; [apply range_in; lia|].
      replace (j - 1 + 1) with j by lia. rewrite Ee. apply andb_true_iff. split; [apply entranceb_iff; exact Te|].
      apply forallb_forall. intros i Hi. apply range_in in Hi. destruct (Hc i Hi) as (r & Er & Nr).
      unfold clear_behind. rewrite Er. rewrite <- blocksb_iff in Nr. destruct (blocksb (T r) d); [exfalso; apply Nr; reflexivity|reflexivity].
  Qed.

  Hypothesis WA : wf_area A.
  Hypothesis VL : valid_layout A T L.

  Lemma f_in_takes p d : f_in p d = true -> takes (T p) d.
  Proof. unfold f_in. intros H. apply andb_true_iff in H. apply takesb_iff. apply H. Qed.
  Lemma f_out_pushes p d : f_out p d = true -> pushes (T p) d.
  Proof. unfold f_out. intros H. apply andb_true_iff in H. apply pushesb_iff. apply H. Qed.
  Lemma f_in_ns p d : inside A p -> ~ is_splitter_tile (T p) -> f_in p d = takesb (T p) d.
  Proof.
    intros Hp N. unfold f_in. destruct (takesb (T p) d) eqn:E; [|reflexivity]. cbn [andb].
    destruct (neighbour A p (opposite d)) as [q|] eqn:En; [|reflexivity].
    destruct VL as (_ & _ & _ & V & _). apply pushesb_iff. apply (V p d q); auto. apply takesb_iff. exact E.
  Qed.
  Lemma f_out_ns p d : inside A p -> ~ is_splitter_tile (T p) -> f_out p d = pushesb (T p) d.
  Proof.
    intros Hp N. unfold f_out. destruct (pushesb (T p) d) eqn:E; [|reflexivity]. cbn [andb].
    destruct (neighbour A p d) as [q|] eqn:En; [|reflexivity].
    destruct VL as (_ & _ & V & _). apply takesb_iff. apply (V p d q); auto. apply pushesb_iff. exact E.
  Qed.
  Lemma f_splitter p d h : inside A p -> T p = Splitter d h -> f_in p d = true \/ f_out p d = true.
  Proof.
    intros Hp E. destruct VL as (_ & _ & _ & _ & _ & V & _). unfold f_in, f_out. rewrite E. cbn [takesb pushesb].
    rewrite dir_eqb_refl. cbn [andb]. destruct (V p d h Hp E) as [H|H]; [left|right].
    - destruct (neighbour A p (opposite d)) as [q|]; [|reflexivity]. apply pushesb_iff. auto.
    - destruct (neighbour A p d) as [q|]; [|reflexivity]. apply takesb_iff. auto.
  Qed.
  Lemma f_link p d q : inside A p -> neighbour A p d = Some q -> f_out p d = f_in q d.
  Proof.
    intros Hp E. unfold f_out, f_in. rewrite E, (neighbour_back A p d q WA Hp E). apply andb_comm.
  Qed.

  (** A hidden segment lies strictly inside a tunnel. *)
  Lemma f_under_inside p d : inside A p -> f_under p d = true ->
    exists j k e q, 1 <= j < k /\ k <= L + 1 /\ inside A e /\ ahead A p d (- j) = Some e /\ ahead A e d j = Some p /\ T e = Underground d true /\
      ahead A e d k = Some q /\ T q = Underground d false /\
      forall i, 0 < i < k -> exists r, ahead A e d i = Some r /\ ~ blocks_tunnel (T r) d.
  Proof.
    intros Hp H. apply f_under_iff in H. destruct H as (j & e & Hj & Ee & Te & Hc).
    assert (He : inside A e) by (eapply ahead_inside; exact Ee).
    assert (Eb : forall i, ahead A e d i = ahead A p d (- j + i)) by (intros i; apply ahead_add; assumption).
    destruct VL as (_ & _ & _ & _ & _ & _ & V & _). destruct (V e d He Te) as (q & Tq & k & Hk & Eq & Hb).
    exists j, k, e, q. repeat match goal with |- _ /\ _ => split end; auto; try lia.
    - destruct (Z.lt_ge_cases j k) as [|Hle]; [assumption|]. exfalso.
      destruct (Hc (j - k) ltac:(lia)) as (r & Er & Nr). rewrite Eb in Eq. replace (- j + k) with (- (j - k)) in Eq by lia.
      rewrite Eq in Er. injection Er as <-. apply Nr. rewrite Tq. cbn. destruct d; reflexivity.
    - rewrite Eb. replace (- j + j) with 0 by lia. apply ahead_0. exact Hp.
  Qed.

  Lemma f_under_clear p d : inside A p -> f_under p d = true -> ~ blocks_tunnel (T p) d.
  Proof.
    intros Hp H. apply f_under_iff in H. destruct H as (j & e & Hj & Ee & Te & Hc).
    destruct (Hc 0 ltac:(lia)) as (r & Er & Nr). cbn in Er. rewrite ahead_0 in Er by exact Hp. congruence.
  Qed.

  (** The next end met from a hidden segment is its exit. *)
  Lemma f_under_front p d : inside A p -> f_under p d = true ->
    exists m q, 1 <= m /\ ahead A p d m = Some q /\ T q = Underground d false /\
      forall i, 0 <= i < m -> exists r, ahead A p d i = Some r /\ ~ blocks_tunnel (T r) d.
  Proof.
    intros Hp H. destruct (f_under_inside p d Hp H) as (j & k & e & q & Hj & Hk & He & Ee & Ep & Te & Eq & Tq & Hc).
    exists (k - j), q. split; [lia|]. split; [rewrite (ahead_add A e d j _ p WA Ep); replace (j + (k - j)) with k by lia; exact Eq|].
    split; [exact Tq|]. intros i Hi. rewrite (ahead_add A e d j i p WA Ep). apply Hc. lia.
  Qed.

  Lemma f_under_one p d : inside A p -> f_under p d = true -> f_under p (opposite d) = true -> False.
  Proof.
    intros Hp H1 H2. destruct (f_under_front p d Hp H1) as (m & q & Hm & Eq & Tq & Hc).
    apply f_under_iff in H2. destruct H2 as (j & e & Hj & Ee & Te & Hc').
    rewrite ahead_opposite, Z.opp_involutive in Ee.
    destruct (Z.lt_trichotomy m j) as [Hlt|[->|Hlt]].
    - destruct (Hc' m ltac:(lia)) as (r & Er & Nr). rewrite ahead_opposite, Z.opp_involutive, Eq in Er. injection Er as <-.
      apply Nr. rewrite Tq. cbn. destruct d; reflexivity.
    - congruence.
    - destruct (Hc j ltac:(lia)) as (r & Er & Nr). rewrite Ee in Er. injection Er as <-. apply Nr. rewrite Te. cbn. destruct d; reflexivity.
  Qed.
End Fields.

(** * The assignment of a layout *)
Definition layout_fields (g : grid) (T : layout) (L : Z) (C Cx Cy : pos -> Z) (p : pos) (o : Z) : bool :=
  let A := garea g in
  let fi := f_in A T p in let fo := f_out A T p in let fu := f_under A T L p in
  if o <? 20 then
    nth (Z.to_nat o)
      [is_kind KB (T p); is_kind KE (T p); is_kind KS (T p); is_kind KI (T p); is_kind KO (T p); headb (T p);
       existsb fi (in_sides g p); existsb fo (map opposite (in_sides g p));
       fi RIGHT; fi UP; fi LEFT; fi DOWN; fo RIGHT; fo UP; fo LEFT; fo DOWN; fu RIGHT; fu UP; fu LEFT; fu DOWN] false
  else
    let b := Z.of_nat (colour_bits g) in let i := o - 20 in
    Z.testbit (if i <? b then C p else if i <? 2 * b then Cx p else Cy p) (if i <? b then i else if i <? 2 * b then i - b else i - 2 * b).

Definition layout_assignment g T L C Cx Cy (a0 : assignment) : assignment := table g (layout_fields g T L C Cx Cy) a0.

Section Complete.
  Variable g : grid.
  Hypothesis W : wf_grid g.
  Variable T : layout.
  Variable L : Z.
  Variables C Cx Cy : pos -> Z.
  Variable a0 : assignment.
  Notation A := (garea g).
  Notation a := (layout_assignment g T L C Cx Cy a0).
  Notation V p := (view_of a (tile_at g p)).
  Hypothesis VL : valid_layout A T L.

  Let HA : wf_area A := WA g W.

  Lemma view_layout p : inside A p ->
    vb (V p) = is_kind KB (T p) /\ ve (V p) = is_kind KE (T p) /\ vs (V p) = is_kind KS (T p) /\
    vui (V p) = is_kind KI (T p) /\ vuo (V p) = is_kind KO (T p) /\ vh (V p) = headb (T p) /\
    vinp (V p) = existsb (f_in A T p) (in_sides g p) /\ voutp (V p) = existsb (f_out A T p) (map opposite (in_sides g p)) /\
    (forall d, vi (V p) d = f_in A T p d) /\ (forall d, vo (V p) d = f_out A T p d) /\ (forall d, vu (V p) d = f_under A T L p d).
  Proof.
    intros Hp.
    assert (X : forall v o, v = tile_base g p + 1 + o -> 0 <= o < 20 -> evl a v = layout_fields g T L C Cx Cy p o).
    { intros v o -> Ho. unfold layout_assignment. apply table_at; auto. lia. }
    cbn [view_of vb ve vs vui vuo vh vinp voutp vi vo vu tile_at tile_vars is_belt is_empty is_splitter is_underground_in
      is_underground_out is_splitter_head is_input is_output input_dir output_dir underground].
    repeat match goal with |- _ /\ _ => split end.
    - apply (X _ 0); lia. - apply (X _ 1); lia. - apply (X _ 2); lia. - apply (X _ 3); lia. - apply (X _ 4); lia.
    - apply (X _ 5); lia. - apply (X _ 6); lia. - apply (X _ 7); lia.
    - intros []; cbn [dir_value]; [apply (X _ 8)|apply (X _ 9)|apply (X _ 10)|apply (X _ 11)]; lia.
    - intros []; cbn [dir_value]; [apply (X _ 12)|apply (X _ 13)|apply (X _ 14)|apply (X _ 15)]; lia.
    - intros []; cbn [dir_value]; [apply (X _ 16)|apply (X _ 17)|apply (X _ 18)|apply (X _ 19)]; lia.
  Qed.

  Lemma layout_shows p : inside A p -> shows (V p) (T p).
  Proof.
    intros Hp. destruct (view_layout p Hp) as (B & E & S & UI & UO & H & _ & _ & Vi & Vo & _).
    unfold shows. rewrite B, E, S, UI, UO, H.
    destruct VL as (V1 & _). pose proof (V1 p Hp) as K.
    pose proof (f_in_ns A T L VL p) as Fi. pose proof (f_out_ns A T L VL p) as Fo. pose proof (f_splitter A T L VL p) as Fs.
    pose proof (f_in_takes A T p) as Ft. pose proof (f_out_pushes A T p) as Fp.
    destruct (T p) as [| |i o|e []|e h|e k|x y]; try contradiction; cbn in *.
    - repeat split; intros d; rewrite ?Vi, ?Vo, ?Fi, ?Fo; auto.
    - repeat split; auto; rewrite ?Vi, ?Vo; try (rewrite Fi by auto); try (rewrite Fo by auto); rewrite ?dir_eqb_iff;
        intros; try (symmetry; assumption); subst; apply dir_eqb_refl || reflexivity.
    - repeat split; auto; intros; rewrite ?Vi, ?Vo in *; try (rewrite Fi in * by auto); try (rewrite Fo in * by auto); rewrite ?dir_eqb_iff in *; auto.
    - repeat split; auto; intros; rewrite ?Vi, ?Vo in *; try (rewrite Fi in * by auto); try (rewrite Fo in * by auto); rewrite ?dir_eqb_iff in *; auto.
    - repeat split; auto; intros; rewrite ?Vi, ?Vo in *.
      + symmetry. apply Ft. assumption.
      + symmetry. apply Fp. assumption.
      + apply (Fs e h); auto.
  Qed.

  Lemma layout_tile_rules p : inside A p -> tile_rules (V p).
  Proof.
    intros Hp. pose proof (layout_shows p Hp) as S. destruct (view_layout p Hp) as (_ & _ & _ & _ & _ & _ & _ & _ & _ & _ & Vu).
    assert (U : forall d, ~ (vu (V p) d = true /\ vu (V p) (opposite d) = true)).
    { intros d [U1 U2]. rewrite Vu in U1, U2. exact (f_under_one A T L HA VL p d Hp U1 U2). }
    pose proof (U RIGHT) as UX. pose proof (U UP) as UY. cbn [opposite] in UX, UY. clear U Vu.
    set (v := V p) in *. clearbody v. destruct S as (S & B & E & Sp & UI & UO & H).
    destruct (T p) as [| |i o|e []|e h|e k|x y]; try contradiction; cbn in S.
    - destruct S as (_ & I1 & O1). constructor; auto; try (intros; congruence); first [exists KE; auto 10 | intros d e C1 C2; rewrite I1 in C1; discriminate | intros d e C1 C2; rewrite O1 in C1; discriminate].
    - destruct S as (_ & I1 & O1 & N). constructor; auto; try (intros; congruence); first [exists KB; auto 10 | intros _; split; [exists i; apply I1|exists o; apply O1]; reflexivity | intros d e C1 C2; apply I1 in C1; apply I1 in C2; congruence | intros d e C1 C2; apply O1 in C1; apply O1 in C2; congruence | intros d C1; apply I1 in C1; subst d; destruct (vo v (opposite i)) eqn:C2; [|reflexivity]; apply O1 in C2; congruence].
    - destruct S as (_ & I1 & O1). constructor; auto; try (intros; congruence); first [exists KI; auto 10 | intros _; split; [exists e; apply I1; reflexivity|exact O1] | intros d e' C1 C2; apply I1 in C1; apply I1 in C2; congruence | intros d e' C1 C2; rewrite O1 in C1; discriminate].
    - destruct S as (_ & I1 & O1). constructor; auto; try (intros; congruence); first [exists KO; auto 10 | intros _; split; [exists e; apply O1; reflexivity|exact I1] | intros d e' C1 C2; rewrite I1 in C1; discriminate | intros d e' C1 C2; apply O1 in C1; apply O1 in C2; congruence | intros d C1; rewrite I1 in C1; discriminate].
    - destruct S as (_ & Hh & I1 & O1 & N). constructor; auto; try (intros; congruence); first [exists KS; auto 10 | intros _; exists e; exact N | intros d e' C1 C2; apply I1 in C1; apply I1 in C2; congruence | intros d e' C1 C2; apply O1 in C1; apply O1 in C2; congruence | intros d e' _ C1 C2; apply I1 in C1; apply O1 in C2; congruence | intros d C1; apply I1 in C1; subst d; destruct (vo v (opposite e)) eqn:C2; [|reflexivity]; apply O1 in C2; destruct e; discriminate].
  Qed.

  Lemma decode_layout p : inside A p -> decoded g a p = Some (T p).
  Proof.
    intros Hp. destruct (read_tile_shows _ _ (layout_tile_rules p Hp)) as (t & E & S). unfold decoded. rewrite E. f_equal.
    apply (shows_unique (V p)); [exact S|apply layout_shows; exact Hp].
  Qed.

  Lemma layout_edge_rule p : inside A p -> edge_rule g a p.
  Proof.
    intros Hp. destruct (view_layout p Hp) as (_ & _ & _ & _ & _ & _ & Ein & Eout & Vi & Vo & _).
    unfold edge_rule, flag_rule. rewrite Ein, Eout. split; apply existsb_ext; intros d; symmetry; auto.
  Qed.

  Lemma faces_splitter p d : inside A p -> faces (V p) d -> vs (V p) = true -> T p = Splitter d (vh (V p)).
  Proof.
    intros Hp F S. pose proof (layout_shows p Hp) as (K & _ & _ & Ks & _). rewrite S in Ks.
    destruct (T p) as [| |i o|e []|e h|e k|x y]; try discriminate. cbn in K. destruct K as (_ & <- & I1 & O1 & _).
    f_equal. destruct F as [F|F]; symmetry; auto.
  Qed.
  Lemma splitter_faces p d h : inside A p -> T p = Splitter d h -> vs (V p) = true /\ vh (V p) = h /\ faces (V p) d.
  Proof. intros Hp E. pose proof (layout_shows p Hp) as (K & _). rewrite E in K. cbn in K. unfold faces. tauto. Qed.

  Lemma layout_pair_rule p d : inside A p -> pair_rule g a p d.
  Proof.
    intros Hp. destruct VL as (_ & VP & _).
    assert (R : vh (V p) = true -> vs (V p) = true) by (apply (layout_tile_rules p Hp)).
    unfold pair_rule. destruct (neighbour A p (anticlockwise d)) as [q|] eqn:En.
    - assert (Hq : inside A q) by (eapply ahead_inside; exact En). split.
      + intros F H. pose proof (faces_splitter p d Hp F (R H)) as E. rewrite H in E.
        destruct (VP p d true Hp E) as (q' & Eq & Tq). cbn [mate_side] in Eq. rewrite En in Eq. injection Eq as <-.
        destruct (splitter_faces q d _ Hq Tq) as (S1 & S2 & S3). auto.
      + intros F S H. pose proof (faces_splitter p _ Hp F S) as E. rewrite H in E.
        destruct (VP p _ false Hp E) as (q' & Eq & Tq). cbn [mate_side] in Eq.
        replace (clockwise (opposite d)) with (anticlockwise d) in Eq by (destruct d; reflexivity).
        rewrite En in Eq. injection Eq as <-.
        destruct (splitter_faces q _ _ Hq Tq) as (S1 & S2 & S3). auto.
    - split.
      + intros F S. destruct (vh (V p)) eqn:H; [|reflexivity]. pose proof (faces_splitter p d Hp F S) as E. rewrite H in E.
        destruct (VP p d true Hp E) as (q' & Eq & Tq). cbn [mate_side] in Eq. congruence.
      + intros F S. destruct (vh (V p)) eqn:H; [reflexivity|]. pose proof (faces_splitter p _ Hp F S) as E. rewrite H in E.
        destruct (VP p _ false Hp E) as (q' & Eq & Tq). cbn [mate_side] in Eq.
        replace (clockwise (opposite d)) with (anticlockwise d) in Eq by (destruct d; reflexivity). congruence.
  Qed.

  Lemma layout_link_rule p d : inside A p -> link_rule g a p d.
  Proof.
    intros Hp. unfold link_rule. destruct (neighbour A p d) as [q|] eqn:En; [|exact Logic.I].
    assert (Hq : inside A q) by (eapply ahead_inside; exact En).
    destruct (view_layout p Hp) as (_ & _ & _ & _ & _ & _ & _ & _ & Vi & Vo & _).
    destruct (view_layout q Hq) as (_ & _ & _ & _ & _ & _ & _ & _ & Vi' & Vo' & _).
    split; [rewrite Vo, Vi'; apply f_link; assumption|].
    intros I1 S1 S2 i o Ei Eo Hne _. destruct VL as (_ & _ & _ & _ & VS & _).
    pose proof (faces_splitter p d Hp (or_introl I1) S1) as Tp.
    pose proof (layout_shows q Hq) as (K & _ & _ & Ks & _). rewrite S2 in Ks. pose proof (layout_shows q Hq) as Sh.
    pose proof (shows_takes _ _ _ Sh Ei) as Tk. pose proof (shows_pushes _ _ _ Sh Eo) as Pk.
    destruct (T q) as [| |i' o'|e []|e h|e k|x y] eqn:Tq; try discriminate; cbn in Tk, Pk; try contradiction. subst i' o'.
    apply Hne. exact (VS p d _ q i o Hp Tp En Tq).
  Qed.

  Lemma layout_under_rule p d : inside A p -> under_rule g a p d.
  Proof.
    intros Hp. destruct VL as (_ & _ & _ & _ & _ & _ & VE & VX).
    destruct (view_layout p Hp) as (_ & _ & _ & _ & _ & _ & _ & _ & _ & _ & Vu).
    assert (Ent : forall p, inside A p -> forall d, vui (V p) = true -> vi (V p) d = true -> T p = Underground d true).
    { clear p Hp d Vu. intros p Hp d E1 E2. pose proof (layout_shows p Hp) as S. pose proof (shows_takes _ _ _ S E2) as Tk.
      destruct S as (_ & _ & _ & _ & S & _). rewrite E1 in S. destruct (T p) as [| |i o|e []|e h|e k|x y]; try discriminate. cbn in Tk. congruence. }
    assert (Ext : forall p, inside A p -> forall d, vuo (V p) = true -> vo (V p) d = true -> T p = Underground d false).
    { clear p Hp d Vu. intros p Hp d E1 E2. pose proof (layout_shows p Hp) as S. pose proof (shows_pushes _ _ _ S E2) as Tk.
      destruct S as (_ & _ & _ & _ & _ & S & _). rewrite E1 in S. destruct (T p) as [| |i o|e []|e h|e k|x y]; try discriminate. cbn in Tk. congruence. }
    assert (Nu : forall b, T p = Underground d b -> vu (V p) d = false /\ vu (V p) (opposite d) = false).
    { intros b E. split; rewrite Vu.
      - destruct (f_under A T L p d) eqn:U; [|reflexivity]. apply f_under_clear in U; [|exact Hp]. rewrite E in U. exfalso. apply U. cbn. destruct d; reflexivity.
      - destruct (f_under A T L p (opposite d)) eqn:U; [|reflexivity]. apply f_under_clear in U; [|exact Hp]. rewrite E in U. exfalso. apply U. cbn. destruct d; reflexivity. }
    unfold under_rule. split; [|split].
    - split; intros E1 E2; [apply (Nu true); apply Ent|apply (Nu false); apply Ext]; assumption.
    - intros q En. assert (Hq : inside A q) by (eapply ahead_inside; exact En).
      destruct (view_layout q Hq) as (_ & _ & _ & _ & _ & _ & _ & _ & _ & _ & Vuq). split.
      + intros E1 E2. rewrite Vuq. pose proof (Ent p Hp d E1 E2) as Tp. destruct (VE p d Hp Tp) as (x & Tx & k & Hk & Ek & Hc).
        apply f_under_iff. exists 1, p. split; [lia|]. unfold neighbour in En.
        change (Z.opp 1) with (-1). split; [rewrite (ahead_add A p d 1 (-1) q HA En); replace (1 + -1) with 0 by lia; apply ahead_0; exact Hp|]. split; [exact Tp|].
        intros i Hi. replace (- i) with 0 by lia. rewrite ahead_0 by exact Hq. exists q. split; [reflexivity|].
        destruct (Hc 1 ltac:(lia)) as (r & Er & Nr). congruence.
      + intros U1 U2. rewrite Vu in U1. rewrite Vuq in U2.
        destruct (f_under_inside A T L HA VL p d Hp U1) as (j & k & e & x & Hj & Hk & He & Ee & Ep & Te & Ex & Tx & Hc).
        assert (Eq : ahead A e d (j + 1) = Some q) by (rewrite <- (ahead_add A e d j 1 p HA Ep); exact En).
        destruct (Z.eq_dec (j + 1) k) as [E|N].
        * rewrite E in Eq. assert (x = q) by congruence. subst x.
          pose proof (layout_shows q Hq) as S. rewrite Tx in S. destruct S as ((S1 & S2 & S3) & _). split; [exact S1|apply S3; reflexivity].
        * exfalso. assert (U : f_under A T L q d = true); [|congruence].
          apply f_under_iff. exists (j + 1), e. split; [lia|].
          split; [apply (ahead_back A e d (j + 1) q HA He Eq)|]. split; [exact Te|].
          intros i Hi. rewrite (ahead_add A e d (j + 1) (- i) q HA Eq). apply Hc. lia.
    - intros q En. assert (Hq : inside A q) by (eapply ahead_inside; exact En).
      destruct (view_layout q Hq) as (_ & _ & _ & _ & _ & _ & _ & _ & _ & _ & Vuq). 
      unfold neighbour in En. rewrite ahead_opposite in En. change (Z.opp 1) with (-1) in En. split.
      + intros E1 E2. rewrite Vuq. pose proof (Ext p Hp d E1 E2) as Tp. destruct (VX p d Hp Tp) as (x & Hx & Tx & k & Hk & Ek & Hc).
        assert (Eq : ahead A x d (k - 1) = Some q).
        { rewrite <- En. rewrite (ahead_add A x d k (-1) p HA Ek). f_equal. }
        apply f_under_iff. exists (k - 1), x. split; [lia|].
        split; [apply (ahead_back A x d (k - 1) q HA Hx Eq)|]. split; [exact Tx|].
        intros i Hi. rewrite (ahead_add A x d (k - 1) (- i) q HA Eq). apply Hc. lia.
      + intros U1 U2. rewrite Vu in U1. rewrite Vuq in U2.
        apply f_under_iff in U1. destruct U1 as (j & e & Hj & Ee & Te & Hc).
        destruct (Z.eq_dec j 1) as [->|N].
        * change (Z.opp 1) with (-1) in Ee. assert (e = q) by congruence. subst e. pose proof (layout_shows q Hq) as S. rewrite Te in S. destruct S as ((S1 & S2 & S3) & _). split; [exact S1|apply S2; reflexivity].
        * exfalso. assert (U : f_under A T L q d = true); [|congruence].
          apply f_under_iff. exists (j - 1), e. split; [lia|].
          split; [rewrite (ahead_add A p d (-1) _ q HA En); rewrite <- Ee; f_equal; lia|]. split; [exact Te|].
          intros i Hi. rewrite (ahead_add A p d (-1) (- i) q HA En). replace (-1 + - i) with (- (i + 1)) by lia. apply Hc. lia.
  Qed.

  Lemma layout_length_rule : (forall l, glen g = Some l -> L <= l) -> length_rule g a.
  Proof.
    intros HL. unfold length_rule. pose proof W as (_ & _ & _ & Hl). destruct (glen g) as [l|]; [|exact Logic.I]. specialize (HL l eq_refl).
    intros p d Hp C'.
    assert (U : forall i, 0 <= i <= l -> exists q, ahead A p d i = Some q /\ f_under A T L q d = true).
    { intros i Hi. destruct (C' i Hi) as (q & Eq & U). exists q. split; [exact Eq|].
      assert (Hq : inside A q) by (eapply ahead_inside; exact Eq).
      destruct (view_layout q Hq) as (_ & _ & _ & _ & _ & _ & _ & _ & _ & _ & Vu). rewrite <- Vu. exact U. }
    destruct (U 0 ltac:(lia)) as (p' & Ep' & U0). rewrite ahead_0 in Ep' by exact Hp. injection Ep' as <-.
    destruct (f_under_inside A T L HA VL p d Hp U0) as (j & k & e & x & Hj & Hk & He & Ee & Ep & Te & Ex & Tx & Hc).
    destruct (U (k - j) ltac:(lia)) as (q & Eq & Uq). rewrite (ahead_add A e d j _ p HA Ep) in Eq. replace (j + (k - j)) with k in Eq by lia.
    assert (q = x) by congruence. subst q. apply f_under_clear in Uq; [|eapply ahead_inside; exact Ex].
    apply Uq. rewrite Tx. cbn. destruct d; reflexivity.
  Qed.

  (** Blocked edges do not wrap. *)
  Definition edges_closed (e : edges) : Prop :=
    let '(min_x, min_y, max_x, max_y) := expand_edges e in
    (wrap_x (geo g) = true -> min_x = false /\ max_x = false) /\
    (wrap_y (geo g) = true -> min_y = false /\ max_y = false).

  Lemma at_edge_none e p d : edges_closed e -> inside A p -> at_edge g e p d -> neighbour A p d = None.
  Proof.
    unfold edges_closed, at_edge. destruct (expand_edges e) as [[[mx my] Mx] My]. intros [E1 E2] [Hx Hy] H.
    destruct p as [x y]. cbn [garea area_of aw ah fst snd] in *.
    unfold neighbour, ahead, place, insideb. cbn [garea area_of aw ah wrapx wrapy fst snd].
    assert (X : wrap_x (geo g) = true -> mx = true \/ Mx = true -> False) by (intros E; destruct (E1 E); intuition congruence).
    assert (Y : wrap_y (geo g) = true -> my = true \/ My = true -> False) by (intros E; destruct (E2 E); intuition congruence).
    destruct d; destruct H as [Hm ->]; cbn [step_x step_y]; rewrite Hm in *.
    - destruct (wrap_x (geo g)); [exfalso; auto|].
      replace (width (geo g) - 1 + 1 * 1 <? width (geo g)) with false by (symmetry; apply Z.ltb_ge; lia). rewrite andb_false_r. reflexivity.
    - destruct (wrap_y (geo g)); [exfalso; auto|]. replace (0 <=? 0 + 1 * -1) with false by reflexivity. cbn [andb]. rewrite andb_false_r. reflexivity.
    - destruct (wrap_x (geo g)); [exfalso; auto|]. replace (0 <=? 0 + 1 * -1) with false by reflexivity. reflexivity.
    - destruct (wrap_y (geo g)); [exfalso; auto|].
      replace (height (geo g) - 1 + 1 * 1 <? height (geo g)) with false by (symmetry; apply Z.ltb_ge; lia). rewrite !andb_false_r. reflexivity.
  Qed.

  Lemma layout_edge_under_rule e : edges_closed e -> edge_under_rule g a e.
  Proof.
    intros EC p d Hp He. pose proof (at_edge_none e p d EC Hp He) as En.
    destruct (view_layout p Hp) as (_ & _ & _ & _ & _ & _ & _ & _ & _ & _ & Vu). rewrite !Vu.
    destruct VL as (_ & _ & _ & _ & _ & _ & VE & VX).
    split; [split|split].
    - destruct (f_under A T L p d) eqn:U; [|reflexivity]. exfalso.
      destruct (f_under_front A T L HA VL p d Hp U) as (m & q & Hm & Eq & Tq & Hc).
      destruct (Z.eq_dec m 1) as [->|N]; [unfold neighbour in En; congruence|].
      destruct (Hc 1 ltac:(lia)) as (r & Er & _). unfold neighbour in En. congruence.
    - destruct (f_under A T L p (opposite d)) eqn:U; [|reflexivity]. exfalso.
      apply f_under_iff in U. destruct U as (j & e' & Hj & Ee & Te & Hc). unfold neighbour in En.
      destruct (Z.eq_dec j 1) as [->|N].
      + rewrite ahead_opposite in Ee. cbn in Ee. congruence.
      + destruct (Hc 1 ltac:(lia)) as (r & Er & _). rewrite ahead_opposite in Er. cbn in Er. congruence.
    - intros E2. destruct (vui (V p)) eqn:E1; [|reflexivity]. exfalso.
      pose proof (layout_shows p Hp) as S. pose proof (shows_takes _ _ _ S E2) as Tk.
      destruct S as (_ & _ & _ & _ & S & _). rewrite E1 in S. destruct (T p) as [| |i o|e' []|e' h|e' k|x y] eqn:Tp; try discriminate. cbn in Tk. subst e'.
      destruct (VE p d Hp Tp) as (x & Tx & k & Hk & Ek & Hc). destruct (Hc 1 ltac:(lia)) as (r & Er & _). unfold neighbour in En. congruence.
    - intros E2. destruct (vuo (V p)) eqn:E1; [|reflexivity]. exfalso.
      pose proof (layout_shows p Hp) as S. pose proof (shows_pushes _ _ _ S E2) as Tk.
      destruct S as (_ & _ & _ & _ & _ & S & _). rewrite E1 in S. destruct (T p) as [| |i o|e' []|e' h|e' k|x y] eqn:Tp; try discriminate. cbn in Tk. subst e'.
      destruct (VX p _ Hp Tp) as (x & Hx & Tx & k & Hk & Ek & Hc). destruct (Hc (k - 1) ltac:(lia)) as (r & Er & _).
      assert (E' : ahead A x (opposite d) k = Some p) by exact Ek.
      assert (Er' : ahead A p (opposite d) (-1) = Some r) by (rewrite (ahead_add A x _ k (-1) p HA E'); exact Er).
      rewrite ahead_opposite in Er'. cbn in Er'. unfold neighbour in En. congruence.
  Qed.

  (** ** Colours *)
  Lemma layout_colours p : inside A p ->
    (0 <= C p < 2 ^ Z.of_nat (colour_bits g) -> value a (colour (tile_at g p)) = C p) /\
    (0 <= Cx p < 2 ^ Z.of_nat (colour_bits g) -> value a (colour_ux (tile_at g p)) = Cx p) /\
    (0 <= Cy p < 2 ^ Z.of_nat (colour_bits g) -> value a (colour_uy (tile_at g p)) = Cy p).
  Proof.
    intros Hp. set (b := colour_bits g).
    assert (F : forall s, fresh s b = map (fun i => s + 1 + Z.of_nat i) (seq 0 b)).
    { generalize b. clear. intros b. enough (X : forall j s, fresh (s + Z.of_nat j) b = map (fun i => s + 1 + Z.of_nat i) (seq j b)) by (intros s; rewrite <- (X 0%nat); f_equal; lia).
      induction b as [|b IH]; intros j s; cbn [fresh seq map]; [reflexivity|]. f_equal; [lia|].
      rewrite <- IH. f_equal. lia. }
    assert (X : forall (D : Z) s (f : Z -> Z), 0 <= D < 2 ^ Z.of_nat b -> 
       (forall i, 0 <= i < Z.of_nat b -> evl a (s + 1 + i) = Z.testbit D i) -> value a (fresh s b) = D).
    { intros D s f HD E. unfold value, values. rewrite F, map_map.
      rewrite (map_ext_in _ (fun i => Z.testbit D (Z.of_nat i))).
      - rewrite num_testbits by lia. cbn [Z.of_nat]. rewrite Z.pow_0_r, Z.div_1_r. apply Z.mod_small. exact HD.
      - intros i Hi. apply in_seq in Hi. apply E. lia. }
    assert (Y : forall o, 0 <= o < 3 * Z.of_nat b -> evl a (tile_base g p + 1 + (20 + o)) =
       Z.testbit (if o <? Z.of_nat b then C p else if o <? 2 * Z.of_nat b then Cx p else Cy p)
         (if o <? Z.of_nat b then o else if o <? 2 * Z.of_nat b then o - Z.of_nat b else o - 2 * Z.of_nat b)).
    { intros o Ho. unfold layout_assignment. rewrite table_at by (auto; fold b; lia). unfold layout_fields.
      replace (20 + o <? 20) with false by (symmetry; apply Z.ltb_ge; lia). fold b.
      replace (20 + o - 20) with o by lia. reflexivity. }
    cbn [tile_at tile_vars colour colour_ux colour_uy]. fold b. repeat split; intros HD; apply (X _ _ (fun x => x)); auto; intros i Hi.
    - replace (tile_base g p + 20 + 1 + i) with (tile_base g p + 1 + (20 + i)) by lia. rewrite Y by lia.
      replace (i <? Z.of_nat b) with true by (symmetry; apply Z.ltb_lt; lia). reflexivity.
    - replace (tile_base g p + 20 + Z.of_nat b + 1 + i) with (tile_base g p + 1 + (20 + (Z.of_nat b + i))) by lia. rewrite Y by lia.
      replace (Z.of_nat b + i <? Z.of_nat b) with false by (symmetry; apply Z.ltb_ge; lia).
      replace (Z.of_nat b + i <? 2 * Z.of_nat b) with true by (symmetry; apply Z.ltb_lt; lia). f_equal. lia.
    - replace (tile_base g p + 20 + 2 * Z.of_nat b + 1 + i) with (tile_base g p + 1 + (20 + (2 * Z.of_nat b + i))) by lia. rewrite Y by lia.
      replace (2 * Z.of_nat b + i <? Z.of_nat b) with false by (symmetry; apply Z.ltb_ge; lia).
      replace (2 * Z.of_nat b + i <? 2 * Z.of_nat b) with false by (symmetry; apply Z.ltb_ge; lia). f_equal. lia.
  Qed.

  Lemma layout_grid_rules :
    (forall c p, gcolours g = Some c -> inside A p -> 0 <= C p < c /\ 0 <= Cx p < c /\ 0 <= Cy p < c) ->
    grid_rules g a.
  Proof.
    intros HC. split; [|intros p d; apply layout_pair_rule]. intros p Hp. split; [apply layout_tile_rules; exact Hp|].
    split; [|apply layout_edge_rule; exact Hp]. unfold colour_rule. destruct (gcolours g) as [c|] eqn:Ec; [|exact Logic.I].
    destruct (HC c p eq_refl Hp) as (H1 & H2 & H3). destruct (layout_colours p Hp) as (V1 & V2 & V3).
    pose proof W as (_ & _ & Wc & _). rewrite Ec in Wc. pose proof (colour_fits c Wc) as Fc.
    replace (Z.to_nat (bit_length (c - 1))) with (colour_bits g) in Fc by (unfold colour_bits; rewrite Ec; reflexivity).
    rewrite V1, V2, V3 by lia. lia.
  Qed.
End Complete.
