(** Proofs about variable allocation, parsing and grid geometry. *)
From Coq Require Import String ZArith List Bool Lia.
From Verif Require Import Spec_Cnf Spec_Tile Spec_Layout M_Json M_Util M_Template P_Cnf P_Layout P_List.
Import ListNotations.
Local Open Scope string_scope.
Open Scope Z_scope.

(** Induction on templates. *)
Section Ind.
  Variable P : template -> Prop.
  Hypothesis HB : P TBool.
  Hypothesis HS : forall k n, P (TSized k n).
  Hypothesis HA : forall c s, P c -> P (TArray c s).
  Hypothesis HC : forall fs, Forall (fun f => P (snd f)) fs -> P (TComposite fs).
  Fixpoint template_rect' (t : template) : P t :=
    match t with
    | TBool => HB
    | TSized k n => HS k n
    | TArray c s => HA c s (template_rect' c)
    | TComposite fs =>
        HC fs ((fix go (fs : list (string * template)) : Forall (fun f => P (snd f)) fs :=
                  match fs with
                  | [] => Forall_nil _
                  | f :: r => Forall_cons f (template_rect' (snd f)) (go r)
                  end) fs)
    end.
End Ind.

Definition comp_go := fix go (fs : list (string * template)) (top : Z) : list (string * instance) * Z :=
  match fs with
  | [] => ([], top)
  | (name, c) :: rest =>
      let '(i, top1) := instantiate c top in
      let '(is_, top2) := go rest top1 in ((name, i) :: is_, top2)
  end.
Lemma instantiate_comp fs top :
  instantiate (TComposite fs) top = let '(l, top') := comp_go fs top in (IRec l, top').
Proof. reflexivity. Qed.

(** [instantiate] takes exactly the next [variable_count] variables in order. *)
Definition takes_fresh (step : Z -> instance * Z) (n : nat) : Prop :=
  forall top, snd (step top) = top + Z.of_nat n /\ flatten (fst (step top)) = fresh top n.

Lemma repeat_instantiate_spec step n k top : takes_fresh step n ->
  length (fst (repeat_instantiate step k top)) = k /\
  snd (repeat_instantiate step k top) = top + Z.of_nat (k * n) /\
  flat_map flatten (fst (repeat_instantiate step k top)) = fresh top (k * n) /\
  forall i, (i < k)%nat -> nth_error (fst (repeat_instantiate step k top)) i = Some (fst (step (top + Z.of_nat (i * n)))).
Proof.
  intros H. revert top. induction k as [|k IH]; intros top; cbn [repeat_instantiate].
  - cbn. repeat split; try lia.
  - destruct (H top) as [H1 H2]. destruct (step top) as [i0 t1] eqn:E. cbn in H1, H2.
    destruct (IH t1) as (I1 & I2 & I3 & I4). destruct (repeat_instantiate step k t1) as [l t2]. cbn in I1, I2, I3, I4.
    cbn [fst snd length flat_map]. subst t1 t2. rewrite H2, I3. repeat split.
    + lia.
    + cbn [Nat.mul]. lia.
    + replace (S k * n)%nat with (n + k * n)%nat by lia. rewrite fresh_app. reflexivity.
    + intros [|i] Hi; cbn [nth_error].
      * rewrite Z.add_0_r || (replace (top + Z.of_nat (0 * n)) with top by (cbn; lia)). rewrite E. reflexivity.
      * rewrite I4 by lia. do 3 f_equal. cbn [Nat.mul]. lia.
Qed.

Lemma flat_map_skipn_chunks {A B} (f : A -> list B) c : forall s (l : list A), length l = (s * c)%nat ->
  flat_map (fun i => flat_map f (firstn c (skipn (i * c) l))) (seq 0 s) = flat_map f l.
Proof.
  induction s as [|s IH]; intros l Hl; cbn [seq flat_map].
  - destruct l; [reflexivity|discriminate].
  - cbn [Nat.mul skipn]. replace (flat_map f l) with (flat_map f (firstn c l ++ skipn c l)%list) by (rewrite firstn_skipn; reflexivity). rewrite flat_map_app. f_equal.
    rewrite <- (IH (skipn c l)) by (rewrite skipn_length; lia).
    rewrite <- seq_shift. rewrite !flat_map_concat_map, map_map. f_equal. apply map_ext. intros i.
    cbn [Nat.mul]. rewrite skipn_add. reflexivity.
Qed.

Lemma flatten_reshape : forall shape l, length l = shape_size shape ->
  flatten (reshape shape l) = flat_map flatten l.
Proof.
  induction shape as [|s rest IH]; intros l Hl; cbn [reshape].
  - cbn in Hl. destruct l as [|i [|]]; try discriminate. cbn. rewrite app_nil_r. reflexivity.
  - cbn [flatten]. rewrite <- (flat_map_skipn_chunks flatten (shape_size rest) s l) by exact Hl.
    rewrite flat_map_concat_map, map_map, flat_map_concat_map. apply f_equal. apply map_ext_in.
    intros i Hi. apply in_seq in Hi. apply IH. rewrite firstn_length, skipn_length.
    cbn [shape_size fold_right] in Hl. fold (shape_size rest) in Hl. rewrite Hl.
    assert ((S i) * shape_size rest <= s * shape_size rest)%nat by (apply Nat.mul_le_mono_r; lia). lia.
Qed.

Lemma instantiate_fresh t : takes_fresh (instantiate t) (variable_count t).
Proof.
  induction t as [|k n|c s IH|fs IH] using template_rect'; intros top.
  - cbn. split; [lia|reflexivity].
  - cbn. split; [reflexivity|]. induction (fresh top n) as [|v l IHl]; [reflexivity|]. cbn. f_equal. exact IHl.
  - cbn [instantiate variable_count]. destruct (repeat_instantiate_spec (instantiate c) _ (shape_size s) top IH) as (L & E & F & _).
    destruct (repeat_instantiate _ _ _) as [l t2]. cbn in *. split; [exact E|].
    rewrite flatten_reshape by exact L. exact F.
  - rewrite instantiate_comp. cbn [variable_count]. revert top.
    induction IH as [|[name c] fs Hc _ IHfs]; intros top; cbn [comp_go fold_right snd fst].
    + cbn. split; [lia|reflexivity].
    + destruct (Hc top) as [H1 H2]. cbn [snd] in H1, H2.
      destruct (instantiate c top) as [i t1]. cbn in H1, H2. subst t1.
      destruct (IHfs (top + Z.of_nat (variable_count c))) as [I1 I2].
      destruct (comp_go fs _) as [l t2]. cbn [fst snd] in *. cbn [flatten flat_map snd] in *.
      split; [lia|]. rewrite H2, I2, fresh_app. reflexivity.
Qed.

Lemma instantiate_rows_spec t h w top :
  snd (instantiate_rows t h w top) = top + Z.of_nat (h * w * variable_count t) /\
  length (fst (instantiate_rows t h w top)) = h /\
  flat_map (flat_map flatten) (fst (instantiate_rows t h w top)) = fresh top (h * w * variable_count t) /\
  forall i j, (i < h)%nat -> (j < w)%nat -> exists r,
    nth_error (fst (instantiate_rows t h w top)) i = Some r /\
    nth_error r j = Some (fst (instantiate t (top + Z.of_nat ((i * w + j) * variable_count t)))).
Proof.
  revert top. induction h as [|h IH]; intros top; cbn [instantiate_rows].
  - cbn. repeat split; try lia.
  - destruct (repeat_instantiate_spec (instantiate t) _ w top (instantiate_fresh t)) as (L & E & F & N).
    destruct (repeat_instantiate _ _ _) as [r t1]. cbn [fst snd] in *. subst t1.
    destruct (IH (top + Z.of_nat (w * variable_count t))) as (I1 & I2 & I3 & I4).
    destruct (instantiate_rows _ _ _ _) as [rs t2]. cbn [fst snd] in *.
    split; [rewrite I1; rewrite !Nat2Z.inj_mul; cbn [Nat.mul]; rewrite ?Nat2Z.inj_succ; lia|].
    split; [cbn; lia|]. split.
    + cbn [flat_map]. rewrite F, I3. replace (S h * w * variable_count t)%nat with (w * variable_count t + h * w * variable_count t)%nat by (cbn; lia).
      rewrite fresh_app. reflexivity.
    + intros [|i] j Hi Hj.
      * exists r. split; [reflexivity|]. rewrite N by assumption. cbn [Nat.mul Nat.add]. reflexivity.
      * destruct (I4 i j) as (r' & R1 & R2); [lia|assumption|]. exists r'. split; [exact R1|].
        rewrite R2. do 3 f_equal. cbn [Nat.mul]. lia.
Qed.

(** ** Neighbour lookup *)
Definition area_of (g : geometry) : area := {| aw := width g; ah := height g; wrapx := wrap_x g; wrapy := wrap_y g |}.
Definition wf_geometry (g : geometry) : Prop := 0 < width g /\ 0 < height g.

Lemma axis_offset_spec wrap size p : 0 < size ->
  axis_offset wrap size p =
    (let q := if wrap then p mod size else p in if (0 <=? q) && (q <? size) then Some q else None).
Proof.
  intros Hs. unfold axis_offset.
  destruct (Z.ltb_spec p 0), (Z.leb_spec size p); cbn [orb]; try lia; destruct wrap; cbn zeta;
    try (destruct (Z.mod_pos_bound p size Hs); destruct (Z.leb_spec 0 (p mod size)), (Z.ltb_spec (p mod size) size); cbn; try lia; reflexivity);
    try (destruct (Z.leb_spec 0 p), (Z.ltb_spec p size); cbn; try lia; reflexivity).
  rewrite Z.mod_small by lia. destruct (Z.leb_spec 0 p), (Z.ltb_spec p size); cbn; try lia; reflexivity.
Qed.

Lemma offset_place g x y dx dy : wf_geometry g ->
  get_tile_instance_offset g x y dx dy = place (area_of g) (x + dx, y + dy).
Proof.
  intros [Hw Hh]. unfold get_tile_instance_offset, place, insideb. cbn [area_of aw ah wrapx wrapy fst snd].
  rewrite !axis_offset_spec by assumption. cbn zeta.
  set (qx := if wrap_x g then _ else _). set (qy := if wrap_y g then _ else _).
  destruct (Z.leb_spec 0 qx), (Z.ltb_spec qx (width g)); cbn [obind andb]; try reflexivity;
  destruct (Z.leb_spec 0 qy), (Z.ltb_spec qy (height g)); cbn [obind andb]; try reflexivity; try lia.
  destruct (Z.leb_spec 0 qx), (Z.leb_spec 0 qy), (Z.ltb_spec qx (width g)), (Z.ltb_spec qy (height g)); cbn; try lia; reflexivity.
Qed.

Lemma range_in n x : In x (range n) <-> 0 <= x < n.
Proof.
  unfold range. rewrite in_map_iff. split.
  - intros (i & <- & Hi). apply in_seq in Hi. lia.
  - intros H. exists (Z.to_nat x). split; [lia|]. apply in_seq. lia.
Qed.

Lemma range_NoDup n : NoDup (range n).
Proof.
  unfold range. generalize (Z.to_nat n). intros k. generalize 0%nat. induction k as [|k IH]; intros s; cbn; constructor.
  - rewrite in_map_iff. intros (i & Hi & Hin). apply in_seq in Hin. lia.
  - apply IH.
Qed.

Lemma iterate_tiles_in g p : In p (iterate_tiles g) <-> inside (area_of g) p.
Proof.
  unfold iterate_tiles, inside. cbn [area_of aw ah]. rewrite in_flat_map. destruct p as [x y]. cbn [fst snd]. split.
  - intros (x' & Hx & Hy). apply in_map_iff in Hy. destruct Hy as (y' & [= <- <-] & Hy).
    apply range_in in Hx. apply range_in in Hy. auto.
  - intros [Hx Hy]. exists x. split; [apply range_in; exact Hx|]. apply in_map_iff. exists y. split; [reflexivity|apply range_in; exact Hy].
Qed.

Lemma iterate_tile_lines2_in g v l : wf_geometry g -> In l (iterate_tile_lines2 g v) <->
  exists p, inside (area_of g) p /\ l = (p, place (area_of g) (fst p + fst v, snd p + snd v)).
Proof.
  intros Hg. unfold iterate_tile_lines2. rewrite in_map_iff. split.
  - intros (p & <- & Hp). exists p. rewrite iterate_tiles_in in Hp. split; [exact Hp|]. rewrite offset_place by exact Hg. reflexivity.
  - intros (p & Hp & ->). exists p. rewrite offset_place by exact Hg. split; [reflexivity|]. apply iterate_tiles_in. exact Hp.
Qed.

Lemma iterate_tiles_NoDup g : NoDup (iterate_tiles g).
Proof.
  unfold iterate_tiles. apply NoDup_flat_map; [apply range_NoDup| |].
  - intros x _. apply NoDup_map_inj; [congruence|apply range_NoDup].
  - intros x x' q _ _ H1 H2. apply in_map_iff in H1. apply in_map_iff in H2.
    destruct H1 as (y & <- & _). destruct H2 as (y' & [= -> _] & _). reflexivity.
Qed.
