(** Proofs about the text pictures (stringifier.py). *)
From Coq Require Import ZArith List Bool Lia.
From Verif Require Import Spec_Tile Spec_Layout M_Json M_Tile M_Rotate M_String P_Tile P_Rotate.
Import ListNotations.
Open Scope Z_scope.

Definition drawable (t : tile) : Prop :=
  match t with
  | Empty | Filler | Underground _ _ | Splitter _ _ => True
  | Belt i o => o <> opposite i
  | _ => False
  end.

Lemma decode_encode_tile t : drawable t -> decode_char (encode_tile t) = Some t.
Proof.
  destruct t as [| |i o|d e|d e|d k|x y]; cbn [drawable]; intros H; try contradiction; try reflexivity.
  - destruct i, o; first [reflexivity|exfalso; apply H; reflexivity].
  - destruct d, e; reflexivity.
  - destruct d, e; reflexivity.
Qed.

Lemma encode_tile_range t : encode_tile t <> 10 /\ 0 < encode_tile t.
Proof.
  destruct t as [| |i o|d e|d e|d k|x y]; try (cbn; lia).
  - destruct i, o; cbn; lia.
  - destruct d, e; cbn; lia.
  - destruct d, e; cbn; lia.
Qed.

Lemma tl_map {A B} (f : A -> B) l : tl (map f l) = map f (tl l).
Proof. destruct l; reflexivity. Qed.
Lemma removelast_map {A B} (f : A -> B) l : removelast (map f l) = map f (removelast l).
Proof. induction l as [|x l IH]; [reflexivity|]. cbn in *. destruct l; [reflexivity|]. cbn in *. rewrite IH. reflexivity. Qed.
Lemma inner_map {A B} (f : A -> B) l : inner (map f l) = map f (inner l).
Proof. unfold inner. rewrite tl_map, removelast_map. reflexivity. Qed.
Lemma inner_seq n : inner (seq 0 (n + 2)) = seq 1 n.
Proof.
  unfold inner. replace (n + 2)%nat with (S (S n)) by lia. cbn [seq tl].
  change (1%nat :: seq 2 n) with (seq 1 (S n)). rewrite seq_S. apply removelast_last.
Qed.

Lemma decode_cols_seq r f n : forall k,
  (forall j, (k <= j < k + n)%nat -> Nat.odd j = true -> f j = 32) ->
  (forall j, (k <= j < k + n)%nat -> Nat.odd j = false -> decode_char (f j) = Some (r (Nat.div2 j))) ->
  decode_cols k (map f (seq k n)) = Some (map (fun j => r (Nat.div2 j)) (filter Nat.even (seq k n))).
Proof.
  induction n as [|n IH]; intros k H1 H2; cbn [seq map filter decode_cols]; [reflexivity|].
  rewrite IH; [|intros; apply H1; [lia|assumption]|intros; apply H2; [lia|assumption]].
  rewrite <- (Nat.negb_odd k). destruct (Nat.odd k) eqn:Ho; cbn [negb].
  - rewrite H1 by (try lia; assumption). reflexivity.
  - rewrite H2 by (try lia; assumption). reflexivity.
Qed.

Lemma filter_even_seq w : filter Nat.even (seq 0 (2 * w)) = map (fun i => 2 * i)%nat (seq 0 w).
Proof.
  induction w as [|w IH]; [reflexivity|].
  replace (2 * S w)%nat with (S (S (2 * w))) by lia. rewrite !seq_S, !filter_app, IH.
  change (0 + 2 * w)%nat with (2 * w)%nat. change (0 + S (2 * w))%nat with (S (2 * w))%nat. cbn [filter].
  assert (E1 : Nat.even (2 * w) = true) by (apply Nat.even_spec; exists w; lia).
  assert (E2 : Nat.even (S (2 * w)) = false).
  { rewrite <- Nat.negb_odd. rewrite Nat.odd_succ, E1. reflexivity. }
  rewrite E1, E2, app_nil_r, map_app. reflexivity.
Qed.

Lemma filter_even_seq' w : (0 < w)%nat ->
  filter Nat.even (seq 0 (2 * w - 1)) = map (fun i => 2 * i)%nat (seq 0 w).
Proof.
  intros H. rewrite <- filter_even_seq. replace (2 * w)%nat with (S (2 * w - 1)) by lia.
  rewrite seq_S, filter_app. cbn [filter].
  assert (E : Nat.even (0 + (2 * w - 1)) = false).
  { destruct w; [lia|]. replace (0 + (2 * S w - 1))%nat with (S (2 * w)) by lia.
    rewrite <- Nat.negb_odd, Nat.odd_succ. assert (E1 : Nat.even (2 * w) = true) by (apply Nat.even_spec; exists w; lia).
    rewrite E1. reflexivity. }
  rewrite E, app_nil_r. f_equal. f_equal. lia.
Qed.

Lemma map_nth_seq {A} (d : A) l : map (fun i => nth i l d) (seq 0 (length l)) = l.
Proof.
  induction l as [|x l IH]; [reflexivity|]. cbn [length seq map]. f_equal.
  rewrite <- seq_shift, map_map. exact IH.
Qed.

Ltac eqb_cases := repeat match goal with
  | |- context [Nat.eqb ?a ?b] => destruct (Nat.eqb_spec a b); cbn [andb orb]
  end.

Definition drawable_grid (h w : nat) (g : list (list tile)) : Prop :=
  rect h w g /\ (0 < h)%nat /\ (0 < w)%nat /\ forall r t, In r g -> In t r -> drawable t.

Section Picture.
  Variables (h w : nat) (g : list (list tile)).
  Hypothesis G : drawable_grid h w g.

  Lemma pic_h : length g = h. Proof. apply G. Qed.
  Lemma pic_w : length (hd [] g) = w.
  Proof. destruct G as (R & Hh & _). apply (gw_rect h w g R Hh). Qed.

  Lemma decode_row i : (i < h)%nat ->
    decode_cols 0 (inner (map (char_at g h w (S i)) (seq 0 (2 * w + 1)))) = Some (nth i g []).
  Proof.
    intros Hi. destruct G as (R & Hh & Hw & HD).
    rewrite inner_map. replace (2 * w + 1)%nat with ((2 * w - 1) + 2)%nat by lia. rewrite inner_seq.
    rewrite <- seq_shift, map_map.
    rewrite decode_cols_seq with (r := fun j => nth j (nth i g []) Empty).
    - f_equal. rewrite filter_even_seq' by assumption. rewrite map_map.
      assert (L : length (nth i g []) = w) by (apply (rect_row h w); assumption).
      rewrite <- L. transitivity (map (fun j => nth j (nth i g []) Empty) (seq 0 (length (nth i g []))));
        [|apply map_nth_seq]. apply map_ext.
      intros a. rewrite Nat.div2_double. reflexivity.
    - intros j Hj Ho. unfold char_at. eqb_cases; try lia.
      rewrite Nat.odd_succ, <- Nat.negb_odd, Ho. reflexivity.
    - intros j Hj Ho. unfold char_at. eqb_cases; try lia.
      rewrite Nat.odd_succ, <- Nat.negb_odd, Ho. cbn [negb].
      replace (S i - 1)%nat with i by lia.
      assert (E : exists m, j = (2 * m)%nat).
      { assert (Ev : Nat.even j = true) by (rewrite <- Nat.negb_odd, Ho; reflexivity).
        apply Nat.even_spec in Ev. destruct Ev as [m ->]. exists m. reflexivity. }
      destruct E as [m ->]. rewrite Nat.div2_succ_double, Nat.div2_double.
      apply decode_encode_tile.
      destruct (gg_In Empty h w g i m R Hi ltac:(lia)) as [I1 I2]. eapply HD; eassumption.
  Qed.

  Lemma encode_lines_eq : encode_lines g =
    map (fun i => map (char_at g h w i) (seq 0 (2 * w + 1))) (seq 0 (h + 2)).
  Proof. unfold encode_lines. cbv zeta. rewrite pic_h, pic_w. reflexivity. Qed.

  Lemma decode_encode_lines : decode (encode_lines g) = Some g.
  Proof.
    pose proof G as (R & Hh & Hw & HD).
    unfold decode. rewrite encode_lines_eq. rewrite inner_map, inner_seq.
    rewrite <- seq_shift. rewrite map_map.
    assert (W : Nat.div2 (length (hd [] (map (fun i => map (char_at g h w i) (seq 0 (2 * w + 1))) (seq 0 (h + 2))))) = w).
    { replace (h + 2)%nat with (S (S h)) by lia. cbn [seq map hd]. rewrite map_length, seq_length.
      replace (2 * w + 1)%nat with (S (2 * w)) by lia. apply Nat.div2_succ_double. }
    rewrite W.
    assert (E : map (fun i => map (char_at g h w (S i)) (seq 0 (2 * w + 1))) (seq 0 h)
             = map (fun i => map (char_at g h w (S i)) (seq 0 (2 * w + 1))) (seq 0 (length g))).
    { rewrite pic_h. reflexivity. }
    rewrite E. clear E.
    assert (Gen : forall s n, (s + n <= h)%nat ->
      omap (fun l => let* ts := decode_cols 0 (inner l) in if Nat.eqb (length ts) w then Some ts else None)
        (map (fun i => map (char_at g h w (S i)) (seq 0 (2 * w + 1))) (seq s n))
      = Some (map (fun i => nth i g []) (seq s n))).
    { intros s n. revert s. induction n as [|n IH]; intros s Hs; [reflexivity|].
      cbn [seq map omap]. rewrite decode_row by lia. cbn [obind].
      rewrite (rect_row h w) by (try assumption; lia). rewrite Nat.eqb_refl. cbn [obind].
      rewrite IH by lia. reflexivity. }
    rewrite Gen by (rewrite pic_h; lia). f_equal. apply map_nth_seq.
  Qed.

  Lemma char_at_ok i j : char_at g h w i j <> 10.
  Proof.
    unfold char_at, END_STOP. eqb_cases; try lia; destruct (Nat.odd j); try lia; apply encode_tile_range.
  Qed.

  Lemma line_no_newline l : In l (encode_lines g) -> ~ In 10 l /\ l <> [].
  Proof.
    rewrite encode_lines_eq. intros H. apply in_map_iff in H. destruct H as (i & <- & Hi). split.
    - intros C. apply in_map_iff in C. destruct C as (j & E & _). revert E. apply char_at_ok.
    - replace (2 * w + 1)%nat with (S (2 * w)) by lia. cbn [seq map]. discriminate.
  Qed.

  (** Every line begins and ends with a frame character, the last one only with
      the end mark. *)
  Lemma line_shape i : (i < h + 2)%nat ->
    exists c m e, map (char_at g h w i) (seq 0 (2 * w + 1)) = c :: m ++ [e] /\
      is_space c = false /\ is_space e = false /\ (e =? END_STOP) = Nat.eqb i (h + 1).
  Proof.
    intros Hi. destruct G as (R & Hh & Hw & HD).
    replace (2 * w + 1)%nat with (S (S (2 * w - 1))) by lia.
    rewrite seq_S, map_app. cbn [seq map app].
    eexists _, _, _. split; [reflexivity|].
    unfold char_at. replace (0 + S (2 * w - 1))%nat with (2 * w)%nat by lia.
    split; [|split].
    - eqb_cases; try lia; reflexivity.
    - eqb_cases; try lia; reflexivity.
    - eqb_cases; try lia; reflexivity.
  Qed.

  Lemma strip_shape c m e : is_space c = false -> is_space e = false -> strip (c :: m ++ [e]) = c :: m ++ [e].
  Proof.
    intros Hc He. unfold strip. cbn [lstrip]. rewrite Hc.
    assert (Er : rev (c :: m ++ [e]) = e :: rev m ++ [c]) by (cbn [rev]; rewrite rev_app_distr; reflexivity).
    rewrite Er. cbn [lstrip]. rewrite He. rewrite <- Er. apply rev_involutive.
  Qed.

  Lemma stream_step rest : decode_stream [] (encode_lines g ++ rest) =
    (let* gs := decode_stream [] rest in Some (g :: gs)).
  Proof.
    set (L := fun i => map (char_at g h w i) (seq 0 (2 * w + 1))).
    assert (Gen : forall n s acc, (s + n = h + 2)%nat -> (0 < n)%nat ->
      decode_stream acc (map L (seq s n) ++ rest) =
      (let* g0 := decode (acc ++ map L (seq s n)) in let* gs := decode_stream [] rest in Some (g0 :: gs))).
    { induction n as [|n IH]; intros s acc Hs Hn; [lia|].
      cbn [seq map app decode_stream].
      destruct (line_shape s ltac:(lia)) as (c & m & e & E & Sc & Se & St).
      assert (EL : strip (L s) = L s) by (unfold L; rewrite E; apply strip_shape; assumption).
      rewrite EL.
      assert (ES : ends_stop (L s) = Nat.eqb s (h + 1)).
      { unfold L. rewrite E. unfold ends_stop. cbn [rev]. rewrite rev_app_distr. cbn [rev app]. exact St. }
      rewrite ES. destruct (Nat.eqb_spec s (h + 1)) as [->|N].
      - assert (n = 0)%nat by lia. subst n. cbn [seq map app]. reflexivity.
      - rewrite IH by lia. rewrite <- app_assoc. reflexivity. }
    rewrite encode_lines_eq. fold L.
    rewrite (Gen (h + 2)%nat 0%nat []) by lia. cbn [app].
    change (map L (seq 0 (h + 2))) with (map (fun i => map (char_at g h w i) (seq 0 (2 * w + 1))) (seq 0 (h + 2))).
    rewrite <- encode_lines_eq. rewrite decode_encode_lines. reflexivity.
  Qed.
End Picture.

(** Lines of a text. *)
Lemma split_lines_app l : forall cur rest, ~ In 10 l ->
  split_lines cur (l ++ 10 :: rest) = (cur ++ l) :: split_lines [] rest.
Proof.
  induction l as [|c l IH]; intros cur rest H; cbn [app split_lines].
  - rewrite app_nil_r. reflexivity.
  - destruct (Z.eqb_spec c 10) as [->|N]; [exfalso; apply H; left; reflexivity|].
    rewrite IH by (intros C; apply H; right; exact C). rewrite <- app_assoc. reflexivity.
Qed.

Lemma split_lines_end l : forall cur, ~ In 10 l -> cur ++ l <> [] -> split_lines cur l = [cur ++ l].
Proof.
  induction l as [|c l IH]; intros cur H N; cbn [split_lines].
  - rewrite app_nil_r in *. destruct cur; [contradiction|reflexivity].
  - destruct (Z.eqb_spec c 10) as [->|N2]; [exfalso; apply H; left; reflexivity|].
    rewrite IH; [rewrite <- app_assoc; reflexivity|intros C; apply H; right; exact C|].
    rewrite <- app_assoc. cbn. destruct cur; discriminate.
Qed.

Lemma lines_join_nl ls rest : ls <> [] -> (forall l, In l ls -> ~ In 10 l) ->
  lines_of (join_lines ls ++ 10 :: rest) = ls ++ lines_of rest.
Proof.
  unfold lines_of. induction ls as [|l ls IH]; intros N H; [contradiction|].
  destruct ls as [|l2 ls].
  - cbn [join_lines app]. rewrite split_lines_app by (apply H; left; reflexivity). reflexivity.
  - change (join_lines (l :: l2 :: ls)) with (l ++ 10 :: join_lines (l2 :: ls)).
    rewrite <- app_assoc. cbn [app]. rewrite split_lines_app by (apply H; left; reflexivity).
    rewrite IH; [reflexivity|discriminate|]. intros x Hx. apply H. right. exact Hx.
Qed.

Lemma lines_join ls : (forall l, In l ls -> ~ In 10 l /\ l <> []) -> lines_of (join_lines ls) = ls.
Proof.
  unfold lines_of. induction ls as [|l ls IH]; intros H; [reflexivity|].
  destruct ls as [|l2 ls].
  - cbn [join_lines]. apply split_lines_end; apply (H l); left; reflexivity.
  - change (join_lines (l :: l2 :: ls)) with (l ++ 10 :: join_lines (l2 :: ls)).
    rewrite split_lines_app by (apply H; left; reflexivity).
    rewrite IH; [reflexivity|]. intros x Hx. apply H. right. exact Hx.
Qed.

Lemma encode_lines_nonempty g : encode_lines g <> [].
Proof.
  unfold encode_lines. cbv zeta. replace (length g + 2)%nat with (S (length g + 1)) by lia. discriminate.
Qed.

Lemma picture_round_trip h w g : drawable_grid h w g -> decode (lines_of (encode g)) = Some g.
Proof.
  intros G. unfold encode. rewrite lines_join by (intros l Hl; eapply line_no_newline; eassumption).
  eapply decode_encode_lines; eassumption.
Qed.

Lemma picture_stream gs : (forall g, In g gs -> exists h w, drawable_grid h w g) ->
  decode_stream [] (lines_of (flat_map (fun g => encode g ++ [10]) gs)) = Some gs.
Proof.
  induction gs as [|g gs IH]; intros H; [reflexivity|].
  cbn [flat_map]. rewrite <- app_assoc. cbn [app]. unfold encode at 1.
  destruct (H g (or_introl eq_refl)) as (h & w & G).
  rewrite lines_join_nl; [|apply encode_lines_nonempty|intros l Hl; eapply line_no_newline; eassumption].
  rewrite (stream_step h w g G). rewrite IH; [reflexivity|]. intros g' Hg'. apply H. right. exact Hg'.
Qed.

(** ** What decode accepts *)
Lemma decode_char_inv c t : decode_char c = Some t -> encode_tile t = c /\ drawable t.
Proof.
  unfold decode_char. intros H.
  assert (IG : forall m, inv_get c m = Some t -> In (t, c) m).
  { induction m as [|[k v] m IH]; cbn [inv_get]; [discriminate|].
    destruct (inv_get c m) as [u|]; [intros [= ->]; right; apply IH; reflexivity|].
    destruct (Z.eqb_spec c v) as [->|]; [|discriminate]. intros [= ->]. left. reflexivity. }
  apply IG in H. unfold MAPPING in H. cbn [In] in H.
  repeat (destruct H as [H|H]; [injection H as <- <-; split; [reflexivity|cbn; first [exact I|discriminate]]|]).
  destruct H.
Qed.

Lemma decode_cols_inv l : forall k ts, decode_cols k l = Some ts ->
  forall j c, nth_error l j = Some c ->
    if Nat.odd (k + j) then c = 32
    else exists t, nth_error ts (Nat.div2 (k + j) - Nat.div2 (S k)) = Some t /\ decode_char c = Some t.
Proof.
  induction l as [|c l IH]; intros k ts H j x Hj; [destruct j; discriminate|].
  cbn [decode_cols] in H. destruct (Nat.odd k) eqn:Ho.
  - destruct (Z.eqb_spec c 32) as [->|]; [|discriminate].
    destruct j as [|j]; cbn [nth_error] in Hj.
    + rewrite Nat.add_0_r, Ho. congruence.
    + specialize (IH _ _ H j x Hj). replace (k + S j)%nat with (S k + j)%nat by lia.
      destruct (Nat.odd (S k + j)); [exact IH|]. destruct IH as (t & E1 & E2). exists t. split; [|exact E2].
      rewrite <- E1. f_equal. f_equal.
      assert (Od : exists m, k = (2 * m + 1)%nat) by (apply Nat.odd_spec in Ho; exact Ho).
      destruct Od as [m ->]. replace (S (2 * m + 1)) with (2 * S m)%nat by lia.
      replace (S (2 * S m)) with (S (2 * S m)) by lia. rewrite Nat.div2_succ_double, Nat.div2_double. reflexivity.
  - destruct (decode_char c) as [t|] eqn:Ed; [|discriminate]. cbn [obind] in H.
    destruct (decode_cols (S k) l) as [r|] eqn:Er; [|discriminate]. cbn [obind] in H. injection H as <-.
    assert (Ev : exists m, k = (2 * m)%nat).
    { assert (E : Nat.even k = true) by (rewrite <- Nat.negb_odd, Ho; reflexivity). apply Nat.even_spec in E.
      destruct E as [m ->]. exists m. reflexivity. }
    destruct Ev as [m ->]. rewrite Nat.div2_succ_double.
    destruct j as [|j]; cbn [nth_error] in Hj.
    + injection Hj as <-. rewrite Nat.add_0_r, Ho, Nat.div2_double, Nat.sub_diag. exists t. split; [reflexivity|exact Ed].
    + specialize (IH _ _ Er j x Hj). replace (2 * m + S j)%nat with (S (2 * m) + j)%nat by lia.
      destruct (Nat.odd (S (2 * m) + j)) eqn:Ho2; [exact IH|]. destruct IH as (u & E1 & E2). exists u. split; [|exact E2].
      replace (S (S (2 * m))) with (2 * S m)%nat in E1 by lia. rewrite Nat.div2_double in E1.
      assert (G2 : (S m <= Nat.div2 (S (2 * m) + j))%nat).
      { destruct j as [|j]; [rewrite Nat.add_0_r, Nat.odd_succ in Ho2|].
        - rewrite <- Nat.negb_odd, Ho in Ho2. discriminate.
        - replace (S (2 * m) + S j)%nat with (2 * S m + j)%nat by lia. rewrite !Nat.div2_div.
          apply Nat.div_le_lower_bound; lia. }
      replace (Nat.div2 (S (2 * m) + j) - m)%nat with (S (Nat.div2 (S (2 * m) + j) - S m)) by lia.
      exact E1.
Qed.

Lemma omap_nth {A B} (f : A -> option B) l : forall ys, omap f l = Some ys ->
  forall n x, nth_error l n = Some x -> exists y, nth_error ys n = Some y /\ f x = Some y.
Proof.
  induction l as [|a l IH]; intros ys H n x Hn; [destruct n; discriminate|].
  cbn [omap] in H. destruct (f a) as [b|] eqn:E; [|discriminate]. cbn [obind] in H.
  destruct (omap f l) as [r|] eqn:Er; [|discriminate]. cbn [obind] in H. injection H as <-.
  destruct n as [|n]; cbn [nth_error] in *; [injection Hn as <-; eauto|]. eapply IH; eauto.
Qed.

Lemma decode_faithful lines g : decode lines = Some g ->
  forall i line, nth_error (inner lines) i = Some line ->
  exists row, nth_error g i = Some row /\ List.length row = Nat.div2 (List.length (hd [] lines)) /\
    forall j c, nth_error (inner line) j = Some c ->
      if Nat.odd j then c = 32
      else exists t, nth_error row (Nat.div2 j) = Some t /\ drawable t /\ encode_tile t = c.
Proof.
  intros H i line Hi. unfold decode in H. destruct (omap_nth _ _ _ H i line Hi) as (row & E & Er).
  exists row. split; [exact E|]. destruct (decode_cols 0 (inner line)) as [ts|] eqn:Ed; [|discriminate].
  cbn [obind] in Er. destruct (Nat.eqb_spec (List.length ts) (Nat.div2 (List.length (hd [] lines)))) as [El|]; [|discriminate].
  injection Er as <-. split; [exact El|]. intros j c Hj. pose proof (decode_cols_inv _ _ _ Ed j c Hj) as I.
  cbn [Nat.add] in I. destruct (Nat.odd j); [exact I|]. destruct I as (t & E1 & E2). exists t.
  replace (Nat.div2 j - Nat.div2 1)%nat with (Nat.div2 j) in E1 by (cbn; lia). split; [exact E1|].
  apply decode_char_inv in E2. tauto.
Qed.

(** A picture of a grid with a tile that has no character of its own is
    rejected. *)
Lemma encode_undrawable t : valid_tile t -> ~ drawable t -> decode_char (encode_tile t) = None.
Proof.
  destruct t as [| |i o|d e|d e|d k|x y]; cbn [drawable valid_tile]; intros V N; try tauto; reflexivity.
Qed.

Lemma picture_undrawable h w g i j : rect h w g -> (i < h)%nat -> (j < w)%nat ->
  valid_tile (nth j (nth i g []) Empty) -> ~ drawable (nth j (nth i g []) Empty) ->
  decode (encode_lines g) = None.
Proof.
  intros R Hi Hj V N. destruct (decode (encode_lines g)) as [g'|] eqn:E; [exfalso|reflexivity].
  assert (W : length (hd [] g) = w) by (apply (gw_rect h w g R); lia).
  assert (H0 : length g = h) by apply R.
  assert (EL : encode_lines g = map (fun i => map (char_at g h w i) (seq 0 (2 * w + 1))) (seq 0 (h + 2))).
  { unfold encode_lines. cbv zeta. rewrite W, H0. reflexivity. }
  rewrite EL in E.
  assert (Hn : nth_error (inner (map (fun i => map (char_at g h w i) (seq 0 (2 * w + 1))) (seq 0 (h + 2)))) i
             = Some (map (char_at g h w (S i)) (seq 0 (2 * w + 1)))).
  { rewrite inner_map, inner_seq. apply (map_nth_error (fun i => map (char_at g h w i) (seq 0 (2 * w + 1)))).
    rewrite (nth_error_nth' _ 0%nat) by (rewrite seq_length; exact Hi). rewrite seq_nth by exact Hi. reflexivity. }
  destruct (decode_faithful _ _ E i _ Hn) as (row & _ & _ & HF).
  assert (Hc : nth_error (inner (map (char_at g h w (S i)) (seq 0 (2 * w + 1)))) (2 * j)
             = Some (encode_tile (nth j (nth i g []) Empty))).
  { rewrite inner_map. replace (2 * w + 1)%nat with ((2 * w - 1) + 2)%nat by lia. rewrite inner_seq.
    assert (HC : char_at g h w (S i) (S (2 * j)) = encode_tile (nth j (nth i g []) Empty)).
    { unfold char_at. eqb_cases; try lia. rewrite Nat.odd_succ.
      assert (E1 : Nat.even (2 * j) = true) by (apply Nat.even_spec; exists j; lia). rewrite E1.
      rewrite Nat.div2_succ_double. replace (S i - 1)%nat with i by lia. reflexivity. }
    rewrite <- HC. apply map_nth_error.
    rewrite (nth_error_nth' _ 0%nat) by (rewrite seq_length; lia). rewrite seq_nth by lia. f_equal. }
  specialize (HF _ _ Hc). assert (Ho : Nat.odd (2 * j) = false).
  { rewrite <- Nat.negb_even. assert (E1 : Nat.even (2 * j) = true) by (apply Nat.even_spec; exists j; lia). rewrite E1. reflexivity. }
  rewrite Ho in HF. destruct HF as (t & _ & Dt & Et).
  assert (decode_char (encode_tile t) = Some t) by (apply decode_encode_tile; exact Dt).
  rewrite Et, (encode_undrawable _ V N) in H. discriminate.
Qed.

(** Blanks around a line. *)
Lemma lstrip_pad b l : Forall (fun c => is_space c = true) b -> lstrip (b ++ l) = lstrip l.
Proof. induction 1 as [|c b Hc _ IH]; [reflexivity|]. cbn [app lstrip]. rewrite Hc. exact IH. Qed.
Lemma lstrip_blank b : Forall (fun c => is_space c = true) b -> lstrip b = [].
Proof. intros H. rewrite <- (app_nil_r b). rewrite lstrip_pad by exact H. reflexivity. Qed.
Lemma lstrip_split l : exists b, l = b ++ lstrip l /\ Forall (fun c => is_space c = true) b.
Proof.
  induction l as [|c l (b & E & F)]; [exists []; split; [reflexivity|constructor]|]. cbn [lstrip]. destruct (is_space c) eqn:Hc.
  - exists (c :: b). split; [cbn [app]; f_equal; exact E|constructor; assumption].
  - exists []. split; [reflexivity|constructor].
Qed.
Lemma lstrip_end l e : Forall (fun c => is_space c = true) e -> lstrip (l ++ e) = match lstrip l with [] => [] | k => k ++ e end.
Proof.
  intros He. induction l as [|c l IH]; cbn [app lstrip]; [apply lstrip_blank; exact He|]. destruct (is_space c); [exact IH|]. reflexivity.
Qed.
Lemma strip_padded l b e : Forall (fun c => is_space c = true) b -> Forall (fun c => is_space c = true) e -> strip l = strip (b ++ l ++ e).
Proof.
  intros Hb He. unfold strip. rewrite lstrip_pad by exact Hb. rewrite lstrip_end by exact He. destruct (lstrip l) as [|c k]; [reflexivity|].
  rewrite rev_app_distr. rewrite lstrip_pad; [reflexivity|]. apply Forall_rev. exact He.
Qed.
Lemma stream_stripped ls' ls : Forall2 (fun l l' => strip l = strip l') ls ls' -> forall acc, decode_stream acc ls' = decode_stream acc ls.
Proof. induction 1 as [|l l' ls ls' E _ IH]; intros acc; [reflexivity|]. cbn [decode_stream]. rewrite <- E. rewrite !IH. reflexivity. Qed.
