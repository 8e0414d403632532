(** What prevent_belt_parallel_splitter and glue_partial_splitters forbid, on
    the layout of a solution in which tiles that face each other are connected. *)
From Coq Require Import String ZArith List Bool Lia.
From Verif Require Import Spec_Cnf Spec_Tile Spec_Layout Spec_Pattern Spec_Main M_Json M_Tile M_Util M_Card M_Template M_Grid M_Balancer M_Optimise
  P_Cnf P_Util P_Card P_Tile P_Layout P_List P_Template P_Walk P_Grid P_GridSound P_Pattern.
Import ListNotations.
Open Scope Z_scope.

Section Splitters.
  Variable g : grid.
  Hypothesis W : wf_grid g.
  Variable a : assignment.
  Notation A := (garea g).
  Notation V p := (view_of a (tile_at g p)).
  Variable T : layout.
  Hypothesis HT : forall p, inside A p -> decoded g a p = Some (T p).
  Hypothesis G : grid_rules g a.
  Hypothesis Gets : forall p d, inside A p -> (vi (V p) d = true <-> gets A T p d).
  Hypothesis Gives : forall p d, inside A p -> (vo (V p) d = true <-> gives A T p d).
  Let HA : wf_area A := WA g W.
  Let Sw := P_Pattern.Sw g a T HT G.

  Lemma is_splitter_at p d h : inside A p -> (T p = Splitter d h <-> vs (V p) = true /\ vh (V p) = h /\ (vi (V p) d = true \/ vo (V p) d = true)).
  Proof.
    intros Hp. pose proof (Sw p Hp) as (Hs & _ & _ & Ss & _ & _ & Hh). split.
    - intros E. rewrite E in Hs, Ss, Hh. destruct Hs as (_ & _ & _ & _ & Hs). auto.
    - intros (H1 & H2 & H3). rewrite H1 in Ss. destruct (T p) as [| |i o|u b|u k|u k|x y]; try discriminate.
      destruct Hs as (_ & _ & I1 & I2 & _). rewrite <- H2, Hh. f_equal. destruct H3 as [H3|H3]; [rewrite (I1 d H3)|rewrite (I2 d H3)]; reflexivity.
  Qed.
  Lemma is_splitter_any p h : inside A p -> ((exists d, T p = Splitter d h) <-> vs (V p) = true /\ vh (V p) = h).
  Proof.
    intros Hp. pose proof (Sw p Hp) as (Hs & _ & _ & Ss & _ & _ & Hh). split.
    - intros (d & E). rewrite E in Ss, Hh. auto.
    - intros (H1 & H2). rewrite H1 in Ss. destruct (T p) as [| |i o|u b|u k|u k|x y]; try discriminate. exists u. f_equal. congruence.
  Qed.

  Lemma parallel_at p d t h q01 q r : inside A p -> (t = anticlockwise d /\ h = true) \/ (t = clockwise d /\ h = false) ->
    neighbour A p d = Some q01 -> neighbour A p t = Some q -> spot A p d 1 t 1 = Some r ->
    (sat a (parallel_clauses d t h (tile_at g p) (tile_at g q01) (tile_at g q) (tile_at g r)) = true <->
     ~ parallel_splitter A T p d t).
  Proof.
    intros Hp Hh N1 N2 N3. assert (Iq : inside A q) by (eapply ahead_inside; exact N2). assert (Ir : inside A r) by (eapply spot_inside; exact N3).
    assert (Ndt : d <> t) by (destruct Hh as [[-> _] | [-> _]]; destruct d; discriminate).
    assert (Nct : anticlockwise d <> clockwise d) by (destruct d; discriminate).
    pose proof (tile_at_ok g p W Hp) as Op. pose proof (tile_at_ok g q W Iq) as Oq. pose proof (tile_at_ok g r W Ir) as Or.
    unfold parallel_clauses. rewrite sat_map_iff.
    assert (X : forall i, i = d \/ i = t ->
      (satc a (invert_components ([input_dir (tile_at g p) i; output_dir (tile_at g p) d] ++ (if dir_eqb i d then [- is_splitter (tile_at g p)] else []) ++
         [output_dir (tile_at g q) t; is_splitter (tile_at g r); set_literal (is_splitter_head (tile_at g r)) h])) = false <->
       T p = Belt i d /\ gives A T q t /\ exists e, T r = Splitter e h)).
    { intros i Hi. rewrite <- (Gives q t Iq). rewrite (is_splitter_any r h Ir). cbn [view_of vs vh vo].
      assert (Sl : evl a (- set_literal (is_splitter_head (tile_at g r)) h) = false <-> evl a (is_splitter_head (tile_at g r)) = h).
      { unfold set_literal. destruct h; [apply evl_neg_f; apply Or|]. rewrite Z.opp_involutive. reflexivity. }
      assert (Bt : T p = Belt i d <-> vi (V p) i = true /\ vo (V p) d = true /\ (i = d -> vs (V p) = false)).
      { split.
        - intros E. destruct (belt_at g a T HT G _ _ _ Hp E) as (? & ? & ? & _). auto.
        - intros (H1 & H2 & H3). destruct Hi as [-> | ->]; [apply (is_belt_at g a T HT G); auto|apply (is_turn_at g a T HT G); auto]. }
      rewrite Bt. cbn [view_of vi vo vs].
      destruct (dir_eqb_spec i d) as [->|Nd]; cbn [app invert_components map]; rewrite !satc_f_cons, satc_f_nil, Sl, ?Z.opp_involutive;
        rewrite !evl_neg_f by (apply Op || apply Oq || apply Or); intuition congruence. }
    split.
    - intros H (q' & r' & i & e & M2 & M3 & _ & Hi & B & Gv & Hr). rewrite N2 in M2. rewrite N3 in M3. apply Some_inj in M2, M3. subst q' r'.
      assert (Hi' : In i [d; t]) by (destruct Hi as [-> | ->]; cbn; auto). specialize (H i Hi'). apply satc_true in H. apply H. apply X; [exact Hi|].
      split; [exact B|]. split; [exact Gv|]. exists e. destruct Hh as [[Et ->] | [Et ->]], Hr as [[Et' Er] | [Et' Er]]; try exact Er; congruence.
    - intros N i Hi. assert (Hi' : i = d \/ i = t) by (destruct Hi as [<- | [<- | []]]; auto). apply satc_true. intros F. apply N. apply (X i Hi') in F. destruct F as (B & Gv & e & Er).
      exists q, r, i, e. split; [exact N2|]. split; [exact N3|]. split; [congruence|]. split; [exact Hi'|]. split; [exact B|]. split; [exact Gv|].
      destruct Hh as [[Et ->] | [Et ->]]; [left|right]; auto.
  Qed.
  Lemma parallel_exact : sat a (prevent_belt_parallel_splitter g) = true <->
    forall p d t, inside A p -> perpendicular d t -> ~ parallel_splitter A T p d t.
  Proof.
    unfold prevent_belt_parallel_splitter. rewrite (dirs_sat a). split.
    - intros H p d t Hp Pd Q. pose proof Q as (q & r & i & e & N2 & N3 & N1 & _). destruct (neighbour A p d) as [q01|] eqn:N1'; [|congruence]. clear N1.
      specialize (H d). rewrite sat_flat_map in H. destruct Pd as [-> | ->].
      + specialize (H (next d, true) (or_introl eq_refl)). cbn [fst snd] in H. rewrite (for_blocks_sat g W a) in H. rewrite next_ac in H.
        specialize (H p q01 q r Hp Logic.I N1' N2 N3). apply (parallel_at p d _ true q01 q r Hp) in H; auto.
      + specialize (H (prev d, false) (or_intror (or_introl eq_refl))). cbn [fst snd] in H. rewrite (for_blocks_sat g W a) in H.
        replace (prev d) with (clockwise d) in H by (destruct d; reflexivity).
        specialize (H p q01 q r Hp Logic.I N1' N2 N3). apply (parallel_at p d _ false q01 q r Hp) in H; auto.
    - intros N d. rewrite sat_flat_map. intros th [<- | [<- | []]]; cbn [fst snd]; apply (for_blocks_sat g W a).
      + rewrite next_ac. intros p q01 q r Hp _ N1 N2 N3. apply (parallel_at p d _ true q01 q r Hp); auto. apply N; [exact Hp|left; reflexivity].
      + replace (prev d) with (clockwise d) by (destruct d; reflexivity). intros p q01 q r Hp _ N1 N2 N3. apply (parallel_at p d _ false q01 q r Hp); auto.
        apply N; [exact Hp|right; reflexivity].
  Qed.

  (** The four cells lie before the last column. *)
  Definition before_last (p : pos) (d : dir) : Prop :=
    fst p <= width (geo g) - 2 /\ fst p + (step_x (anticlockwise d) + step_x d) <= width (geo g) - 2.
  Hypothesis Pair : splitters_paired A T.
  Lemma partial_at p d q p' q' : inside A p -> neighbour A p d = Some p' -> neighbour A p (anticlockwise d) = Some q -> neighbour A q d = Some q' ->
    (sat a (partial_clauses d (tile_at g p) (tile_at g p') (tile_at g q) (tile_at g q')) = true <-> ~ lagging_splitter A T p d).
  Proof.
    intros Hp N1 N2 N3. assert (Iq : inside A q) by (eapply ahead_inside; exact N2). assert (Ip' : inside A p') by (eapply ahead_inside; exact N1). assert (Iq' : inside A q') by (eapply ahead_inside; exact N3).
    pose proof (tile_at_ok g p W Hp) as Op. pose proof (tile_at_ok g q W Iq) as Oq. pose proof (tile_at_ok g p' W Ip') as Op'. pose proof (tile_at_ok g q' W Iq') as Oq'.
    assert (St : forall x, inside A x -> (T x = Belt d d <-> vi (V x) d = true /\ vo (V x) d = true /\ vb (V x) = true)).
    { intros x Hx. split.
      - intros E. destruct (belt_at g a T HT G _ _ _ Hx E) as (? & ? & _ & ?). auto.
      - intros (H1 & H2 & H3). apply (is_belt_at g a T HT G); auto. apply (is_belt_v g a T HT G x Hx H3). }
    assert (Hd : vi (V p) d = true -> vh (V p) = true -> T p = Splitter d true).
    { intros H1 H2. pose proof (Sw p Hp) as (Hs & _ & _ & Ss & _ & _ & Hh). rewrite H2 in Hh.
      destruct (T p) as [| |i o|u b|u k|u k|x y]; try discriminate. subst k. destruct Hs as (_ & _ & I1 & _). rewrite (I1 d H1). reflexivity. }
    assert (Mt : T p = Splitter d true <-> T q = Splitter d false).
    { split; intros E.
      - destruct (Pair p d true Hp E) as (m & Em & Tm). cbn [mate_side] in Em. rewrite N2 in Em. apply Some_inj in Em. subst m. exact Tm.
      - destruct (Pair q d false Iq E) as (m & Em & Tm). cbn [mate_side] in Em. pose proof (neighbour_back _ _ _ _ HA Hp N2) as B.
        replace (opposite (anticlockwise d)) with (clockwise d) in B by (destruct d; reflexivity). rewrite B in Em. apply Some_inj in Em. subst m. exact Tm. }
    unfold partial_clauses. rewrite sat_cons_iff, sat_one, !satc_true.
    assert (F1 : satc a (invert_components ([input_dir (tile_at g p) d; is_splitter_head (tile_at g p); - input_dir (tile_at g q) d] ++
        [input_dir (tile_at g p') d; output_dir (tile_at g p') d; is_belt (tile_at g p')] ++ [input_dir (tile_at g q') d; output_dir (tile_at g q') d; is_belt (tile_at g q')])) = false <->
      T p = Splitter d true /\ gets A T p d /\ ~ gets A T q d /\ T p' = Belt d d /\ T q' = Belt d d).
    { rewrite (St p' Ip'), (St q' Iq'), <- (Gets p d Hp), <- (Gets q d Iq). cbn [app invert_components map view_of vi vo vb].
      rewrite !satc_f_cons, satc_f_nil, Z.opp_involutive. rewrite !evl_neg_f by (apply Op || apply Oq || apply Op' || apply Oq').
      split.
      - intros (H1 & H2 & H3 & H). split; [apply Hd; assumption|]. split; [exact H1|]. split; [congruence|]. tauto.
      - intros (E & H1 & H2 & H). apply (is_splitter_at p d true Hp) in E. destruct E as (_ & Hh & _). split; [exact H1|]. split; [exact Hh|]. split; [|tauto].
        destruct (evl a (input_dir (tile_at g q) d)); [contradiction|reflexivity]. }
    assert (F2 : satc a (invert_components ([- input_dir (tile_at g p) d; input_dir (tile_at g q) d; is_splitter (tile_at g q); - is_splitter_head (tile_at g q)] ++
        [input_dir (tile_at g p') d; output_dir (tile_at g p') d; is_belt (tile_at g p')] ++ [input_dir (tile_at g q') d; output_dir (tile_at g q') d; is_belt (tile_at g q')])) = false <->
      T p = Splitter d true /\ ~ gets A T p d /\ gets A T q d /\ T p' = Belt d d /\ T q' = Belt d d).
    { rewrite Mt, (is_splitter_at q d false Iq). rewrite (St p' Ip'), (St q' Iq'), <- (Gets p d Hp), <- (Gets q d Iq). cbn [app invert_components map view_of vi vo vb vs vh].
      rewrite !satc_f_cons, satc_f_nil, !Z.opp_involutive. rewrite !evl_neg_f by (apply Op || apply Oq || apply Op' || apply Oq').
      split.
      - intros (H1 & H2 & H3 & H4 & H). repeat split; auto; [congruence|tauto..].
      - intros ((H1 & H2 & _) & H3 & H4 & H). split; [destruct (evl a (input_dir (tile_at g p) d)); [contradiction|reflexivity]|]. tauto. }
    unfold partial_clauses in *. cbv zeta.
    match goal with |- ~ satc a ?c1 = false /\ ~ satc a ?c2 = false <-> _ => change (satc a c1 = false) with (satc a (invert_components ([input_dir (tile_at g p) d; is_splitter_head (tile_at g p); - input_dir (tile_at g q) d] ++
        [input_dir (tile_at g p') d; output_dir (tile_at g p') d; is_belt (tile_at g p')] ++ [input_dir (tile_at g q') d; output_dir (tile_at g q') d; is_belt (tile_at g q')])) = false);
      change (satc a c2 = false) with (satc a (invert_components ([- input_dir (tile_at g p) d; input_dir (tile_at g q) d; is_splitter (tile_at g q); - is_splitter_head (tile_at g q)] ++
        [input_dir (tile_at g p') d; output_dir (tile_at g p') d; is_belt (tile_at g p')] ++ [input_dir (tile_at g q') d; output_dir (tile_at g q') d; is_belt (tile_at g q')])) = false) end.
    rewrite F1, F2. split.
    - intros [M1 M2] (q0 & p0 & q1 & E1 & E2 & E3 & E4 & E5 & E6 & H). rewrite N2 in E1. apply Some_inj in E1. subst q0. rewrite N1 in E2. apply Some_inj in E2. subst p0.
      rewrite N3 in E3. apply Some_inj in E3. subst q1. tauto.
    - intros N. split; intros (H1 & H2 & H3 & H4 & H5); apply N; exists q, p', q'; tauto.
  Qed.
  Lemma partial_exact : sat a (glue_partial_splitters g) = true <->
    forall p d, inside A p -> before_last p d -> ~ lagging_splitter A T p d.
  Proof.
    unfold glue_partial_splitters. rewrite (dirs_sat a).
    assert (Wn : forall p d, within (Some (width (geo g) - 2)) d (anticlockwise d) p <-> before_last p d) by (intros; unfold within, before_last; lia).
    assert (Dg : forall p d q, neighbour A p (anticlockwise d) = Some q -> neighbour A q d = spot A p d 1 (anticlockwise d) 1).
    { intros p d q N. rewrite (spot_t A p d) in N. rewrite (spot_step_d A p d 0 (anticlockwise d) 1 q HA N). reflexivity. }
    split.
    - intros H p d Hp Hb Q. pose proof Q as (q & p' & q' & E1 & E2 & E3 & _). specialize (H d). rewrite next_ac in H. rewrite (for_blocks_sat g W a) in H.
      specialize (H p p' q q' Hp (proj2 (Wn p d) Hb) E2 E1). rewrite <- (Dg p d q E1) in H. apply (partial_at p d q p' q' Hp E2 E1 E3) in H; [contradiction|exact E3].
    - intros N d. rewrite next_ac. apply (for_blocks_sat g W a). intros p p' q q' Hp Hw E2 E1 E3. rewrite <- (Dg p d q E1) in E3. apply (partial_at p d q p' q' Hp E2 E1 E3).
      apply N; [exact Hp|apply Wn; exact Hw].
  Qed.
End Splitters.
