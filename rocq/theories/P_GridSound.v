(** Every assignment satisfying the grid's clauses decodes to a valid layout. *)
From Coq Require Import String ZArith List Bool Lia.
From Verif Require Import Spec_Cnf Spec_Tile Spec_Layout M_Json M_Tile M_Util M_Card M_Template M_Grid
  P_Cnf P_Util P_Card P_Tile P_Layout P_List P_Template P_Walk P_Grid.
Import ListNotations.
Open Scope Z_scope.

(** The variables of a tile say that it is [t], and nothing else. *)
Definition shows (v : view) (t : tile) : Prop :=
  match t with
  | Empty => ve v = true /\ (forall d, vi v d = false) /\ (forall d, vo v d = false)
  | Belt i o => vb v = true /\ (forall d, vi v d = true <-> d = i) /\ (forall d, vo v d = true <-> d = o) /\ o <> opposite i
  | Underground e true => vui v = true /\ (forall d, vi v d = true <-> d = e) /\ (forall d, vo v d = false)
  | Underground e false => vuo v = true /\ (forall d, vi v d = false) /\ (forall d, vo v d = true <-> d = e)
  | Splitter e h => vs v = true /\ vh v = h /\ (forall d, vi v d = true -> d = e) /\ (forall d, vo v d = true -> d = e) /\
                    (vi v e = true \/ vo v e = true)
  | _ => False
  end /\
  (vb v = match t with Belt _ _ => true | _ => false end) /\
  (ve v = match t with Empty => true | _ => false end) /\
  (vs v = match t with Splitter _ _ => true | _ => false end) /\
  (vui v = match t with Underground _ true => true | _ => false end) /\
  (vuo v = match t with Underground _ false => true | _ => false end) /\
  (vh v = match t with Splitter _ h => h | _ => false end).

Lemma first_hot_dirs (f : dir -> bool) :
  (forall d e, f d = true -> f e = true -> d = e) ->
  (first_hot 0 (map f directions) = None /\ forall d, f d = false) \/
  exists d, first_hot 0 (map f directions) = Some (dir_value d) /\ forall e, f e = true <-> e = d.
Proof.
  intros H. cbn [map directions first_hot].
  destruct (f RIGHT) eqn:E0; [right; exists RIGHT; split; [reflexivity|intros e; split; [intros; auto|intros ->; exact E0]]|].
  destruct (f UP) eqn:E1; [right; exists UP; split; [reflexivity|intros e; split; [intros; auto|intros ->; exact E1]]|].
  destruct (f LEFT) eqn:E2; [right; exists LEFT; split; [reflexivity|intros e; split; [intros; auto|intros ->; exact E2]]|].
  destruct (f DOWN) eqn:E3; [right; exists DOWN; split; [reflexivity|intros e; split; [intros; auto|intros ->; exact E3]]|].
  left. split; [reflexivity|]. intros []; assumption.
Qed.

Lemma parse_inputs a t : c_in (parse_tile a t) = first_hot 0 (map (vi (view_of a t)) directions).
Proof. reflexivity. Qed.
Lemma parse_outputs a t : c_out (parse_tile a t) = first_hot 0 (map (vo (view_of a t)) directions).
Proof. reflexivity. Qed.

Lemma read_tile_shows a t : tile_rules (view_of a t) ->
  exists ti, read_tile (parse_tile a t) = Some ti /\ shows (view_of a t) ti.
Proof.
  intros R. unfold read_tile. rewrite parse_inputs, parse_outputs.
  destruct R as [(k & K1 & K2 & K3 & K4 & K5) R2 R3 R4 R5 R6 R7 R8 R9 R10 R11 R12 R13].
  set (v := view_of a t) in *.
  change (c_splitter (parse_tile a t)) with (vs v). change (c_empty (parse_tile a t)) with (ve v).
  change (c_uin (parse_tile a t)) with (vui v). change (c_uout (parse_tile a t)) with (vuo v).
  change (c_belt (parse_tile a t)) with (vb v). change (c_head (parse_tile a t)) with (vh v). clearbody v.
  assert (Hh : vs v = false -> vh v = false) by (intros E; destruct (vh v); [rewrite R11 in E by reflexivity; discriminate|reflexivity]).
  destruct (first_hot_dirs (vi v) R7) as [[Ei Fi]|(di & Ei & Fi)]; destruct (first_hot_dirs (vo v) R8) as [[Eo Fo]|(do_ & Eo & Fo)];
    rewrite Ei, Eo; cbn [opt_direction obind]; rewrite ?dir_of_value_value; cbn [obind].
  - (* no direction at all *)
    destruct k; rewrite K1, K2, K3, K4, K5 in *; cbn [keqb obind] in *.
    + destruct (R3 eq_refl) as [[d C] _]. rewrite Fi in C. discriminate.
    + exists Empty. split; [reflexivity|]. unfold shows. rewrite K1, K2, K3, K4, K5, (Hh eq_refl). cbn. auto 10.
    + destruct (R6 eq_refl) as (d & [C|C]); rewrite ?Fi, ?Fo in C; discriminate.
    + destruct (R4 eq_refl) as [[d C] _]. rewrite Fi in C. discriminate.
    + destruct (R5 eq_refl) as [[d C] _]. rewrite Fo in C. discriminate.
  - (* output only *)
    assert (Od : vo v do_ = true) by (apply Fo; reflexivity).
    destruct k; rewrite K1, K2, K3, K4, K5 in *; cbn [keqb obind] in *.
    + destruct (R3 eq_refl) as [[d C] _]. rewrite Fi in C. discriminate.
    + destruct (R2 eq_refl do_) as [_ C]. congruence.
    + exists (Splitter do_ (vh v)). split; [reflexivity|]. unfold shows. rewrite K1, K2, K3, K4, K5. cbn.
      split; [|auto 10]. split; [reflexivity|]. split; [reflexivity|]. split; [intros d C; rewrite Fi in C; discriminate|]. split; [intros d; apply Fo|auto].
    + destruct (R4 eq_refl) as [[d C] _]. rewrite Fi in C. discriminate.
    + exists (Underground do_ false). split; [reflexivity|]. unfold shows. rewrite K1, K2, K3, K4, K5, (Hh eq_refl). cbn. auto 10.
  - (* input only *)
    assert (Id : vi v di = true) by (apply Fi; reflexivity).
    destruct k; rewrite K1, K2, K3, K4, K5 in *; cbn [keqb obind] in *.
    + destruct (R3 eq_refl) as [_ [d C]]. rewrite Fo in C. discriminate.
    + destruct (R2 eq_refl di) as [C _]. congruence.
    + exists (Splitter di (vh v)). split; [reflexivity|]. unfold shows. rewrite K1, K2, K3, K4, K5. cbn.
      split; [|auto 10]. split; [reflexivity|]. split; [reflexivity|]. split; [intros d; apply Fi|]. split; [intros d C; rewrite Fo in C; discriminate|auto].
    + exists (Underground di true). split; [reflexivity|]. unfold shows. rewrite K1, K2, K3, K4, K5, (Hh eq_refl). cbn. auto 10.
    + destruct (R5 eq_refl) as [[d C] _]. rewrite Fo in C. discriminate.
  - (* both *)
    assert (Od : vo v do_ = true) by (apply Fo; reflexivity). assert (Id : vi v di = true) by (apply Fi; reflexivity).
    destruct k; rewrite K1, K2, K3, K4, K5 in *; cbn [keqb obind] in *.
    + assert (N : do_ <> opposite di) by (intros ->; rewrite R13 in Od by exact Id; discriminate).
      exists (Belt di do_). rewrite mk_belt_some by exact N. split; [reflexivity|]. unfold shows. rewrite K1, K2, K3, K4, K5, (Hh eq_refl). cbn. auto 10.
    + destruct (R2 eq_refl di) as [C _]. congruence.
    + assert (di = do_) by (apply (R12 di do_); auto). subst do_.
      exists (Splitter di (vh v)). split; [reflexivity|]. unfold shows. rewrite K1, K2, K3, K4, K5. cbn.
      split; [|auto 10]. split; [reflexivity|]. split; [reflexivity|]. split; [intros d; apply Fi|]. split; [intros d; apply Fo|auto].
    + destruct (R4 eq_refl) as [_ C]. rewrite C in Od. discriminate.
    + destruct (R5 eq_refl) as [_ C]. rewrite C in Id. discriminate.
Qed.

Lemma shows_valid v t : shows v t -> valid_tile t.
Proof. destruct t; intros [H _]; cbn in *; tauto. Qed.

(** A tile is determined by its variables. *)
Lemma shows_unique v t t' : shows v t -> shows v t' -> t = t'.
Proof.
  intros (H & B1 & E1 & S1 & I1 & O1 & Hd1) (H' & B2 & E2 & S2 & I2 & O2 & Hd2).
  assert (OB : forall b b' : bool, b = b' -> b' = b) by auto.
  destruct t as [| |i o|e b|e h|e k|x y]; try contradiction; destruct t' as [| |i' o'|e' b'|e' h'|e' k'|x' y']; try contradiction;
    try (destruct b); try (destruct b'); try congruence; cbn in H, H'.
  - destruct H as (_ & P1 & P2 & _). destruct H' as (_ & Q1 & Q2 & _). f_equal.
    + apply Q1. apply P1. reflexivity.
    + apply Q2. apply P2. reflexivity.
  - destruct H as (_ & P1 & _). destruct H' as (_ & Q1 & _). f_equal. apply Q1. apply P1. reflexivity.
  - destruct H as (_ & _ & P1). destruct H' as (_ & _ & Q1). f_equal. apply Q1. apply P1. reflexivity.
  - destruct H as (_ & <- & P1 & P2 & P3). destruct H' as (_ & <- & Q1 & Q2 & Q3). f_equal.
    destruct P3 as [P|P]; [apply Q1|apply Q2]; exact P.
Qed.

Lemma shows_takes v t d : shows v t -> vi v d = true -> takes t d.
Proof.
  intros [H _] E. destruct t as [| |i o|e b|e h|e k|x y]; try (destruct b); cbn in *; try contradiction.
  - destruct H as (_ & H & _). congruence.
  - destruct H as (_ & H & _). symmetry. apply H. exact E.
  - destruct H as (_ & H & _). symmetry. apply H. exact E.
  - destruct H as (_ & H & _). congruence.
  - destruct H as (_ & _ & H & _). symmetry. apply H. exact E.
Qed.
Lemma shows_pushes v t d : shows v t -> vo v d = true -> pushes t d.
Proof.
  intros [H _] E. destruct t as [| |i o|e b|e h|e k|x y]; try (destruct b); cbn in *; try contradiction.
  - destruct H as (_ & _ & H). congruence.
  - destruct H as (_ & _ & H & _). symmetry. apply H. exact E.
  - destruct H as (_ & _ & H). congruence.
  - destruct H as (_ & _ & H). symmetry. apply H. exact E.
  - destruct H as (_ & _ & _ & H & _). symmetry. apply H. exact E.
Qed.
Lemma shows_takes_inv v t d : shows v t -> takes t d -> ~ is_splitter_tile t -> vi v d = true.
Proof.
  intros [H _] E N. destruct t as [| |i o|e b|e h|e k|x y]; try (destruct b); cbn in *; try contradiction; try tauto; subst.
  - destruct H as (_ & H & _). apply H. reflexivity.
  - destruct H as (_ & H & _). apply H. reflexivity.
Qed.
Lemma shows_pushes_inv v t d : shows v t -> pushes t d -> ~ is_splitter_tile t -> vo v d = true.
Proof.
  intros [H _] E N. destruct t as [| |i o|e b|e h|e k|x y]; try (destruct b); cbn in *; try contradiction; try tauto; subst.
  - destruct H as (_ & _ & H & _). apply H. reflexivity.
  - destruct H as (_ & _ & H). apply H. reflexivity.
Qed.

(** Every closed edge is blocked for undergrounds. *)
Definition edges_cover (g : grid) (e : edges) : Prop :=
  let '(min_x, min_y, max_x, max_y) := expand_edges e in
  (wrap_x (geo g) = false -> min_x = true /\ max_x = true) /\
  (wrap_y (geo g) = false -> min_y = true /\ max_y = true).

(** The underground length in force: an infinite length is bounded by the grid. *)
Definition max_hidden (g : grid) : Z :=
  match glen g with Some l => l | None => Z.max (width (geo g)) (height (geo g)) - 1 end.

(** Decoding: parse_solution, read_tile. *)
Definition decoded (g : grid) (a : assignment) (p : pos) : option tile := read_tile (parse_tile a (tile_at g p)).

Section Sound.
  Variable g : grid.
  Hypothesis W : wf_grid g.
  Variable a : assignment.
  Notation A := (garea g).
  Notation V p := (view_of a (tile_at g p)).
  Variable T : layout.
  Hypothesis HT : forall p, inside A p -> decoded g a p = Some (T p).
  Hypothesis G : grid_rules g a.

  Lemma WA : wf_area A.
  Proof. destruct W as [[H1 H2] _]. split; assumption. Qed.

  Lemma T_shows p : inside A p -> shows (V p) (T p).
  Proof.
    intros Hp. destruct G as [G1 _]. destruct (read_tile_shows a (tile_at g p)) as (t & E & S); [apply G1; exact Hp|].
    specialize (HT p Hp). unfold decoded in HT. congruence.
  Qed.

  Lemma sound_belt_tiles : belt_tiles A T.
  Proof.
    intros p Hp. pose proof (T_shows p Hp) as [H _]. destruct (T p); auto; cbn in H; tauto.
  Qed.

  Lemma sound_splitters : splitters_paired A T.
  Proof.
    intros p d head Hp E. pose proof (T_shows p Hp) as S. rewrite E in S. destruct S as ((S1 & S2 & S3 & S4 & S5) & _).
    destruct G as [_ G2].
    assert (F : faces (V p) d) by exact S5.
    destruct head; cbn [mate_side negb].
    - specialize (G2 p d Hp). unfold pair_rule in G2. destruct (neighbour A p (anticlockwise d)) as [q|] eqn:En.
      + exists q. split; [reflexivity|]. destruct G2 as [G2 _]. destruct (G2 F S2) as (Q1 & Q2 & Q3).
        assert (Hq : inside A q) by (eapply ahead_inside; exact En). pose proof (T_shows q Hq) as Sq.
        destruct (T q) as [| |i o|u b|u h|u k|x y]; destruct Sq as (Sq & B1 & B2 & B3 & B4 & B5 & B6); try congruence; try contradiction.
        cbn in Sq. destruct Sq as (_ & Sh & Si & So & _). destruct Q3 as [Q3|Q3]; [rewrite <- (Si _ Q3)|rewrite <- (So _ Q3)]; congruence.
      + destruct G2 as [G2 _]. rewrite (G2 F S1) in S2. discriminate.
    - specialize (G2 p (opposite d) Hp). unfold pair_rule in G2. rewrite opposite_opposite in G2.
      replace (anticlockwise (opposite d)) with (clockwise d) in G2 by (destruct d; reflexivity).
      destruct (neighbour A p (clockwise d)) as [q|] eqn:En.
      + exists q. split; [reflexivity|]. destruct G2 as [_ G2]. destruct (G2 F S1 S2) as (Q2 & Q3).
        assert (Hq : inside A q) by (eapply ahead_inside; exact En). pose proof (T_shows q Hq) as Sq.
        destruct (T q) as [| |i o|u b|u h|u k|x y]; destruct Sq as (Sq & B1 & B2 & B3 & B4 & B5 & B6); try congruence; try contradiction.
        cbn in Sq. destruct Sq as (_ & Sh & Si & So & _). destruct Q3 as [Q3|Q3]; [rewrite <- (Si _ Q3)|rewrite <- (So _ Q3)]; congruence.
      + destruct G2 as [_ G2]. rewrite (G2 F S1) in S2. discriminate.
  Qed.

  Section Links.
    Hypothesis LK : forall p d, inside A p -> link_rule g a p d.

    Lemma link p d q : inside A p -> neighbour A p d = Some q -> vo (V p) d = vi (V q) d.
    Proof. intros Hp E. specialize (LK p d Hp). unfold link_rule in LK. rewrite E in LK. apply LK. Qed.

    Lemma sound_outputs : outputs_received A T.
    Proof.
      intros p d q Hp P N E. assert (Hq : inside A q) by (eapply ahead_inside; exact E).
      apply (shows_takes (V q)); [apply T_shows; exact Hq|]. rewrite <- (link p d q Hp E).
      apply (shows_pushes_inv _ (T p)); [apply T_shows; exact Hp|exact P|exact N].
    Qed.

    Lemma sound_inputs : inputs_supplied A T.
    Proof.
      intros p d q Hp P N E. assert (Hq : inside A q) by (eapply ahead_inside; exact E).
      pose proof (neighbour_back A p _ q WA Hp E) as E'. rewrite opposite_opposite in E'.
      apply (shows_pushes (V q)); [apply T_shows; exact Hq|]. rewrite (link q d p Hq E').
      apply (shows_takes_inv _ (T p)); [apply T_shows; exact Hp|exact P|exact N].
    Qed.

    Lemma sound_side : no_side_loading A T.
    Proof.
      intros p d head q i o Hp E En Eq. assert (Hq : inside A q) by (eapply ahead_inside; exact En).
      pose proof (T_shows p Hp) as S. rewrite E in S. destruct S as ((S1 & S2 & S3 & S4 & S5) & _).
      pose proof (T_shows q Hq) as Sq. rewrite Eq in Sq. destruct Sq as ((Q1 & Q2 & Q3 & Q4) & _ & _ & Q5 & _).
      pose proof (link p d q Hp En) as L.
      destruct (dir_eqb_spec i d) as [|N]; [assumption|]. exfalso.
      assert (Vi : vi (V p) d = true).
      { destruct S5 as [C|C]; [exact C|]. exfalso. apply N. symmetry. apply Q2. congruence. }
      pose proof (LK p d Hp) as K. unfold link_rule in K. rewrite En in K. destruct K as [_ K].
      assert (Oi : vi (V q) i = true) by (apply Q2; reflexivity). assert (Oo : vo (V q) o = true) by (apply Q3; reflexivity).
      assert (No : o <> opposite d).
      { intros ->. (* q would push back into the splitter *)
        pose proof (neighbour_back A p d q WA Hp En) as Eb. rewrite (link q _ p Hq Eb) in Oo.
        pose proof (S3 _ Oo) as C. destruct d; discriminate. }
      apply (K Vi S1 Q5 i o Oi Oo N). destruct d, i, o; try congruence; cbn; tauto.
    Qed.

    Lemma sound_used : splitters_used A T.
    Proof.
      intros p d head Hp E. pose proof (T_shows p Hp) as S. rewrite E in S. destruct S as ((S1 & S2 & S3 & S4 & S5) & _).
      destruct S5 as [C|C]; [left|right]; intros q En; (assert (Hq : inside A q) by (eapply ahead_inside; exact En)).
      - pose proof (neighbour_back A p _ q WA Hp En) as E'. rewrite opposite_opposite in E'.
        apply (shows_pushes (V q)); [apply T_shows; exact Hq|]. rewrite (link q d p Hq E'). exact C.
      - apply (shows_takes (V q)); [apply T_shows; exact Hq|]. rewrite <- (link p d q Hp En). exact C.
    Qed.
  End Links.

  Section Under.
    Hypothesis UR : forall p d, inside A p -> under_rule g a p d.
    Hypothesis LR : length_rule g a.
    Variable e : edges.
    Hypothesis EC : edges_cover g e.
    Hypothesis ER : edge_under_rule g a e.

    Lemma blocked_edge p d : inside A p -> neighbour A p d = None -> at_edge g e p d.
    Proof.
      intros Hp E. destruct (neighbour_none A p d WA Hp E) as [Wr Hd]. unfold edges_cover in EC. unfold at_edge.
      destruct (expand_edges e) as [[[mx my] Mx] My]. destruct EC as [E1 E2].
      destruct d; cbn in *; try (destruct (E1 Wr)); try (destruct (E2 Wr)); auto.
    Qed.

    (** A hidden segment has a successor and a predecessor. *)
    Lemma under_next p d : inside A p -> vu (V p) d = true -> exists q, neighbour A p d = Some q.
    Proof.
      intros Hp U. destruct (neighbour A p d) as [q|] eqn:E; [eauto|].
      destruct (ER p d Hp (blocked_edge p d Hp E)) as [[C _] _]. congruence.
    Qed.
    Lemma under_prev p d : inside A p -> vu (V p) d = true -> exists q, neighbour A p (opposite d) = Some q.
    Proof.
      intros Hp U. destruct (neighbour A p (opposite d)) as [q|] eqn:E; [eauto|].
      destruct (ER p _ Hp (blocked_edge p _ Hp E)) as [[_ C] _]. rewrite opposite_opposite in C. congruence.
    Qed.

    Definition under_at (p : pos) (f d : dir) (k : Z) : bool :=
      match ahead A p f k with Some q => vu (V q) d | None => false end.

    Lemma under_clear p d : inside A p -> vu (V p) d = true -> ~ blocks_tunnel (T p) d.
    Proof.
      intros Hp U B. pose proof (T_shows p Hp) as S. destruct (T p) as [| |i o|f b|f h|f k|x y]; try contradiction.
      cbn in B. destruct b; destruct S as [S _]; cbn in S.
      - destruct S as (S1 & S2 & _). destruct (UR p f Hp) as [[R _] _].
        destruct (R S1 (proj2 (S2 f) eq_refl)) as [C1 C2]. destruct f, d; cbn in *; congruence.
      - destruct S as (S1 & _ & S2). destruct (UR p f Hp) as [[_ R] _].
        destruct (R S1 (proj2 (S2 f) eq_refl)) as [C1 C2]. destruct f, d; cbn in *; congruence.
    Qed.

    (** From a tile that is no segment itself, a run of segments in direction
        [f] (along the axis of [d]) ends within the limit. *)
    Lemma run_ends p d f : inside A p -> f = d \/ f = opposite d -> vu (V p) d = false ->
      under_at p f d 1 = true ->
      exists k, 2 <= k <= max_hidden g + 1 /\ under_at p f d k = false /\ forall j, 1 <= j < k -> under_at p f d j = true.
    Proof.
      intros Hp Hf N U1.
      assert (X : exists n, 0 <= n /\ n <= max_hidden g + 1 /\ ~ forall k, 1 <= k <= n -> under_at p f d k = true).
      { unfold max_hidden. unfold length_rule in LR. destruct W as (_ & _ & _ & Wl). destruct (glen g) as [l|].
        - exists (l + 1). split; [lia|]. split; [lia|]. intros C.
          destruct Hf as [-> | ->].
          + (* forwards: start at the next cell *)
            specialize (C 1) as C1. unfold under_at in C1. destruct (ahead A p d 1) as [q|] eqn:E1; [|discriminate C1; lia].
            apply (LR q d); [eapply ahead_inside; exact E1|]. intros i Hi.
            rewrite (ahead_add A p d 1 i q WA E1). specialize (C (1 + i) ltac:(lia)). unfold under_at in C.
            destruct (ahead A p d (1 + i)) as [r|]; [eauto|discriminate].
          + (* backwards: start at the far end *)
            specialize (C (l + 1)) as C1. unfold under_at in C1. destruct (ahead A p (opposite d) (l + 1)) as [q|] eqn:E1; [|discriminate C1; lia].
            apply (LR q d); [eapply ahead_inside; exact E1|]. intros i Hi.
            rewrite ahead_opposite in E1. rewrite (ahead_add A p d _ i q WA E1).
            specialize (C (l + 1 - i) ltac:(lia)). unfold under_at in C. rewrite ahead_opposite in C.
            replace (- (l + 1) + i) with (- (l + 1 - i)) by lia.
            destruct (ahead A p d (- (l + 1 - i))) as [r|]; [eauto|discriminate].
        - exists (extent A f). pose proof WA as [H1 H2].
          assert (Hb : 0 < extent A f <= Z.max (width (geo g)) (height (geo g))) by (destruct f; cbn in *; lia).
          split; [lia|]. split; [lia|]. intros C. specialize (C (extent A f) ltac:(lia)). unfold under_at in C.
          rewrite (ahead_extent A p f WA Hp) in C. destruct (wraps A f); congruence. }
      destruct X as (n & Hn & Hn' & C). destruct (first_failure (under_at p f d) n Hn C) as (k & Hk & Ek & Ej).
      exists k. split; [|auto]. split; [|lia]. destruct (Z.eq_dec k 1) as [->|]; [congruence|lia].
    Qed.

    Lemma sound_entrances : entrances_paired A T (max_hidden g).
    Proof.
      intros p d Hp E. pose proof (T_shows p Hp) as S. rewrite E in S. destruct S as ((S1 & S2 & S3) & _).
      assert (Vi : vi (V p) d = true) by (apply S2; reflexivity).
      destruct (UR p d Hp) as ((R1 & _) & R2 & _). destruct (R1 S1 Vi) as [N _].
      destruct (neighbour A p d) as [q1|] eqn:E1.
      2:{ destruct (ER p d Hp (blocked_edge p d Hp E1)) as (_ & C & _). rewrite (C Vi) in S1. discriminate. }
      destruct (R2 q1 eq_refl) as [R3 _]. specialize (R3 S1 Vi).
      destruct (run_ends p d d Hp (or_introl eq_refl) N) as (k & Hk & Ek & Ej).
      { unfold under_at. unfold neighbour in E1. rewrite E1. exact R3. }
      assert (X : exists q, ahead A p d k = Some q /\ T q = Underground d false).
      { pose proof (Ej (k - 1) ltac:(lia)) as El. unfold under_at in El. destruct (ahead A p d (k - 1)) as [r|] eqn:Er; [|discriminate].
        assert (Hr : inside A r) by (eapply ahead_inside; exact Er).
        destruct (under_next r d Hr El) as [q Eq]. exists q.
        assert (Hq : inside A q) by (eapply ahead_inside; exact Eq).
        assert (Eqk : ahead A p d k = Some q).
        { unfold neighbour in Eq. rewrite (ahead_add A p d _ 1 r WA Er) in Eq. replace (k - 1 + 1) with k in Eq by lia. exact Eq. }
        split; [exact Eqk|]. unfold under_at in Ek. rewrite Eqk in Ek.
        destruct (UR r d Hr) as (_ & R4 & _). destruct (R4 q Eq) as [_ R5]. destruct (R5 El Ek) as [O1 O2].
        pose proof (T_shows q Hq) as Sq. destruct (T q) as [| |i o|f b|f h|f k0|x y]; try (destruct b); destruct Sq as (Sq & B1 & B2 & B3 & B4 & B5 & B6); try congruence; try contradiction.
        cbn in Sq. destruct Sq as (_ & _ & Sq). rewrite <- (proj1 (Sq d) O2). reflexivity. }
      destruct X as (q & Eq & Tq). exists q. split; [exact Tq|]. exists k. split; [exact Hk|]. split; [exact Eq|].
      intros j Hj. specialize (Ej j ltac:(lia)). unfold under_at in Ej. destruct (ahead A p d j) as [r|] eqn:Er; [|discriminate].
      exists r. split; [reflexivity|]. apply under_clear; [eapply ahead_inside; exact Er|exact Ej].
    Qed.

    Lemma sound_exits : exits_paired A T (max_hidden g).
    Proof.
      intros p d Hp E. pose proof (T_shows p Hp) as S. rewrite E in S. destruct S as ((S1 & S2 & S3) & _).
      assert (Vo : vo (V p) d = true) by (apply S3; reflexivity).
      destruct (UR p d Hp) as ((_ & R1) & _ & R2). destruct (R1 S1 Vo) as [N _].
      destruct (neighbour A p (opposite d)) as [q1|] eqn:E1.
      2:{ destruct (ER p _ Hp (blocked_edge p _ Hp E1)) as (_ & _ & C). rewrite opposite_opposite in C. rewrite (C Vo) in S1. discriminate. }
      destruct (R2 q1 eq_refl) as [R3 _]. specialize (R3 S1 Vo).
      destruct (run_ends p d (opposite d) Hp (or_intror eq_refl) N) as (k & Hk & Ek & Ej).
      { unfold under_at. unfold neighbour in E1. rewrite E1. exact R3. }
      assert (X : exists q, ahead A p (opposite d) k = Some q /\ T q = Underground d true).
      { pose proof (Ej (k - 1) ltac:(lia)) as El. unfold under_at in El. destruct (ahead A p (opposite d) (k - 1)) as [r|] eqn:Er; [|discriminate].
        assert (Hr : inside A r) by (eapply ahead_inside; exact Er).
        destruct (under_prev r d Hr El) as [q Eq]. exists q.
        assert (Hq : inside A q) by (eapply ahead_inside; exact Eq).
        assert (Eqk : ahead A p (opposite d) k = Some q).
        { unfold neighbour in Eq. rewrite (ahead_add A p (opposite d) _ 1 r WA Er) in Eq. replace (k - 1 + 1) with k in Eq by lia. exact Eq. }
        split; [exact Eqk|]. unfold under_at in Ek. rewrite Eqk in Ek.
        destruct (UR r d Hr) as (_ & _ & R4). destruct (R4 q Eq) as [_ R5]. destruct (R5 El Ek) as [O1 O2].
        pose proof (T_shows q Hq) as Sq. destruct (T q) as [| |i o|f b|f h|f k0|x y]; try (destruct b); destruct Sq as (Sq & B1 & B2 & B3 & B4 & B5 & B6); try congruence; try contradiction.
        cbn in Sq. destruct Sq as (_ & Sq & _). rewrite <- (proj1 (Sq d) O2). reflexivity. }
      destruct X as (q & Eq & Tq). assert (Hq : inside A q) by (eapply ahead_inside; exact Eq).
      exists q. split; [exact Hq|]. split; [exact Tq|]. exists k. split; [exact Hk|].
      rewrite ahead_opposite in Eq.
      split.
      - rewrite (ahead_add A p d (- k) k q WA Eq). rewrite Z.add_opp_diag_l. apply ahead_0. exact Hp.
      - intros j Hj. rewrite (ahead_add A p d (- k) j q WA Eq).
        specialize (Ej (k - j) ltac:(lia)). unfold under_at in Ej. rewrite ahead_opposite in Ej.
        replace (- k + j) with (- (k - j)) by lia.
        destruct (ahead A p d (- (k - j))) as [r|] eqn:Er; [|discriminate].
        exists r. split; [reflexivity|]. apply under_clear; [eapply ahead_inside; exact Er|exact Ej].
    Qed.
  End Under.
End Sound.
