(** Enumerating the layouts of a grid without splitters: each is found once. *)
From Coq Require Import String ZArith List Bool Lia.
From Verif Require Import Spec_Cnf Spec_Tile Spec_Layout M_Json M_Tile M_Util M_Card M_Template M_Grid M_Solve
  P_Cnf P_Util P_Card P_Tile P_Layout P_List P_Template P_Walk P_Grid P_GridSound P_GridComplete P_Solve T_Template T_Grid T_Enumerate.
From Verif Require P_Allocate.
Import ListNotations.
Open Scope Z_scope.

Lemma shows_dirs v v' t : shows v t -> shows v' t -> ~ is_splitter_tile t -> (forall d, vi v d = vi v' d /\ vo v d = vo v' d) /\ vs v = vs v'.
Proof.
  intros S S' N. assert (B : forall b b' : bool, (b = true <-> b' = true) -> b = b') by (intros [] []; intuition congruence).
  split; [|destruct S as (_ & _ & _ & -> & _), S' as (_ & _ & _ & -> & _); reflexivity].
  destruct S as [S _], S' as [S' _]. intros d. destruct t as [| |i o|f []|f h|f k|x y]; try contradiction.
  - destruct S as (_ & I1 & O1), S' as (_ & I2 & O2). rewrite I1, I2, O1, O2. auto.
  - destruct S as (_ & I1 & O1 & _), S' as (_ & I2 & O2 & _). split; apply B; [rewrite I1, I2|rewrite O1, O2]; reflexivity.
  - destruct S as (_ & I1 & O1), S' as (_ & I2 & O2). split; [apply B; rewrite I1, I2; reflexivity|rewrite O1, O2; reflexivity].
  - destruct S as (_ & I1 & O1), S' as (_ & I2 & O2). split; [rewrite I1, I2; reflexivity|apply B; rewrite O1, O2; reflexivity].
  - exfalso. apply N. exact Logic.I.
Qed.

(** Each layout is found once if it decides the important variables, and they
    decide the layout. *)
Section Each.
  Variables (g : grid) (cs : cnf) (P : layout -> Prop).
  Hypothesis W : wf_grid g.
  Hypothesis GI : forall a, sat a cs = true -> solves_init g a.
  Hypothesis Exact : forall T, (exists a, sat a cs = true /\ reads g a T) <-> P T.
  Hypothesis Sides : forall a a' T, sat a cs = true -> sat a' cs = true -> reads g a T -> reads g a' T -> forall p, inside (garea g) p ->
    (forall d, vi (view_of a (tile_at g p)) d = vi (view_of a' (tile_at g p)) d /\ vo (view_of a (tile_at g p)) d = vo (view_of a' (tile_at g p)) d).
  Hypothesis Heads : forall a a' T T', sat a cs = true -> sat a' cs = true -> reads g a T -> reads g a' T' ->
    (forall p, inside (garea g) p -> same_but_head (T p) (T' p)) -> forall p, inside (garea g) p -> T p = T' p.
  Theorem each_layout_once vs dom solver : important_variables g [] true = Some vs ->
    correct_solver dom solver -> in_dom dom cs -> (forall v, In v vs -> In v dom) ->
    exists ms, (exists fuel, itersolve solver vs fuel cs = Some ms) /\
      (forall m, In m ms -> exists T, reads g (model_assignment m) T /\ P T) /\
      (forall T, P T -> exists i m, nth_error ms i = Some m /\ reads g (model_assignment m) T /\
         forall j m', nth_error ms j = Some m' -> reads g (model_assignment m') T -> j = i).
  Proof.
  intros EI CS D VD. destruct (C42_enumeration dom vs solver cs CS D) as (ms & Ems & H1 & H2 & H3). exists ms. split; [eexists; apply Ems; apply le_n|].
  assert (GR : forall a, sat a cs = true -> grid_rules g a) by (intros a Sa; apply (solves_init_rules g a W), GI, Sa).
  assert (RD : forall a, sat a cs = true -> exists T, reads g a T).
  { intros a Sa. destruct (C44_decodes g a W) as [_ DC]. destruct (DC (GI a Sa)) as (T & R & _). eauto. }
  assert (VSp : forall v, In v vs -> exists p, inside (garea g) p /\ In v (all_direction (tile_at g p) ++ [is_splitter (tile_at g p)])%list).
  { intros v Hv. apply Some_inj in EI. subst vs. cbn [app] in Hv. apply in_flat_map in Hv. destruct Hv as (p & Hp & Hv). apply iterate_tiles_in in Hp. exists p. split; [exact Hp|]. exact Hv. }
  assert (Pos : forall p v, inside (garea g) p -> In v (all_direction (tile_at g p) ++ [is_splitter (tile_at g p)])%list -> 0 < v).
  { intros p v Hp Hv. pose proof (tile_base_nonneg g p W Hp). pose proof W as (_ & Ht & _). unfold all_direction, inputs, outputs, directions, tile_at in Hv.
    cbn [tile_vars input_dir output_dir M_Grid.is_splitter map app dir_value In] in Hv. intuition lia. }
  (* the layout decides the important variables *)
  assert (Same : forall a a' T, sat a cs = true -> sat a' cs = true -> reads g a T -> reads g a' T -> forall v, In v vs -> a v = a' v).
  { intros a a' T Sa Sa' R R' v Hv. destruct (VSp v Hv) as (p & Hp & Hvp). rewrite <- (P_Allocate.evl_pos a v (Pos p v Hp Hvp)), <- (P_Allocate.evl_pos a' v (Pos p v Hp Hvp)).
    pose proof (Sides a a' T Sa Sa' R R' p Hp) as K1.
    assert (K2 : evl a (is_splitter (tile_at g p)) = evl a' (is_splitter (tile_at g p))).
    { destruct (T_shows g a T R (GR a Sa) p Hp) as (_ & _ & _ & X1 & _), (T_shows g a' T R' (GR a' Sa') p Hp) as (_ & _ & _ & X2 & _). unfold view_of in X1, X2; cbn [P_Grid.vs] in X1, X2. rewrite X1, X2. reflexivity. }
    apply in_app_or in Hvp. destruct Hvp as [Hvp|[<-|[]]]; [|exact K2]. unfold all_direction, inputs, outputs in Hvp. apply in_app_or in Hvp.
    destruct Hvp as [Hvp|Hvp]; apply in_map_iff in Hvp; destruct Hvp as (d & <- & _); apply (K1 d). }
  (* the important variables decide the layout *)
  assert (Det : forall a a' T T', sat a cs = true -> sat a' cs = true -> reads g a T -> reads g a' T' -> (forall v, In v vs -> a v = a' v) -> forall p, inside (garea g) p -> T p = T' p).
  { intros a a' T T' Sa Sa' R R' H. apply (Heads a a' T T' Sa Sa' R R'). intros p Hp. pose proof (T_shows g a T R (GR a Sa) p Hp) as Sh. pose proof (T_shows g a' T' R' (GR a' Sa') p Hp) as Sh'.
    assert (Dv : forall v, In v (all_direction (tile_at g p) ++ [is_splitter (tile_at g p)])%list -> evl a v = evl a' v).
    { intros v Hv. rewrite !P_Allocate.evl_pos by (apply (Pos p v Hp Hv)). apply H. apply Some_inj in EI. subst vs. cbn [app]. apply in_flat_map. exists p. split; [apply iterate_tiles_in; exact Hp|]. exact Hv. }
    apply (shows_same _ _ _ _ Sh Sh'); cbn [view_of vi vo M_Grid.is_splitter].
    - intros d. apply Dv. unfold all_direction, inputs, outputs, directions. apply in_or_app. left. apply in_or_app. left. destruct d; cbn; auto.
    - intros d. apply Dv. unfold all_direction, inputs, outputs, directions. apply in_or_app. left. apply in_or_app. right. destruct d; cbn; auto.
    - apply Dv. apply in_or_app. right. left. reflexivity. }
  split.
  - intros m Hm. destruct (H1 m Hm) as [_ Sm]. destruct (RD _ Sm) as [T R]. exists T. split; [exact R|]. apply Exact. eauto.
  - intros T HT. apply Exact in HT. destruct HT as (a & Sa & R). destruct (H2 a Sa) as (m & Hm & Sm). destruct (H1 m Hm) as [_ Sat].
    destruct (In_nth_error _ _ Hm) as [i Ei]. exists i, m. split; [exact Ei|].
    assert (Rm : reads g (model_assignment m) T).
    { destruct (RD _ Sat) as [T' R']. intros p Hp. rewrite (R' p Hp). f_equal. symmetry. apply (Det a (model_assignment m) T T' Sa Sat R R'); [|exact Hp].
      intros v Hv. apply Sm; [apply VD; exact Hv|exact Hv]. }
    split; [exact Rm|]. intros j m' Ej R'. destruct (Nat.eq_dec j i) as [|N]; [assumption|exfalso]. apply (H3 j i m' m Ej Ei N).
    assert (Sm' : sat (model_assignment m') cs = true) by (apply (H1 m'); eapply nth_error_In; exact Ej).
    intros v _ Hv. apply (Same _ _ T Sm' Sat R' Rm v Hv).
  Qed.
End Each.
Section Once.
  Variables (g : grid) (cs : cnf) (P : layout -> Prop).
  Hypothesis W : wf_grid g.
  Hypothesis GI : forall a, sat a cs = true -> solves_init g a.
  Hypothesis Exact : forall T, (exists a, sat a cs = true /\ reads g a T) <-> P T.
  Hypothesis Plain : forall T, P T -> forall p, inside (garea g) p -> ~ is_splitter_tile (T p).
  Theorem every_layout_once vs dom solver : important_variables g [] true = Some vs ->
    correct_solver dom solver -> in_dom dom cs -> (forall v, In v vs -> In v dom) ->
    exists ms, (exists fuel, itersolve solver vs fuel cs = Some ms) /\
      (forall m, In m ms -> exists T, reads g (model_assignment m) T /\ P T) /\
      (forall T, P T -> exists i m, nth_error ms i = Some m /\ reads g (model_assignment m) T /\
         forall j m', nth_error ms j = Some m' -> reads g (model_assignment m') T -> j = i).
  Proof.
    apply each_layout_once; auto.
    - intros a a' T Sa Sa' R R' p Hp. pose proof (Plain T (proj1 (Exact T) (ex_intro _ a (conj Sa R))) p Hp) as NS.
      apply (shows_dirs _ _ (T p)); [| |exact NS]; (apply T_shows; [assumption| |exact Hp]); apply (solves_init_rules g _ W), GI; assumption.
    - intros a a' T T' Sa Sa' R R' K p Hp. pose proof (Plain T (proj1 (Exact T) (ex_intro _ a (conj Sa R))) p Hp) as NS. specialize (K p Hp).
      destruct (T p), (T' p); cbn in K, NS; try contradiction; congruence.
  Qed.
End Once.
