(** The clauses of optimisations.py are about the variables of the grid only. *)
From Coq Require Import ZArith List Bool Lia.
From Verif Require Import Spec_Cnf Spec_Tile Spec_Layout M_Json M_Tile M_Util M_Template M_Grid M_Balancer M_Optimise
  P_Cnf P_Util P_Card P_Tile P_Layout T_Tile P_List P_Template P_Walk P_Grid P_GridSound P_GridOk.
Import ListNotations.
Open Scope Z_scope.

Section Ok.
  Variable g : grid.
  Hypothesis W : wf_grid g.
  Notation N := (grid_size g).
  Notation A := (garea g).

  Lemma off_lits p u v q : offset g p u v = Some q -> tile_lits N (tile_at g q).
  Proof. apply lits_offset. exact W. Qed.
  Ltac seen := repeat match goal with
    | |- cnf_ok _ (match offset ?g ?p ?u ?v with _ => _ end) => let q := fresh "q" in let E := fresh "E" in destruct (offset g p u v) as [q|] eqn:E; [apply off_lits in E|apply cnf_ok_nil]
    | |- cnf_ok _ (match offset2 ?g ?p ?d ?i ?t ?j with _ => _ end) => let q := fresh "q" in let E := fresh "E" in destruct (offset2 g p d i t j) as [q|] eqn:E; [apply off_lits in E|apply cnf_ok_nil]
    end.
  Lemma ok_at x y : 0 <= x < width (geo g) -> 0 <= y < height (geo g) -> tile_lits N (tile_at g (x, y)).
  Proof. intros Hx Hy. apply lits; [exact W|split; cbn; lia]. Qed.

  Lemma small_loops_ok : cnf_ok N (prevent_small_loops g).
  Proof.
    unfold prevent_small_loops. apply cnf_ok_flat_map. intros x Hx. apply range_in in Hx. apply cnf_ok_flat_map. intros y Hy. apply range_in in Hy. unfold small_loops_at. cbv zeta.
    pose proof (ok_at x y ltac:(lia) ltac:(lia)) as H1. pose proof (ok_at (x + 1) y ltac:(lia) ltac:(lia)) as H2. pose proof (ok_at x (y + 1) ltac:(lia) ltac:(lia)) as H3.
    pose proof (ok_at (x + 1) (y + 1) ltac:(lia) ltac:(lia)) as H4. ok_solve.
  Qed.
  Lemma map_ok {X} (f : X -> lit) l : (forall x, In x l -> lit_ok N (f x)) -> Forall (lit_ok N) (map f l).
  Proof. intros H. apply Forall_forall. intros y Hy. apply in_map_iff in Hy. destruct Hy as (x & <- & Hx). apply H. exact Hx. Qed.
  Lemma empty_loop_ok d p is_ : inside A p -> forall middle, Forall (tile_lits N) middle -> cnf_ok N (empty_loop g d p middle is_).
  Proof.
    intros Hp. pose proof (lits g W p Hp) as Lp. induction is_ as [|i r IH]; intros middle Hm; cbn [empty_loop]; [apply cnf_ok_nil|]. destruct (offset g p (dx d * i) (dy d * i)) as [q|] eqn:E; [|apply cnf_ok_nil]. apply off_lits in E.
    apply cnf_ok_app.
    - assert (K : cnf_ok N [empty_clause d (tile_at g p) middle (tile_at g q)]).
      { apply cnf_ok_cons; [|apply cnf_ok_nil]. unfold empty_clause. apply Forall_app. split; [ok_lits|]. apply Forall_app. split; [|ok_lits].
        apply map_ok. intros t Ht. rewrite Forall_forall in Hm. specialize (Hm t Ht). ok_lits. }
      destruct middle; [apply cnf_ok_nil|exact K].
    - apply IH. apply Forall_app. split; [exact Hm|constructor; [exact E|constructor]].
  Qed.
  Lemma empty_along_ok : cnf_ok N (prevent_empty_along_underground g).
  Proof. unfold prevent_empty_along_underground. apply cnf_ok_flat_map. intros d _. apply ok_tiles. intros p Hp. apply empty_loop_ok; [exact Hp|constructor]. Qed.
  Lemma glue_ok : cnf_ok N (glue_splitters g).
  Proof.
    unfold glue_splitters. apply ok_tiles. intros p Hp. apply cnf_ok_flat_map. intros d _. unfold glue_at. destruct (_ && _); [apply cnf_ok_nil|]. seen.
    cbv zeta. pose proof (lits g W p Hp). unfold not_straight. ok_solve.
  Qed.
  Lemma hooks_ok : cnf_ok N (prevent_belt_hooks g).
  Proof.
    unfold prevent_belt_hooks. apply ok_tiles. intros p Hp. pose proof (lits g W p Hp). apply cnf_ok_flat_map. intros d _. apply cnf_ok_flat_map. intros t _. unfold hooks_at. seen. cbv zeta.
    apply cnf_ok_flat_map. intros i _. apply cnf_ok_map. intros o _. ok_lits.
  Qed.
  Lemma present_lits l ts : (forall o q, In o l -> o = Some q -> tile_lits N (tile_at g q)) -> present_tiles g l = Some ts -> Forall (tile_lits N) ts.
  Proof.
    unfold present_tiles. revert ts. induction l as [|o l IH]; intros ts H E; cbn [omap] in E; [apply Some_inj in E; subst; constructor|]. destruct o as [q|]; [|discriminate]. cbn [obind] in E.
    destruct (omap _ l) as [ys|]; [|discriminate]. cbn [obind] in E. apply Some_inj in E. subst ts. constructor; [apply (H (Some q)); [left; reflexivity|reflexivity]|]. apply IH; [|reflexivity]. intros o' q' H1 H2. apply (H o'); [right; exact H1|exact H2].
  Qed.
  Lemma line_lits p d n ts : present_tiles g (line_of g p d n) = Some ts -> Forall (tile_lits N) ts.
  Proof. apply present_lits. intros o q Ho ->. unfold line_of in Ho. apply in_map_iff in Ho. destruct Ho as (i & E & _). apply off_lits in E. exact E. Qed.
  Lemma mergeable_ok : cnf_ok N (prevent_mergeable_underground g).
  Proof.
    unfold prevent_mergeable_underground. apply cnf_ok_flat_map. intros ul _. apply ok_tiles. intros p Hp. apply cnf_ok_flat_map. intros d _. unfold mergeable_at.
    destruct (present_tiles g (line_of g p d (ul + 2))) as [ts|] eqn:E; [|apply cnf_ok_nil]. apply line_lits in E. rewrite Forall_forall in E. apply cnf_ok_map. intros v _. apply map_ok. intros [t b] Ht.
    apply in_combine_l in Ht. specialize (E t Ht). cbn [fst snd]. apply lit_ok_opp. unfold set_literal. destruct b; [|apply lit_ok_opp]; apply E.
  Qed.
  Lemma semicircles_ok : cnf_ok N (prevent_semicircles g).
  Proof.
    unfold prevent_semicircles. apply ok_tiles. intros p Hp. pose proof (lits g W p Hp). apply cnf_ok_flat_map. intros d _. apply cnf_ok_flat_map. intros t _. unfold semicircles_at. seen. cbv zeta.
    apply cnf_ok_flat_map. intros i _. apply cnf_ok_map. intros o _. destruct (dir_eqb t i), (dir_eqb (reverse t) o); ok_lits.
  Qed.
  Lemma uhook_ok : cnf_ok N (prevent_underground_hook g).
  Proof.
    unfold prevent_underground_hook. apply ok_tiles. intros p Hp. pose proof (lits g W p Hp). apply cnf_ok_flat_map. intros d _. apply cnf_ok_flat_map. intros t _. unfold underground_hook_at. seen. cbv zeta.
    apply cnf_ok_app; apply cnf_ok_map; intros o _; ok_lits.
  Qed.
  Lemma blocks_ok c r mx f : (forall t00 t01 t10 t11, tile_lits N t00 -> tile_lits N t01 -> tile_lits N t10 -> tile_lits N t11 -> cnf_ok N (f t00 t01 t10 t11)) ->
    cnf_ok N (for_blocks g c r mx f).
  Proof.
    intros H. unfold for_blocks. destruct (iterate_tile_blocks (geo g) (dir_vec c) 2 (dir_vec r) 2 None None mx None) as [bs|] eqn:E; [|apply cnf_ok_nil].
    apply cnf_ok_flat_map. intros b Hb. destruct (full_block b) as [[[[p00 p01] p10] p11]|] eqn:F; [|apply cnf_ok_nil].
    assert (K : forall q, In (Some q) (concat b) -> tile_lits N (tile_at g q)).
    { unfold iterate_tile_blocks in E. destruct (dir_vec c) as [cx cy], (dir_vec r) as [rx ry]. repeat match type of E with (if ?x then _ else _) = _ => destruct x; [discriminate|] end. apply Some_inj in E. subst bs.
      apply in_map_iff in Hb. destruct Hb as (p & <- & _). intros q Hq. apply in_concat in Hq. destruct Hq as (row & Hr & Hq). apply in_map_iff in Hr. destruct Hr as (i & <- & _). apply in_map_iff in Hq. destruct Hq as (j & Ej & _).
      eapply lits_offset; [exact W|exact Ej]. }
    unfold full_block in F. destruct b as [|[|[a0|] [|[b0|] [|]]] [|[|[c0|] [|[d0|] [|]]] [|]]]; try discriminate. apply Some_inj in F. injection F as -> -> -> ->.
    apply H; apply K; cbn; tauto.
  Qed.
  Lemma zigzags_ok : cnf_ok N (prevent_zigzags g).
  Proof. unfold prevent_zigzags. apply cnf_ok_flat_map. intros d _. apply cnf_ok_flat_map. intros t _. apply blocks_ok. intros t0 t1 t2 t3 H0 H1 H2 H3. unfold zigzag_clauses. ok_solve. Qed.
  Lemma parallel_ok : cnf_ok N (prevent_belt_parallel_splitter g).
  Proof.
    unfold prevent_belt_parallel_splitter. apply cnf_ok_flat_map. intros d _. apply cnf_ok_flat_map. intros [t hd] _. apply blocks_ok. intros t0 t1 t2 t3 H0 H1 H2 H3. unfold parallel_clauses, set_literal. cbn [fst snd].
    apply cnf_ok_map. intros i _. destruct (dir_eqb i d), hd; ok_lits.
  Qed.
  Lemma partial_ok : cnf_ok N (glue_partial_splitters g).
  Proof. unfold glue_partial_splitters. apply cnf_ok_flat_map. intros d _. apply blocks_ok. intros t0 t1 t2 t3 H0 H1 H2 H3. unfold partial_clauses. cbv zeta. ok_solve. Qed.
  Lemma generic_ok : cnf_ok N (apply_generic_optimisations g).
  Proof.
    unfold apply_generic_optimisations.
    apply cnf_ok_app; [apply small_loops_ok|]. apply cnf_ok_app; [apply empty_along_ok|]. apply cnf_ok_app; [apply glue_ok|]. apply cnf_ok_app; [apply hooks_ok|]. apply cnf_ok_app; [apply mergeable_ok|]. apply cnf_ok_app; [apply semicircles_ok|]. apply cnf_ok_app; [apply uhook_ok|]. apply cnf_ok_app; [apply zigzags_ok|]. apply cnf_ok_app; [apply parallel_ok|]. apply partial_ok.
  Qed.

  Lemma Forall_removelast {X} (P : X -> Prop) l : Forall P l -> Forall P (removelast l).
  Proof. intros H. induction l as [|x l IH]; [constructor|]. inversion_clear H. cbn [removelast]. destruct l; [constructor|]. constructor; [assumption|]. apply IH. assumption. Qed.
  Lemma not_straight_ok t d : tile_lits N t -> Forall (lit_ok N) (not_straight t d).
  Proof. intros H. unfold not_straight. ok_lits. Qed.
  Lemma expand_ok mx my ax ay cs : expand_underground g mx my ax ay = Some cs -> cnf_ok N cs.
  Proof.
    unfold expand_underground. destruct (glen g) as [l|].
    - intros E. eapply cnf_ok_oflat; [exact E|]. clear E. intros ul c1 _ E1. eapply cnf_ok_oflat; [exact E1|]. clear E1. intros p c2 _ E2. eapply cnf_ok_oflat; [exact E2|]. clear E2. intros d c3 _ E3. cbv beta in E3.
      destruct (out_of_region _ _ _ _ _ _); [apply Some_inj in E3; subst; apply cnf_ok_nil|]. destruct (present_tiles g (line_of g p d (ul + 2))) as [ts|] eqn:Et; [|discriminate]. cbn [obind] in E3. apply line_lits in Et.
      unfold expand_clauses in E3. destruct ts as [|t0 [|t1 rest]]; try discriminate. cbv zeta in E3. destruct (rev (t0 :: t1 :: rest)) as [|z0 [|z1 zr]] eqn:Er; try discriminate. apply Some_inj in E3. subst c3.
      assert (Hr : Forall (tile_lits N) (z0 :: z1 :: zr)) by (rewrite <- Er; apply Forall_forall; intros x Hx; apply in_rev in Hx; rewrite Forall_forall in Et; apply Et; exact Hx).
      inversion_clear Hr as [|? ? Z0 Hr']. inversion_clear Hr' as [|? ? Z1 _]. inversion_clear Et as [|? ? T0 Et']. pose proof Et' as Et2. inversion_clear Et' as [|? ? T1 Tr].
      assert (U : forall xs, Forall (tile_lits N) xs -> Forall (lit_ok N) (map (fun t => - underground t d) xs)) by (intros xs Hx; apply map_ok; intros t Ht; rewrite Forall_forall in Hx; specialize (Hx t Ht); ok_lits).
      apply cnf_ok_cons; [|apply cnf_ok_cons; [|apply cnf_ok_nil]]; repeat (apply Forall_app; split); try (apply not_straight_ok; assumption); try (apply U; repeat apply Forall_removelast; assumption); ok_lits.
    - unfold expand_underground_infinite. intros E. eapply cnf_ok_oflat; [exact E|]. clear E. intros p c2 _ E2. eapply cnf_ok_oflat; [exact E2|]. clear E2. intros d c3 _ E3. cbv beta in E3.
      destruct (out_of_region _ _ _ _ _ _); [apply Some_inj in E3; subst; apply cnf_ok_nil|]. destruct (present_tiles g (line_of g p d 2)) as [ts|] eqn:Et; [|discriminate]. cbn [obind] in E3. apply line_lits in Et.
      destruct ts as [|t0 [|t1 [|]]]; try discriminate. apply Some_inj in E3. subst c3. inversion_clear Et as [|? ? T0 Et']. inversion_clear Et' as [|? ? T1 Tr]. unfold expand_infinite_clauses, not_straight. ok_solve.
  Qed.
End Ok.
