(** Every clause of the grid is over variables that the grid has allocated. *)
From Coq Require Import String ZArith List Bool Lia.
From Verif Require Import Spec_Cnf Spec_Tile Spec_Layout M_Json M_Tile M_Util M_Card M_Template M_Grid
  P_Cnf P_Util P_Card P_Tile P_Layout P_List P_Template P_Walk P_Grid.
Import ListNotations.
Open Scope Z_scope.

(** ** Helpers of util.py and cardinality.py *)
Lemma cnf_ok_nil n : cnf_ok n [].
Proof. constructor. Qed.
Lemma cnf_ok_cons n c f : Forall (lit_ok n) c -> cnf_ok n f -> cnf_ok n (c :: f).
Proof. intros. constructor; assumption. Qed.
Lemma cnf_ok_flat_map {A} n (F : A -> cnf) l : (forall x, In x l -> cnf_ok n (F x)) -> cnf_ok n (flat_map F l).
Proof.
  induction l as [|x l IH]; intros H; [constructor|]. cbn [flat_map]. apply cnf_ok_app; [apply H; left; reflexivity|].
  apply IH. intros y Hy. apply H. right. exact Hy.
Qed.
Lemma cnf_ok_map {A} n (F : A -> clause) l : (forall x, In x l -> Forall (lit_ok n) (F x)) -> cnf_ok n (map F l).
Proof. intros H. apply Forall_map. apply Forall_forall. exact H. Qed.
Lemma cnf_ok_oflat {A} n (F : A -> option cnf) l cs : oflat F l = Some cs ->
  (forall x c, In x l -> F x = Some c -> cnf_ok n c) -> cnf_ok n cs.
Proof.
  unfold oflat. destruct (omap F l) as [css|] eqn:E; [|discriminate]. cbn [obind]. intros E'. apply Some_inj in E'. subst cs.
  revert css E. induction l as [|x l IH]; intros css E H; cbn [omap] in E; [apply Some_inj in E; subst; constructor|].
  destruct (F x) as [c|] eqn:Ex; [|discriminate]. cbn [obind] in E. destruct (omap F l) as [cs|]; [|discriminate]. cbn [obind] in E.
  apply Some_inj in E. subst css. cbn [List.concat]. apply cnf_ok_app; [apply (H x); [left; reflexivity|exact Ex]|].
  apply IH; [reflexivity|]. intros y c' Hy. apply H. right. exact Hy.
Qed.
Lemma set_all_false_ok n ls : Forall (lit_ok n) ls -> cnf_ok n (set_all_false ls).
Proof. intros H. unfold set_all_false. apply cnf_ok_map. intros l Hl. constructor; [|constructor]. apply lit_ok_opp. rewrite Forall_forall in H. auto. Qed.
Lemma quadratic_one_ok n ls : Forall (lit_ok n) ls -> cnf_ok n (quadratic_one ls).
Proof. intros H. unfold quadratic_one. apply cnf_ok_app; [apply quadratic_amo_ok; exact H|]. apply cnf_ok_cons; [exact H|constructor]. Qed.
Lemma invert_ok n ls : Forall (lit_ok n) ls -> Forall (lit_ok n) (invert_components ls).
Proof. intros H. unfold invert_components. apply Forall_map. eapply Forall_impl; [|exact H]. intros l. apply lit_ok_opp. Qed.
Lemma set_maximum_ok n : forall ls v cs, Forall (lit_ok n) ls -> set_maximum v ls = Some cs -> cnf_ok n cs.
Proof.
  induction ls as [|l ls IH]; intros v cs H E; cbn [set_maximum] in E.
  - destruct (v =? 0); [apply Some_inj in E; subst; constructor|discriminate].
  - inversion H as [|? ? Hl Hls]; subst. destruct (set_maximum (Z.shiftr v 1) ls) as [cs'|] eqn:E'; [|discriminate].
    specialize (IH _ _ Hls E'). destruct (Z.land v 1 =? 0); [|apply Some_inj in E; subst; exact IH]. apply Some_inj in E. subst cs.
    apply cnf_ok_app; [exact IH|]. apply cnf_ok_cons; [|constructor]. constructor; [apply lit_ok_opp; exact Hl|].
    apply Forall_forall. intros x Hx. apply in_map_iff in Hx. destruct Hx as ([b y] & <- & Hy). apply filter_In in Hy.
    destruct Hy as [Hy _]. apply in_combine_r in Hy. apply lit_ok_opp. rewrite Forall_forall in Hls. auto.
Qed.
Lemma set_not_number_ok n v ls c : Forall (lit_ok n) ls -> set_not_number v ls = Some c -> Forall (lit_ok n) c.
Proof.
  intros H E. unfold set_not_number in E. destruct (set_number v ls) as [cs|] eqn:Es; [|discriminate]. apply Some_inj in E. subst c.
  unfold set_number in Es. destruct (v <? _); [|discriminate]. apply Some_inj in Es. subst cs.
  apply Forall_forall. intros x Hx. rewrite map_map in Hx. apply in_map_iff in Hx. destruct Hx as ([l b] & <- & Hl).
  apply in_combine_l in Hl. rewrite Forall_forall in H. apply lit_ok_opp. cbn [nth]. apply set_literal_ok. auto.
Qed.
Lemma set_numbers_equal_ok n xs ys cs : Forall (lit_ok n) xs -> Forall (lit_ok n) ys -> set_numbers_equal xs ys false = Some cs -> cnf_ok n cs.
Proof.
  intros Hx Hy E. unfold set_numbers_equal in E. destruct (Nat.eqb _ _); [|discriminate]. apply Some_inj in E. subst cs.
  apply same_all_ok; assumption.
Qed.
Lemma set_numbers_loop_ok n : forall las lbs bas bbs, Forall (lit_ok n) las -> Forall (lit_ok n) lbs ->
  cnf_ok n (fst (set_numbers_loop las lbs bas bbs)) /\
  Forall (fun x => lit_ok n (fst (fst x))) (snd (set_numbers_loop las lbs bas bbs)).
Proof.
  induction las as [|la las IH]; intros [|lb lbs] bas bbs Ha Hb; try (split; constructor).
  destruct bas as [|ba bas]; [split; constructor|]. destruct bbs as [|bb bbs]; [split; constructor|].
  inversion Ha; inversion Hb; subst. cbn [set_numbers_loop]. destruct (IH lbs bas bbs) as [I1 I2]; [assumption|assumption|].
  destruct (set_numbers_loop las lbs bas bbs) as [cs ds]. cbn [fst snd] in *. destruct (eqb ba bb); cbn [fst snd]; split; auto.
  - repeat apply cnf_ok_cons; auto; (constructor; [apply set_literal_ok; assumption|constructor]).
  - apply cnf_ok_app; [apply literals_different_ok; assumption|exact I1].
Qed.
Lemma set_numbers_ok n va vb las lbs cs : Forall (lit_ok n) las -> Forall (lit_ok n) lbs -> set_numbers va vb las lbs = Some cs -> cnf_ok n cs.
Proof.
  intros Ha Hb E. unfold set_numbers in E. destruct (negb _); [discriminate|]. destruct (negb _); [discriminate|]. destruct (negb _); [discriminate|].
  destruct (set_numbers_loop_ok n las lbs (get_bits va (length las)) (get_bits vb (length las)) Ha Hb) as [I1 I2].
  destruct (set_numbers_loop _ _ _ _) as [c0 [|[[la0 lb0] ba0] ds]]; cbn [fst snd] in *; apply Some_inj in E; subst cs; [exact I1|].
  inversion I2 as [|? ? H0 H1]; subst. cbn [fst] in H0. apply cnf_ok_app; [exact I1|]. apply cnf_ok_flat_map. intros [[la1 lb1] ba1] Hin.
  rewrite Forall_forall in H1. specialize (H1 _ Hin). cbn [fst] in H1.
  destruct (eqb ba0 ba1); [apply literals_same_ok|apply literals_different_ok]; assumption.
Qed.

(** ** The variables of a tile *)
Record tile_lits (n : Z) (t : tvars) : Prop := {
  tl_b : lit_ok n (is_belt t); tl_e : lit_ok n (is_empty t); tl_s : lit_ok n (is_splitter t); tl_ui : lit_ok n (is_underground_in t);
  tl_uo : lit_ok n (is_underground_out t); tl_h : lit_ok n (is_splitter_head t); tl_in : lit_ok n (is_input t); tl_out : lit_ok n (is_output t);
  tl_i : forall d, lit_ok n (input_dir t d); tl_o : forall d, lit_ok n (output_dir t d); tl_u : forall d, lit_ok n (underground t d);
  tl_c : Forall (lit_ok n) (colour t); tl_cx : Forall (lit_ok n) (colour_ux t); tl_cy : Forall (lit_ok n) (colour_uy t) }.

Definition grid_size (g : grid) : Z := gtop g + width (geo g) * height (geo g) * tile_size g.

Lemma tile_base_top g p : wf_grid g -> inside (garea g) p -> tile_base g p + tile_size g <= grid_size g.
Proof.
  intros (W & Ht & _) [Hx Hy]. unfold tile_base, grid_size. cbn [garea area_of aw ah] in *. pose proof (tile_size_pos g).
  assert (H0 : snd p * width (geo g) + fst p + 1 <= width (geo g) * height (geo g)) by nia. nia.
Qed.

Lemma fresh_ok' top k n : 0 <= top -> top + Z.of_nat k <= n -> Forall (lit_ok n) (fresh top k).
Proof. apply fresh_ok. Qed.

Lemma tile_at_lits g p : wf_grid g -> inside (garea g) p -> tile_lits (grid_size g) (tile_at g p).
Proof.
  intros W I. pose proof (tile_base_nonneg g p W I) as B. pose proof (tile_base_top g p W I) as Tp. pose proof (tile_size_pos g) as S.
  destruct W as (_ & Ht & _). unfold tile_at, lit_ok.
  constructor; cbn [tile_vars is_belt is_empty is_splitter is_underground_in is_underground_out is_splitter_head is_input is_output input_dir output_dir underground colour colour_ux colour_uy];
    try (split; lia); try (intros d; pose proof (dir_value_bound d); split; lia); apply fresh_ok; lia.
Qed.

Lemma Forall_dirs n (f : dir -> lit) ds : (forall d, lit_ok n (f d)) -> Forall (lit_ok n) (map f ds).
Proof. intros H. apply Forall_map, Forall_forall. intros d _. apply H. Qed.

Ltac ok_lits := repeat match goal with
  | |- Forall _ (_ ++ _) => apply Forall_app; split
  | |- Forall _ (_ :: _) => constructor
  | |- Forall _ [] => constructor
  | |- Forall _ (map _ _) => apply Forall_dirs
  | |- Forall _ (del_dir _ _) => apply Forall_dirs
  | |- Forall _ (inputs _) => apply Forall_dirs
  | |- Forall _ (outputs _) => apply Forall_dirs
  | |- Forall _ (tile_type _) => unfold tile_type
  | |- Forall _ (all_direction _) => unfold all_direction
  | |- Forall _ (invert_components _) => apply invert_ok
  | |- forall _, _ => intros ?
  | |- lit_ok _ (- _) => apply lit_ok_opp
  | H : tile_lits _ ?t |- lit_ok _ (_ ?t) => apply H
  | H : tile_lits _ ?t |- lit_ok _ (_ ?t _) => apply H
  | H : tile_lits _ ?t |- Forall _ (_ ?t) => apply H
  end.
Ltac ok_step := match goal with
  | |- cnf_ok _ (_ ++ _) => apply cnf_ok_app
  | |- cnf_ok _ (_ :: _) => apply cnf_ok_cons; [ok_lits|]
  | |- cnf_ok _ [] => apply cnf_ok_nil
  | |- cnf_ok _ (implies _ _) => apply implies_ok; [ok_lits|]
  | |- cnf_ok _ (set_all_false _) => apply set_all_false_ok; ok_lits
  | |- cnf_ok _ (quadratic_amo _) => apply quadratic_amo_ok; ok_lits
  | |- cnf_ok _ (quadratic_one _) => apply quadratic_one_ok; ok_lits
  | |- cnf_ok _ (literals_same _ _) => apply literals_same_ok; ok_lits
  | |- cnf_ok _ (literals_different _ _) => apply literals_different_ok; ok_lits
  | |- cnf_ok _ (flat_map _ directions) => apply cnf_ok_flat_map; intros ? _
  end.
Ltac ok_solve := repeat ok_step.

Section Ok.
  Variable g : grid.
  Hypothesis W : wf_grid g.
  Notation N := (grid_size g).
  Notation A := (garea g).

  Lemma lits p : inside A p -> tile_lits N (tile_at g p).
  Proof. apply tile_at_lits. exact W. Qed.
  Lemma lits_offset p u v q : get_tile_instance_offset (geo g) (fst p) (snd p) u v = Some q -> tile_lits N (tile_at g q).
  Proof. intros E. rewrite offset_place in E by apply W. apply lits. eapply place_inside. exact E. Qed.

  Lemma tile_clauses_ok t : tile_lits N t -> cnf_ok N (tile_clauses t).
  Proof. intros H. unfold tile_clauses. ok_solve. Qed.

  Lemma ok_tiles (F : Z * Z -> cnf) : (forall p, inside A p -> cnf_ok N (F p)) -> cnf_ok N (flat_map F (iterate_tiles (geo g))).
  Proof. intros H. apply cnf_ok_flat_map. intros p Hp. apply H, iterate_tiles_in. exact Hp. Qed.
  Lemma ok_lines (F : (Z * Z) * option (Z * Z) -> cnf) d : (forall p, inside A p -> cnf_ok N (F (p, neighbour A p d))) ->
    cnf_ok N (flat_map F (iterate_tile_lines2 (geo g) (dir_vec d))).
  Proof.
    intros H. apply cnf_ok_flat_map. intros l Hl. apply iterate_tile_lines2_in in Hl; [|apply W]. destruct Hl as (p & Hp & ->).
    specialize (H p Hp). unfold neighbour, ahead in H. rewrite vec_step. cbn [fst snd]. rewrite !Z.mul_1_l in H. exact H.
  Qed.

  Lemma flag_clauses_ok f (h : dir -> lit) ds : lit_ok N f -> (forall d, lit_ok N (h d)) -> cnf_ok N (flag_clauses f (map h ds)).
  Proof.
    intros Hf Hh. unfold flag_clauses. apply cnf_ok_app; [apply implies_ok; [constructor; [apply Hf|constructor]|apply cnf_ok_cons; [ok_lits; apply Hh|constructor]]|].
    apply cnf_ok_flat_map. intros l Hl. apply in_map_iff in Hl. destruct Hl as (d & <- & _).
    apply implies_ok; [constructor; [apply Hh|constructor]|]. apply cnf_ok_cons; [constructor; [apply Hf|constructor]|constructor].
  Qed.
  Lemma edge_flags_ok t ins outs : tile_lits N t -> cnf_ok N (edge_flags t ins outs).
  Proof. intros H. unfold edge_flags. apply cnf_ok_app; apply flag_clauses_ok; ok_lits. Qed.
  Lemma edge_clauses_ok p : inside A p -> cnf_ok N (edge_clauses_at g p).
  Proof.
    intros Hp. pose proof (lits p Hp) as H. unfold edge_clauses_at. destruct p as [x y].
    repeat match goal with |- cnf_ok _ (if ?b then _ else _) => destruct b end; try (apply edge_flags_ok; exact H). ok_solve.
  Qed.

  Lemma splitter_clauses_ok : cnf_ok N (splitter_clauses g).
  Proof.
    unfold splitter_clauses. apply cnf_ok_flat_map. intros d _. apply ok_lines. intros p Hp. pose proof (lits p Hp) as H.
    unfold splitter_line. cbn [fst snd]. destruct (neighbour A p (next d)) as [q|] eqn:E.
    - assert (Hq : inside A q) by (eapply ahead_inside; exact E). pose proof (lits q Hq) as H'. unfold splitter_side. ok_solve.
    - ok_solve.
  Qed.

  Lemma init_ok cs : init_clauses g = Some cs -> cnf_ok N cs.
  Proof.
    unfold init_clauses. destruct (negb _); [discriminate|]. destruct (negb _); [discriminate|]. destruct (negb _); [discriminate|].
    destruct (oflat _ _) as [c1|] eqn:E; [|discriminate]. cbn [obind]. intros E'. apply Some_inj in E'. subst cs.
    apply cnf_ok_app; [|apply cnf_ok_app; [apply splitter_clauses_ok|apply ok_tiles; apply edge_clauses_ok]].
    apply (cnf_ok_oflat _ _ _ _ E). intros p c Hp Ec. apply iterate_tiles_in in Hp. pose proof (lits p Hp) as H.
    unfold colour_clauses in Ec. destruct (gcolours g) as [k|].
    - destruct (oflat (set_maximum (k - 1)) _) as [c2|] eqn:E2; [|discriminate]. cbn [obind] in Ec. apply Some_inj in Ec. subst c.
      apply cnf_ok_app; [apply tile_clauses_ok; exact H|]. apply (cnf_ok_oflat _ _ _ _ E2). intros ls c Hls.
      apply set_maximum_ok. destruct Hls as [<-|[<-|[<-|[]]]]; apply H.
    - cbn [obind] in Ec. apply Some_inj in Ec. subst c. apply cnf_ok_app; [apply tile_clauses_ok; exact H|constructor].
  Qed.

  Lemma intersection_ok : cnf_ok N (prevent_intersection g).
  Proof.
    unfold prevent_intersection. apply cnf_ok_flat_map. intros d _. apply ok_lines. intros p Hp. pose proof (lits p Hp) as H.
    unfold intersection_line. cbn [fst snd]. destruct (neighbour A p d) as [q|] eqn:E; [|constructor].
    assert (Hq : inside A q) by (eapply ahead_inside; exact E). pose proof (lits q Hq) as H'. ok_solve.
  Qed.

  Lemma undergrounding_ok : cnf_ok N (prevent_bad_undergrounding g).
  Proof.
    unfold prevent_bad_undergrounding. apply cnf_ok_flat_map. intros d _. apply ok_tiles. intros p Hp. pose proof (lits p Hp) as H.
    unfold undergrounding_at.
    destruct (get_tile_instance_offset (geo g) (fst p) (snd p) (dx d) (dy d)) as [q|] eqn:E;
    destruct (get_tile_instance_offset (geo g) (fst p) (snd p) (- dx d) (- dy d)) as [r|] eqn:E';
    try (pose proof (lits_offset _ _ _ _ E) as Hq); try (pose proof (lits_offset _ _ _ _ E') as Hr); ok_solve.
  Qed.

  Lemma length_ok cs : enforce_maximum_underground_length g = Some cs -> cnf_ok N cs.
  Proof.
    unfold enforce_maximum_underground_length. destruct (glen g) as [l|]; [|intros E; apply Some_inj in E; subst; constructor].
    destruct (negb _); [discriminate|]. intros E. apply Some_inj in E. subst cs.
    apply cnf_ok_flat_map. intros d _. apply ok_tiles. intros p Hp. destruct (length_clause g l d p) as [c|] eqn:E; [|constructor].
    apply cnf_ok_cons; [|constructor]. unfold length_clause in E. revert c E. generalize (range (l + 1)) as ks.
    induction ks as [|k ks IH]; intros c E; cbn [omap] in E; [apply Some_inj in E; subst; constructor|].
    destruct (get_tile_instance_offset _ _ _ _ _) as [q|] eqn:Eq; [|discriminate]. cbn [obind] in E.
    destruct (omap _ ks) as [c'|]; [|discriminate]. cbn [obind] in E. apply Some_inj in E. subst c.
    constructor; [|apply IH; reflexivity]. pose proof (lits_offset _ _ _ _ Eq). ok_lits.
  Qed.

  Lemma edges_ok e (F : Z * Z -> dir -> cnf) : (forall p d, inside A p -> cnf_ok N (F p d)) ->
    cnf_ok N (let '(min_x, min_y, max_x, max_y) := expand_edges e in
      let w := width (geo g) in let h := height (geo g) in
      ((if min_x then flat_map (fun y => F (0, y) LEFT) (range h) else []) ++
       (if max_x then flat_map (fun y => F (w - 1, y)%Z RIGHT) (range h) else []) ++
       (if min_y then flat_map (fun x => F (x, 0) UP) (range w) else []) ++
       (if max_y then flat_map (fun x => F (x, h - 1)%Z DOWN) (range w) else [])))%list.
  Proof.
    intros H. destruct (expand_edges e) as [[[mx my] Mx] My]. cbn zeta. destruct W as [[Ww Wh] _].
    assert (X : forall (b : bool) n (G : Z -> cnf), (forall i, 0 <= i < n -> cnf_ok N (G i)) -> cnf_ok N (if b then flat_map G (range n) else [])).
    { intros b n G HG. destruct b; [|constructor]. apply cnf_ok_flat_map. intros i Hi. apply HG, range_in. exact Hi. }
    repeat apply cnf_ok_app; apply X; intros i Hi; apply H; split; cbn [fst snd garea area_of aw ah]; lia.
  Qed.
  Lemma block_underground_ok e : cnf_ok N (block_underground_through_edges g e).
  Proof.
    unfold block_underground_through_edges.
    apply (edges_ok e (fun p d => block_underground_at (tile_at g p) (match d with RIGHT | LEFT => [RIGHT; LEFT] | _ => [UP; DOWN] end) d)).
    intros p d Hp. pose proof (lits p Hp) as H. unfold block_underground_at. ok_solve.
  Qed.
  Lemma block_belts_ok e : cnf_ok N (block_belts_through_edges g e).
  Proof.
    unfold block_belts_through_edges. apply (edges_ok e (fun p d => block_belts_at (tile_at g p) d)).
    intros p d Hp. pose proof (lits p Hp) as H. unfold block_belts_at. ok_solve.
  Qed.

  Lemma transport_ok q0 qx qy cs : transport_quantity g q0 qx qy = Some cs ->
    (forall p, inside A p -> Forall (lit_ok N) (q0 p)) -> (forall p, inside A p -> Forall (lit_ok N) (qx p)) ->
    (forall p, inside A p -> Forall (lit_ok N) (qy p)) -> cnf_ok N cs.
  Proof.
    intros E H0 Hx Hy. apply (cnf_ok_oflat _ _ _ _ E). intros d c _ Ed. apply (cnf_ok_oflat _ _ _ _ Ed). intros p c' Hp Ep.
    apply iterate_tiles_in in Hp. unfold transport_line in Ep.
    destruct (get_tile_instance_offset (geo g) (fst p) (snd p) (dx d) (dy d)) as [q|] eqn:Eq; [|apply Some_inj in Ep; subst; constructor].
    pose proof (lits _ Hp) as Lp. pose proof (lits_offset _ _ _ _ Eq) as Lq.
    assert (Hq : inside A q) by (rewrite offset_place in Eq by apply W; eapply place_inside; exact Eq).
    assert (Hu : forall p, inside A p -> Forall (lit_ok N) (if is_horizontal d then qx p else qy p)) by (intros r Hr; destruct (is_horizontal d); auto).
    set (ua := if is_horizontal d then qx p else qy p) in *. set (ub := if is_horizontal d then qx q else qy q) in *.
    assert (Ua : Forall (lit_ok N) ua) by (apply Hu; exact Hp). assert (Ub : Forall (lit_ok N) ub) by (apply Hu; exact Hq).
    destruct (set_numbers_equal (q0 p) (q0 q) false) as [e1|] eqn:E1; [|discriminate]. cbn [obind] in Ep.
    destruct (set_numbers_equal ua ub false) as [e2|] eqn:E2; [|discriminate]. cbn [obind] in Ep.
    destruct (set_numbers_equal (q0 p) ub false) as [e3|] eqn:E3; [|discriminate]. cbn [obind] in Ep.
    destruct (set_numbers_equal ua (q0 q) false) as [e4|] eqn:E4; [|discriminate]. cbn [obind] in Ep.
    apply Some_inj in Ep. subst c'.
    apply set_numbers_equal_ok with (n := N) in E1, E2, E3, E4; auto. ok_solve; assumption.
  Qed.
  Lemma colouring_ok cs : prevent_bad_colouring g = Some cs -> cnf_ok N cs.
  Proof.
    unfold prevent_bad_colouring. destruct (gcolours g) as [c|]; [|intros E; apply Some_inj in E; subst; constructor].
    destruct (c =? 1); [intros E; apply Some_inj in E; subst; constructor|].
    intros E. apply (transport_ok _ _ _ _ E); intros p Hp; apply (lits p Hp).
  Qed.
  Lemma prevent_colour_ok c cs : prevent_colour g c = Some cs -> cnf_ok N cs.
  Proof.
    intros E. apply (cnf_ok_oflat _ _ _ _ E). intros p k Hp Ep. apply iterate_tiles_in in Hp. pose proof (lits p Hp) as H. cbv beta zeta in Ep.
    destruct (c =? 0).
    - destruct (set_not_number 0 _) as [n|] eqn:En; [|discriminate]. cbn [obind] in Ep. apply Some_inj in Ep. subst k.
      apply cnf_ok_map. intros l Hl. constructor.
      + apply lit_ok_opp. assert (X : Forall (lit_ok N) (all_direction (tile_at g p))) by ok_lits. rewrite Forall_forall in X. auto.
      + eapply set_not_number_ok; [|exact En]. apply H.
    - assert (X : forall ls, (forall l, In l ls -> Forall (lit_ok N) l) -> forall k, omap (set_not_number c) ls = Some k -> cnf_ok N k).
      { induction ls as [|l ls IH]; intros Hls k' Ek; cbn [omap] in Ek; [apply Some_inj in Ek; subst; constructor|].
        destruct (set_not_number c l) as [n|] eqn:En; [|discriminate]. cbn [obind] in Ek.
        destruct (omap _ ls) as [r|]; [|discriminate]. cbn [obind] in Ek. apply Some_inj in Ek. subst k'.
        apply cnf_ok_cons; [|apply IH; [intros l' Hl'; apply Hls; right; exact Hl'|reflexivity]].
        eapply set_not_number_ok; [|exact En]. apply Hls. left. reflexivity. }
      refine (X _ _ k Ep). intros l Hl. destruct Hl as [<-|[<-|[<-|[]]]]; apply H.
  Qed.
End Ok.
