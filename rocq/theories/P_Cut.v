(** The flow through a cut of an interchange: what the cardinality clauses
    demand follows from the rest. *)
From Coq Require Import String ZArith List Bool Lia.
From Verif Require Import Spec_Cnf Spec_Tile Spec_Layout M_Json M_Tile M_Util M_Card M_Network M_Template M_Grid M_Oracle M_Balancer M_Optimise M_Interchange
  P_Cnf P_Util P_Card P_Tile P_Layout P_List P_Template P_Walk P_Grid P_GridSound P_GridComplete P_Transport T_Grid P_GridOk P_Gen P_Balancer P_NetFree P_Pow2 P_Pow2Flow P_Alloc P_Edge2 P_Flux.
Import ListNotations.
Open Scope Z_scope.

Lemma dx_step d : dx d = step_x d. Proof. destruct d; reflexivity. Qed.
Lemma dy_step d : dy d = step_y d. Proof. destruct d; reflexivity. Qed.
Lemma count_true_zsum bs : count_true bs = zsum (map Z.b2z bs).
Proof. induction bs as [|[] bs IH]; [reflexivity| |]; cbn [count_true map zsum fold_right Z.b2z]; fold (zsum (map Z.b2z bs)); rewrite <- IH; unfold count_true; cbn [fold_right Z.b2z]; lia. Qed.

Section Cut.
  Variable g : grid.
  Hypothesis W : wf_grid g.
  Hypothesis NX : wrap_x (geo g) = false.
  Hypothesis NY : wrap_y (geo g) = false.
  Hypothesis Two : gcolours g = Some 2.
  Variable a : assignment.
  Notation A := (garea g).
  Notation V p := (view_of a (tile_at g p)).
  Notation w := (width (geo g)).
  Notation h := (height (geo g)).
  Variable T : layout.
  Hypothesis HT : reads g a T.
  Hypothesis Sv : solves g (EBool true) a.
  Hypothesis Sc : solves_colouring g a.
  Hypothesis Plain : forall p, inside A p -> vs (V p) = false.
  Hypothesis Ins : forall y, 0 <= y < h -> vi (V (0, y)) RIGHT = true.
  Hypothesis Outs : forall y, 0 <= y < h -> vo (V (w - 1, y)) RIGHT = true.
  Hypothesis Closed : sat a (block_belts_through_edges g (EPair false true)) = true.

  Definition hue (p : pos) : Z := value a (colour (tile_at g p)).
  Definition uhue (d : dir) (p : pos) : Z := value a (hidden_hue d (tile_at g p)).
  Definition entr (p : pos) (d : dir) : bool := vui (V p) && vi (V p) d.
  Definition exit (p : pos) (d : dir) : bool := vuo (V p) && vo (V p) d.
  Variable f : Z -> Z.
  Definition X (d : dir) (p : pos) : Z := Z.b2z (vo (V p) d) * f (hue p) + Z.b2z (vu (V p) d || entr p d) * f (if vu (V p) d then uhue d p else hue p).
  Definition Y (d : dir) (p : pos) : Z := Z.b2z (vi (V p) d) * f (hue p) + Z.b2z (vu (V p) d || exit p d) * f (if vu (V p) d then uhue d p else hue p).

  Let G : grid_rules g a. Proof. apply (solves_init_rules g a W). apply Sv. Qed.
  Let LK : forall p d, inside A p -> link_rule g a p d. Proof. apply (intersection_sat g W a). apply Sv. Qed.
  Let UR : forall p d, inside A p -> under_rule g a p d. Proof. apply (undergrounding_sat g W a). apply Sv. Qed.
  Let ER : edge_under_rule g a (EBool true). Proof. apply (block_underground_sat g W a). apply Sv. Qed.
  Let BR : edge_belt_rule g a (EPair false true). Proof. apply (block_belts_sat g W a). exact Closed. Qed.
  Let TR : forall p d, inside A p -> transport_rule g a (fun p => colour (tile_at g p)) (fun p => colour_ux (tile_at g p)) (fun p => colour_uy (tile_at g p)) p d.
  Proof.
    destruct Sc as (cc & Ecc & Scc). unfold prevent_bad_colouring in Ecc. rewrite Two in Ecc. change (2 =? 1) with false in Ecc. cbv iota in Ecc.
    destruct (transport_sat g W a (fun p => colour (tile_at g p)) (fun p => colour_ux (tile_at g p)) (fun p => colour_uy (tile_at g p)) (colour_bits g)) as (cs' & E & St).
    - intros r Hr. split; [apply fresh_length|apply (tile_at_ok g r W Hr)].
    - intros r Hr. split; [apply fresh_length|apply (tile_at_ok g r W Hr)].
    - intros r Hr. split; [apply fresh_length|apply (tile_at_ok g r W Hr)].
    - apply St. assert (cs' = cc) by (apply Some_inj; transitivity (transport_quantity g (fun p => colour (tile_at g p)) (fun p => colour_ux (tile_at g p)) (fun p => colour_uy (tile_at g p))); [symmetry; exact E|exact Ecc]). congruence.
  Qed.
  Let HA : wf_area A := WA g W.
  Let Ht : forall p, inside A p -> decoded g a p = Some (T p) := HT.

  Lemma beyond_neighbour p d : inside A (beyond p d) -> neighbour A p d = Some (beyond p d).
  Proof.
    intros H. unfold neighbour, ahead, place. cbn [garea area_of wrapx wrapy]. rewrite NX, NY. cbn [fst snd]. rewrite !Z.mul_1_l. unfold beyond in *. rewrite dx_step, dy_step in *.
    unfold insideb. destruct H as [H1 H2]. cbn [fst snd] in *. rewrite (proj2 (Z.leb_le _ _) (proj1 H1)), (proj2 (Z.ltb_lt _ _) (proj2 H1)), (proj2 (Z.leb_le _ _) (proj1 H2)), (proj2 (Z.ltb_lt _ _) (proj2 H2)). reflexivity.
  Qed.
  Lemma no_inputs p d : inside A p -> exit p d = true -> forall e, vi (V p) e = false.
  Proof.
    intros Hp E e. apply andb_true_iff in E. destruct E as [E _]. pose proof (T_shows g a T Ht G p Hp) as (K & _ & _ & _ & _ & U & _). rewrite E in U.
    destruct (T p) as [| |i o|x [|]|x hd|x k|x y]; try discriminate. apply K.
  Qed.
  Lemma no_outputs p d : inside A p -> entr p d = true -> forall e, vo (V p) e = false.
  Proof.
    intros Hp E e. apply andb_true_iff in E. destruct E as [E _]. pose proof (T_shows g a T Ht G p Hp) as (K & _ & _ & _ & U & _). rewrite E in U.
    destruct (T p) as [| |i o|x [|]|x hd|x k|x y]; try discriminate. apply K.
  Qed.
  Lemma entr_not_under p d : inside A p -> entr p d = true -> vu (V p) d = false.
  Proof. intros Hp E. apply andb_true_iff in E. destruct E as [E1 E2]. destruct (UR p d Hp) as ((H & _) & _). apply H; assumption. Qed.
  Lemma exit_not_under p d : inside A p -> exit p d = true -> vu (V p) d = false.
  Proof. intros Hp E. apply andb_true_iff in E. destruct E as [E1 E2]. destruct (UR p d Hp) as ((_ & H) & _). apply H; assumption. Qed.

  (** Between two cells. *)
  Lemma between p d : inside A p -> inside A (beyond p d) -> let q := beyond p d in
    vo (V p) d = vi (V q) d /\ (vo (V p) d = true -> hue p = hue q) /\
    (vu (V p) d = true -> vu (V q) d = true -> uhue d p = uhue d q) /\
    (vu (V p) d = true -> vu (V q) d = false -> exit q d = true /\ uhue d p = hue q) /\
    (vu (V p) d = false -> vu (V q) d = true -> entr p d = true /\ hue p = uhue d q) /\
    (entr p d = true -> vu (V q) d = true) /\ (exit q d = true -> vu (V p) d = true).
  Proof.
    intros Hp Hq q. pose proof (beyond_neighbour p d Hq) as E. fold q in E. pose proof (neighbour_back _ _ _ _ HA Hp E) as B.
    pose proof (LK p d Hp) as L. unfold link_rule in L. rewrite E in L. destruct L as [L _].
    destruct (UR p d Hp) as (_ & U2 & _). specialize (U2 q E). destruct U2 as [U2 U3]. destruct (UR q d Hq) as (_ & _ & U4). specialize (U4 p B). destruct U4 as [U4 U5].
    destruct (TR p d Hp q E) as (T1 & T2 & T3 & T4). change (value a (qu _ _ d p)) with (uhue d p) in *. change (value a (qu _ _ d q)) with (uhue d q) in *.
    split; [exact L|]. split; [intros H; apply T1; [exact H|apply Plain; exact Hp]|]. split; [intros H _; apply T2; exact H|].
    split; [|split; [|split]].
    - intros H1 H2. destruct (U3 H1 H2) as [X1 X2]. assert (Xe : exit q d = true) by (unfold exit; rewrite X1, X2; reflexivity). split; [exact Xe|]. apply T4; [exact X2|apply Plain; exact Hq|]. apply (no_inputs q d Hq Xe).
    - intros H1 H2. destruct (U5 H2 H1) as [X1 X2]. assert (Xe : entr p d = true) by (unfold entr; rewrite X1, X2; reflexivity). split; [exact Xe|]. apply T3; [exact X2|apply Plain; exact Hp|]. apply (no_outputs p d Hp Xe).
    - intros Xe. apply andb_true_iff in Xe. apply U2; apply Xe.
    - intros Xe. apply andb_true_iff in Xe. apply U4; apply Xe.
  Qed.
  Lemma cut_coherent p d : inside A p -> inside A (beyond p d) -> coherent g a d p.
  Proof. intros Hp Hq. destruct (between p d Hp Hq) as (_ & _ & H & _). exact H. Qed.
  Lemma cut_link d p : inside A p -> inside A (beyond p d) -> X d p = Y d (beyond p d).
  Proof.
    intros Hp Hq. destruct (between p d Hp Hq) as (B1 & B2 & B3 & B4 & B5 & B6 & B7). unfold X, Y. rewrite <- B1. set (q := beyond p d) in *.
    assert (E1 : Z.b2z (vo (V p) d) * f (hue p) = Z.b2z (vo (V p) d) * f (hue q)) by (destruct (vo (V p) d); [rewrite B2 by reflexivity|]; reflexivity). rewrite E1. f_equal.
    destruct (vu (V p) d) eqn:Ep, (vu (V q) d) eqn:Eq; cbn [orb].
    - rewrite B3 by reflexivity. reflexivity.
    - destruct (B4 eq_refl eq_refl) as [-> ->]. reflexivity.
    - destruct (B5 eq_refl eq_refl) as [-> ->]. reflexivity.
    - destruct (entr p d); [discriminate (B6 eq_refl)|]. destruct (exit q d); [discriminate (B7 eq_refl)|]. reflexivity.
  Qed.
  (** The weight that the program's edges give to a crossing. *)
  Lemma cut_weight d p : inside A p -> inside A (beyond p d) ->
    zsum (map (fun x => Z.b2z (fst x) * f (snd x)) (crossings g a d p)) = X d p.
  Proof.
    intros Hp Hq. destruct (between p d Hp Hq) as (B1 & B2 & B3 & B4 & B5 & B6 & B7). unfold X, crossings. cbn [map fst snd zsum fold_right]. set (q := beyond p d) in *.
    change (value a (colour (tile_at g q))) with (hue q). change (value a (hidden_hue d (tile_at g p))) with (uhue d p). change (value a (hidden_hue d (tile_at g q))) with (uhue d q).
    assert (E1 : Z.b2z (vo (V p) d) * f (hue q) = Z.b2z (vo (V p) d) * f (hue p)) by (destruct (vo (V p) d); [rewrite B2 by reflexivity|]; reflexivity). rewrite E1, Z.add_0_r. f_equal.
    destruct (vu (V p) d) eqn:Ep; cbn [orb]; [reflexivity|].
    destruct (vu (V q) d) eqn:Eq; [destruct (B5 eq_refl eq_refl) as [-> ->]; reflexivity|]. destruct (entr p d); [discriminate (B6 eq_refl)|reflexivity].
  Qed.
  (** In one cell. *)
  Lemma cut_cell p : inside A p -> X RIGHT p + X UP p + X LEFT p + X DOWN p = Y RIGHT p + Y UP p + Y LEFT p + Y DOWN p.
  Proof.
    intros Hp. pose proof (T_shows g a T Ht G p Hp) as Sh. pose proof (Plain p Hp) as Np.
    assert (Hide : forall d, X d p = (Z.b2z (vo (V p) d) + Z.b2z (entr p d)) * f (hue p) + Z.b2z (vu (V p) d) * f (uhue d p)).
    { intros d. unfold X. destruct (entr p d) eqn:Ee; [rewrite (entr_not_under p d Hp Ee)|]; [|destruct (vu (V p) d)]; cbn [orb Z.b2z]; lia. }
    assert (Show : forall d, Y d p = (Z.b2z (vi (V p) d) + Z.b2z (exit p d)) * f (hue p) + Z.b2z (vu (V p) d) * f (uhue d p)).
    { intros d. unfold Y. destruct (exit p d) eqn:Ee; [rewrite (exit_not_under p d Hp Ee)|]; [|destruct (vu (V p) d)]; cbn [orb Z.b2z]; lia. }
    rewrite !Hide, !Show. unfold entr, exit.
    assert (D : forall (u : dir -> bool) i, (forall d, u d = true <-> d = i) -> Z.b2z (u RIGHT) + Z.b2z (u UP) + Z.b2z (u LEFT) + Z.b2z (u DOWN) = 1).
    { intros u i H. assert (N : forall d, d <> i -> u d = false) by (intros d Hd; destruct (u d) eqn:E; [|reflexivity]; exfalso; apply Hd, H, E). assert (Y : u i = true) by (apply H; reflexivity).
      destruct i; rewrite ?Y, ?(N RIGHT), ?(N UP), ?(N LEFT), ?(N DOWN) by discriminate; rewrite ?Y; reflexivity. }
    destruct (T p) as [| |i o|x [|]|x hd|x k|x y]; destruct Sh as (K & _ & _ & Ks & Ki & Ko & _); rewrite Ki, Ko; cbn [andb Z.b2z]; try contradiction.
    - destruct K as (_ & K1 & K2). rewrite !K1, !K2. reflexivity.
    - destruct K as (_ & K1 & K2 & _). pose proof (D _ _ K1). pose proof (D _ _ K2). nia.
    - destruct K as (_ & K1 & K2). pose proof (D _ _ K1). rewrite !K2. cbn [Z.b2z]. nia.
    - destruct K as (_ & K1 & K2). pose proof (D _ _ K2). rewrite !K1. cbn [Z.b2z]. nia.
    - congruence.
  Qed.

  Lemma W1 : 1 <= w. Proof. pose proof W as [[H _] _]. lia. Qed.
  Lemma H1 : 1 <= h. Proof. pose proof W as [[_ H] _]. lia. Qed.
  Lemma inside_iff p : inside A p <-> within w h p.
  Proof. unfold inside, within. cbn [garea area_of aw ah]. tauto. Qed.
  Lemma edge_zero p d : inside A p -> at_edge g (EBool true) p d -> vu (V p) d = false /\ vu (V p) (opposite d) = false /\ entr p d = false /\ exit p (opposite d) = false.
  Proof.
    intros Hp He. destruct (ER p d Hp He) as ((E1 & E2) & E3 & E4). split; [exact E1|]. split; [exact E2|]. unfold entr, exit. split.
    - destruct (vi (V p) d); [rewrite E3 by reflexivity|]; [reflexivity|apply andb_false_r].
    - destruct (vo (V p) (opposite d)); [rewrite E4 by reflexivity|]; [reflexivity|apply andb_false_r].
  Qed.
  Lemma X_zero p d : vo (V p) d = false -> vu (V p) d = false -> entr p d = false -> X d p = 0.
  Proof. intros E1 E2 E3. unfold X. rewrite E1, E2, E3. reflexivity. Qed.
  Lemma Y_zero p d : vi (V p) d = false -> vu (V p) d = false -> exit p d = false -> Y d p = 0.
  Proof. intros E1 E2 E3. unfold Y. rewrite E1, E2, E3. reflexivity. Qed.
  Lemma in_only p d e : inside A p -> vi (V p) d = true -> vi (V p) e = true -> e = d.
  Proof.
    intros Hp Hd He. pose proof (T_shows g a T Ht G p Hp) as (K & _ & _ & Ks & _). pose proof (Plain p Hp) as Np.
    destruct (T p) as [| |i o|x [|]|x hd|x k|x y]; cbv beta iota in K; try contradiction; try congruence.
    - destruct K as (_ & K1 & _). rewrite K1 in Hd. discriminate.
    - destruct K as (_ & K1 & _). apply K1 in Hd, He. congruence.
    - destruct K as (_ & K1 & _). apply K1 in Hd, He. congruence.
    - destruct K as (_ & K1 & _). rewrite K1 in Hd. discriminate.
  Qed.
  Lemma out_only p d e : inside A p -> vo (V p) d = true -> vo (V p) e = true -> e = d.
  Proof.
    intros Hp Hd He. pose proof (T_shows g a T Ht G p Hp) as (K & _ & _ & Ks & _). pose proof (Plain p Hp) as Np.
    destruct (T p) as [| |i o|x [|]|x hd|x k|x y]; cbv beta iota in K; try contradiction; try congruence.
    - destruct K as (_ & _ & K1). rewrite K1 in Hd. discriminate.
    - destruct K as (_ & _ & K1 & _). apply K1 in Hd, He. congruence.
    - destruct K as (_ & _ & K1). rewrite K1 in Hd. discriminate.
    - destruct K as (_ & _ & K1). apply K1 in Hd, He. congruence.
  Qed.
  Lemma not_back p d : inside A p -> vi (V p) d = true -> vo (V p) (opposite d) = false.
  Proof.
    intros Hp Hd. pose proof (T_shows g a T Ht G p Hp) as (K & _ & _ & Ks & _). pose proof (Plain p Hp) as Np. destruct (vo (V p) (opposite d)) eqn:He; [exfalso|reflexivity].
    destruct (T p) as [| |i o|x [|]|x hd|x k|x y]; cbv beta iota in K; try contradiction; try congruence.
    - destruct K as (_ & K1 & _). rewrite K1 in Hd. discriminate.
    - destruct K as (_ & K1 & K2 & K3). apply K1 in Hd. apply K2 in He. congruence.
    - destruct K as (_ & _ & K1). rewrite K1 in He. discriminate.
    - destruct K as (_ & K1 & _). rewrite K1 in Hd. discriminate.
  Qed.

  Lemma cut_top x : 0 <= x < w -> X UP (x, 0) = 0 /\ Y DOWN (x, 0) = 0.
  Proof.
    pose proof H1. intros Hx. assert (Hp : inside A (x, 0)) by (apply inside_iff; split; cbn [fst snd]; lia).
    assert (He : forall e, (let '(mx, my, Mx, My) := expand_edges e in my = true) -> at_edge g e (x, 0) UP) by (intros e E; unfold at_edge; destruct (expand_edges e) as [[[? ?] ?] ?]; split; [exact E|reflexivity]).
    destruct (edge_zero (x, 0) UP Hp (He (EBool true) eq_refl)) as (E1 & E2 & E3 & E4). destruct (BR (x, 0) UP Hp (He (EPair false true) eq_refl)) as ((F1 & F2) & _). cbn [opposite] in *.
    split; [apply X_zero|apply Y_zero]; assumption.
  Qed.
  Lemma cut_bottom x : 0 <= x < w -> X DOWN (x, h - 1) = 0 /\ Y UP (x, h - 1) = 0.
  Proof.
    pose proof H1. intros Hx. assert (Hp : inside A (x, h - 1)) by (apply inside_iff; split; cbn [fst snd]; lia).
    assert (He : forall e, (let '(mx, my, Mx, My) := expand_edges e in My = true) -> at_edge g e (x, h - 1) DOWN) by (intros e E; unfold at_edge; destruct (expand_edges e) as [[[? ?] ?] ?]; split; [exact E|reflexivity]).
    destruct (edge_zero (x, h - 1) DOWN Hp (He (EBool true) eq_refl)) as (E1 & E2 & E3 & E4). destruct (BR (x, h - 1) DOWN Hp (He (EPair false true) eq_refl)) as ((F1 & F2) & _). cbn [opposite] in *.
    split; [apply X_zero|apply Y_zero]; assumption.
  Qed.
  Lemma cut_left y : 0 <= y < h -> X LEFT (0, y) = 0 /\ Y RIGHT (0, y) = f (hue (0, y)).
  Proof.
    pose proof W1. intros Hy. assert (Hp : inside A (0, y)) by (apply inside_iff; split; cbn [fst snd]; lia).
    assert (He : at_edge g (EBool true) (0, y) LEFT) by (split; reflexivity). destruct (edge_zero (0, y) LEFT Hp He) as (E1 & E2 & E3 & E4). cbn [opposite] in *. pose proof (Ins y Hy) as Hi. split.
    - apply X_zero; try assumption. apply (not_back (0, y) RIGHT Hp Hi).
    - unfold Y. rewrite Hi, E2, E4. cbn [orb Z.b2z]. lia.
  Qed.
  Lemma cut_right y : 0 <= y < h -> Y LEFT (w - 1, y) = 0 /\ X RIGHT (w - 1, y) = f (hue (w - 1, y)).
  Proof.
    pose proof W1. intros Hy. assert (Hp : inside A (w - 1, y)) by (apply inside_iff; split; cbn [fst snd]; lia).
    assert (He : at_edge g (EBool true) (w - 1, y) RIGHT) by (split; reflexivity). destruct (edge_zero (w - 1, y) RIGHT Hp He) as (E1 & E2 & E3 & E4). cbn [opposite] in *. pose proof (Outs y Hy) as Ho. split.
    - apply Y_zero; try assumption. destruct (vi (V (w - 1, y)) LEFT) eqn:Ei; [|reflexivity]. pose proof (not_back (w - 1, y) LEFT Hp Ei) as C. cbn [opposite] in C. congruence.
    - unfold X. rewrite Ho, E1, E3. cbn [orb Z.b2z]. lia.
  Qed.

  Definition weigh (d : dir) (line : list pos) : Z := zsum (map (fun x => Z.b2z (fst x) * f (snd x)) (flat_map (crossings g a d) line)).
  Lemma weigh_line d line : good_line g d line -> weigh d line = zsum (map (X d) line).
  Proof.
    intros H. unfold weigh. induction line as [|p line IH]; [reflexivity|]. cbn [flat_map map]. rewrite map_app, zsum_app, IH by (intros q Hq; apply H; right; exact Hq).
    destruct (H p (or_introl eq_refl)) as [Hp Hq]. rewrite (cut_weight d p Hp Hq). reflexivity.
  Qed.
  Let Lk : forall d p, within w h p -> within w h (fst p + step_x d, snd p + step_y d) -> X d p = Y d (fst p + step_x d, snd p + step_y d).
  Proof.
    intros d p Hp Hq. assert (E : (fst p + step_x d, snd p + step_y d) = beyond p d) by (unfold beyond; rewrite dx_step, dy_step; reflexivity). rewrite E in *.
    apply cut_link; apply inside_iff; assumption.
  Qed.

  Lemma lines_good :
    (forall y, 0 <= y < h - 1 -> good_line g UP (edge_line g UP (y + 1)) /\ good_line g DOWN (edge_line g DOWN y)) /\
    (forall x, 0 <= x < w - 1 -> good_line g RIGHT (edge_line g RIGHT x) /\ good_line g LEFT (edge_line g LEFT (x + 1))).
  Proof.
    unfold edge_line. cbn [is_horizontal]. split; intros k Hk; (split; intros p Hp); apply in_map_iff in Hp; destruct Hp as (j & <- & Hj); apply range_in in Hj; unfold beyond; rewrite ?dx_step, ?dy_step; cbn [step_x step_y fst snd]; (split; apply inside_iff; split; cbn [fst snd]; lia).
  Qed.
  Theorem row_flow y : 0 <= y < h - 1 ->
    weigh DOWN (edge_line g DOWN y) - weigh UP (edge_line g UP (y + 1)) = zrange (fun k => f (hue (0, k)) - f (hue (w - 1, k))) (y + 1).
  Proof.
    intros Hy. destruct (proj1 lines_good y Hy) as [G1 G2]. rewrite (weigh_line _ _ G1), (weigh_line _ _ G2). unfold edge_line. change (is_horizontal DOWN) with false. change (is_horizontal UP) with false. cbv iota. rewrite !map_map.
    pose proof (rows_flux w h W1 X Y (fun p Hp => cut_cell p (proj2 (inside_iff p) Hp)) Lk cut_top (fun y Hy => proj1 (cut_left y Hy)) (fun y Hy => proj1 (cut_right y Hy)) y Hy) as R.
    rewrite zrange_sub in R. unfold zrange at 1 2 in R. rewrite R. apply zrange_ext. intros k Hk. rewrite (proj2 (cut_left k ltac:(lia))), (proj2 (cut_right k ltac:(lia))). reflexivity.
  Qed.
  Theorem column_flow x : 0 <= x < w - 1 ->
    weigh RIGHT (edge_line g RIGHT x) - weigh LEFT (edge_line g LEFT (x + 1)) = zrange (fun y => f (hue (0, y))) h.
  Proof.
    intros Hx. destruct (proj2 lines_good x Hx) as [G1 G2]. rewrite (weigh_line _ _ G1), (weigh_line _ _ G2). unfold edge_line. change (is_horizontal RIGHT) with true. change (is_horizontal LEFT) with true. cbv iota. rewrite !map_map.
    pose proof (columns_flux w h H1 X Y (fun p Hp => cut_cell p (proj2 (inside_iff p) Hp)) Lk cut_top cut_bottom (fun y Hy => proj1 (cut_left y Hy)) x Hx) as R.
    rewrite zrange_sub in R. unfold zrange at 1 2 in R. rewrite R. apply zrange_ext. intros k Hk. rewrite (proj2 (cut_left k ltac:(lia))). reflexivity.
  Qed.
End Cut.
