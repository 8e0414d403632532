(** What the clauses of belt_balancer_net_free_power_of_2.py say. *)
From Coq Require Import String ZArith QArith List Bool Lia.
From Verif Require Import Spec_Cnf Spec_Tile Spec_Layout M_Json M_Tile M_Util M_Card M_Network Spec_Network M_Template M_Grid M_Oracle M_Balancer M_Optimise M_NetFree M_Pow2
  Spec_Balancer Spec_Flow P_Cnf P_Util P_Card P_Tile P_Layout P_List P_Template P_Walk P_Grid P_GridSound P_GridComplete P_Transport T_Grid P_GridOk P_Gen P_Balancer P_NetFree.
Import ListNotations.
Open Scope Z_scope.

(** ** Clauses under a condition *)
Lemma gen_ok_guarded n pre f P : Forall (lit_ok n) pre -> gen_ok n f P ->
  gen_ok n (guarded pre f) (fun a => (forall l, In l pre -> evl a l = true) -> P a).
Proof.
  intros Hp [Lc H]. pose proof (Forall_ok_nonzero n pre Hp) as Nz.
  assert (LP : forall a b, agree n a b -> (forall l, In l pre -> evl b l = true) -> forall l, In l pre -> evl a l = true).
  { intros a b Ag Hb l Hl. rewrite (evl_agree n a b l Ag); [auto|]. rewrite Forall_forall in Hp. auto. }
  split.
  - intros a b Ag Ha Hb. eapply Lc; [exact Ag|]. apply Ha. eapply LP; eauto.
  - intros top cs top' Ht E. unfold guarded in E. destruct (f top) as [[c t]|] eqn:Ef; [|discriminate]. cbn [obind] in E. apply Some_inj in E.
    assert (cs = implies pre c) by congruence. assert (t = top') by congruence. subst cs t. clear E.
    destruct (H top c top' Ht Ef) as (M & O & S & C). split; [exact M|]. split; [apply implies_ok; [eapply Forall_ok_mono; [|exact Hp]; lia|exact O]|]. split.
    + intros a Sa Ha. rewrite sat_implies_all in Sa by exact Nz. auto.
    + intros a Ha. destruct (forallb (evl a) pre) eqn:Ep.
      * rewrite forallb_forall in Ep. destruct (C a (Ha Ep)) as (b & Ab & Sb). exists b. split; [exact Ab|]. rewrite sat_implies_all by exact Nz. auto.
      * exists a. split; [apply agree_refl|]. rewrite sat_implies by exact Nz. rewrite Ep. reflexivity.
Qed.
(** Clauses without variables of their own. *)
Lemma gen_ok_exact n o P : (exists cs, o = Some cs /\ cnf_ok n cs /\ forall a, sat a cs = true <-> P a) -> gen_ok n (pure o) P.
Proof.
  intros (cs & -> & O & Sp). eapply gen_ok_ext; [|apply gen_ok_pure]; cbv beta iota.
  - exact Sp.
  - intros c Ec. apply Some_inj in Ec. subst c. exact O.
Qed.
Lemma oflat_exact {X} n (F : X -> option cnf) (P : X -> assignment -> Prop) l :
  (forall x, In x l -> exists cs, F x = Some cs /\ cnf_ok n cs /\ forall a, sat a cs = true <-> P x a) ->
  exists cs, oflat F l = Some cs /\ cnf_ok n cs /\ forall a, sat a cs = true <-> forall x, In x l -> P x a.
Proof.
  intros H. destruct (oflat_some F l) as [cs E]; [intros x Hx; destruct (H x Hx) as (c & Ec & _); eauto|]. exists cs. split; [exact E|]. split.
  - apply (cnf_ok_oflat _ _ _ _ E). intros x c Hx Ec. destruct (H x Hx) as (c' & Ec' & O & _). congruence.
  - intros a. rewrite (sat_oflat a _ _ _ E). split; intros G x Hx; destruct (H x Hx) as (c & Ec & _ & Sp).
    + destruct (G x Hx) as (c' & Ec' & Sc). apply Sp. congruence.
    + exists c. split; [exact Ec|]. apply Sp, G, Hx.
Qed.

Ltac lits_solve := repeat match goal with
  | |- cnf_ok _ (_ :: _) => apply cnf_ok_cons
  | |- cnf_ok _ [] => constructor
  | |- Forall _ (_ :: _) => apply Forall_cons
  | |- Forall _ [] => constructor
  | |- lit_ok _ (- _) => apply lit_ok_opp
  end; auto.

(** The bit [c] of the colour of a tile. *)
Definition bit_at (a : assignment) (ls : list lit) (c : nat) : bool := nth c (values a ls) false.

Lemma union_bits (x y u v : bool) :
  (~ (x = true /\ y = true) /\ (x = true -> u = true) /\ (x = true -> v = true) /\ (y = true -> u = true) /\ (y = true -> v = true) /\
   (u = true -> x = true \/ y = true) /\ (v = true -> x = true \/ y = true)) <->
  x && y = false /\ u = x || y /\ v = x || y.
Proof. destruct x, y, u, v; cbn; intuition congruence. Qed.
Lemma join_clause_sat a x y u v : x <> 0 -> y <> 0 -> u <> 0 -> v <> 0 ->
  (sat a [[- x; - y]; [- x; u]; [- x; v]; [- y; u]; [- y; v]; [x; y; - u]; [x; y; - v]] = true <->
   evl a x && evl a y = false /\ evl a u = evl a x || evl a y /\ evl a v = evl a x || evl a y).
Proof.
  intros. rewrite <- union_bits. rewrite !sat_cons, sat_nil. unfold satc. cbn [existsb]. rewrite !P_Cnf.evl_neg by assumption.
  destruct (evl a x), (evl a y), (evl a u), (evl a v); cbn; intuition congruence.
Qed.
Lemma join_bits_sat a pre : Forall nonzero pre -> forall k in0 in1 out0 out1,
  length in0 = k -> length in1 = k -> length out0 = k -> length out1 = k ->
  Forall nonzero in0 -> Forall nonzero in1 -> Forall nonzero out0 -> Forall nonzero out1 ->
  (sat a (join_bits pre in0 in1 out0 out1) = true <-> ((forall l, In l pre -> evl a l = true) -> forall c, (c < k)%nat ->
     bit_at a in0 c && bit_at a in1 c = false /\ bit_at a out0 c = bit_at a in0 c || bit_at a in1 c /\ bit_at a out1 c = bit_at a in0 c || bit_at a in1 c)).
Proof.
  intros Np. induction k as [|k IH]; intros [|x xs] [|y ys] [|u us] [|v vs] L1 L2 L3 L4 N1 N2 N3 N4; try discriminate.
  - split; [intros _ _ c Hc; lia|reflexivity].
  - apply Forall_cons_iff in N1, N2, N3, N4. destruct N1 as [X1 N1]. destruct N2 as [X2 N2]. destruct N3 as [X3 N3]. destruct N4 as [X4 N4]. unfold nonzero in X1, X2, X3, X4.
    unfold join_bits. cbn [combine flat_map]. rewrite sat_app_iff, sat_implies_all by exact Np. fold (join_bits pre xs ys us vs). rewrite (IH xs ys us vs) by (assumption || (cbn [length] in *; lia)).
    rewrite join_clause_sat by assumption. unfold bit_at, values. cbn [map]. split.
    + intros [H1 H2] Hp. specialize (H1 Hp). specialize (H2 Hp). intros [|c] Hc; cbn [nth]; [exact H1|apply H2; lia].
    + intros H. split; intros Hp; [exact (H Hp 0%nat ltac:(lia))|]. intros c Hc. apply (H Hp (S c)). lia.
Qed.
Lemma combine_length_same {X Y} : forall (l : list X) (k : list Y), length l = length k -> length (combine l k) = length l.
Proof. intros. rewrite combine_length. lia. Qed.
Lemma join_bits_ok n pre in0 in1 out0 out1 : Forall (lit_ok n) pre -> Forall (lit_ok n) in0 -> Forall (lit_ok n) in1 -> Forall (lit_ok n) out0 -> Forall (lit_ok n) out1 ->
  cnf_ok n (join_bits pre in0 in1 out0 out1).
Proof.
  intros Hp H0 H1 H2 H3. unfold join_bits. apply cnf_ok_flat_map. intros [[x y] [u v]] Hx. rewrite Forall_forall in *.
  pose proof (in_combine_l _ _ _ _ Hx) as A1. pose proof (in_combine_r _ _ _ _ Hx) as A2.
  pose proof (H0 _ (in_combine_l _ _ _ _ A1)). pose proof (H1 _ (in_combine_r _ _ _ _ A1)). pose proof (H2 _ (in_combine_l _ _ _ _ A2)). pose proof (H3 _ (in_combine_r _ _ _ _ A2)).
  apply implies_ok; [apply Forall_forall; exact Hp|]. lits_solve.
Qed.
Lemma different_sat a : forall xs ys, length xs = length ys -> Forall nonzero xs -> Forall nonzero ys ->
  (sat a (flat_map (fun ab => literals_different (fst ab) (snd ab)) (combine xs ys)) = true <-> forall c, (c < length xs)%nat -> bit_at a ys c = negb (bit_at a xs c)).
Proof.
  induction xs as [|x xs IH]; intros [|y ys] L N1 N2; try discriminate; [split; [intros _ c Hc; cbn in Hc; lia|reflexivity]|].
  apply Forall_cons_iff in N1, N2. destruct N1 as [X1 N1]. destruct N2 as [X2 N2]. unfold nonzero in X1, X2. cbn [combine flat_map fst snd]. rewrite sat_app_iff, IH by (assumption || (cbn [length] in L; lia)).
  unfold bit_at, values. cbn [map].
  assert (K : sat a (literals_different x y) = true <-> evl a y = negb (evl a x)).
  { unfold literals_different. rewrite !sat_cons, sat_nil. unfold satc. cbn [existsb]. rewrite !P_Cnf.evl_neg by assumption. destruct (evl a x), (evl a y); cbn; intuition congruence. }
  rewrite K. split.
  - intros [H1 H2] [|c] Hc; cbn [nth]; [exact H1|apply H2; cbn [length] in Hc; lia].
  - intros H. split; [apply (H 0%nat); cbn [length]; lia|intros c Hc; apply (H (S c)); cbn [length]; lia].
Qed.
Lemma different_ok n xs ys : Forall (lit_ok n) xs -> Forall (lit_ok n) ys -> cnf_ok n (flat_map (fun ab => literals_different (fst ab) (snd ab)) (combine xs ys)).
Proof.
  intros H1 H2. apply cnf_ok_flat_map. intros [x y] Hx. rewrite Forall_forall in *. pose proof (H1 _ (in_combine_l _ _ _ _ Hx)). pose proof (H2 _ (in_combine_r _ _ _ _ Hx)).
  unfold literals_different. cbn [fst snd]. lits_solve.
Qed.

(** ** The tiles *)
Section Rules.
  Variables (w h : Z) (ul : option Z).
  Hypothesis Hw : 0 < w.
  Hypothesis Hh : 0 < h.
  Hypothesis He : h mod 2 = 0.
  Hypothesis Hul : match ul with Some l => 0 <= l | None => True end.
  Definition pg : grid := pow2_grid w h ul.
  Notation g := pg.
  Notation k := (levels h).
  Notation A := (garea g).
  Notation N := (grid_size g).
  Notation V a p := (view_of a (tile_at g p)).

  Lemma pow2_wf : wf_grid g.
  Proof.
    unfold wf_grid, pg, pow2_grid. cbn [geo gtop gcolours glen width height]. repeat split; cbn [width height]; try lia; [|exact Hul].
    assert (0 < 2 ^ (h / 2)) by (apply Z.pow_pos_nonneg; [lia|apply Z.div_pos; lia]). lia.
  Qed.
  Let W : wf_grid g := pow2_wf.
  Lemma half_pos : 1 <= h / 2 /\ h = 2 * (h / 2).
  Proof. pose proof (Z.div_mod h 2 ltac:(lia)). lia. Qed.
  Lemma pow2_bits : Z.of_nat (colour_bits g) = h / 2.
  Proof.
    destruct half_pos as [H1 _]. unfold colour_bits, pg, pow2_grid. cbn [gcolours]. unfold bit_length.
    assert (2 ^ 1 <= 2 ^ (h / 2)) by (apply Z.pow_le_mono_r; lia). change (2 ^ 1) with 2 in *.
    destruct (Z.eqb_spec (2 ^ (h / 2) - 1) 0); [lia|]. rewrite Z.sub_1_r, Z.log2_pred_pow2 by lia. lia.
  Qed.
  Lemma pow2_size : tile_size g = 20 + 3 * Z.of_nat (colour_bits g) + 2 * Z.of_nat k.
  Proof.
    unfold tile_size, tile_template. unfold pg, pow2_grid. cbn [gcolours gextras app variable_count fold_right snd shape_size].
    fold (pow2_grid w h ul). fold pg. rewrite !Nat2Z.inj_add, ?Nat2Z.inj_mul. lia.
  Qed.
  Lemma level_ok p : inside A p -> Forall (lit_ok N) (level g k p) /\ Forall (lit_ok N) (level_primary g k p).
  Proof.
    intros Hp. pose proof (tile_base_nonneg g p W Hp). pose proof (tile_base_top g p W Hp). pose proof pow2_size. assert (gtop g = 0) by reflexivity.
    unfold level, level_primary, extras_base. split; apply fresh_ok; lia.
  Qed.
  Lemma level_length p : length (level g k p) = k /\ length (level_primary g k p) = k.
  Proof. split; apply fresh_length. Qed.
  Lemma hue_length p : length (colour (tile_at g p)) = colour_bits g.
  Proof. apply fresh_length. Qed.
  Lemma size_nonneg : 0 <= N.
  Proof. unfold grid_size. pose proof (tile_size_pos g). destruct W as ((W1 & W2) & W3 & _). assert (0 <= width (geo g) * height (geo g) * tile_size g) by (repeat apply Z.mul_nonneg_nonneg; lia). lia. Qed.

  (** Splitters are connected on both sides, have one level, and repeat it. *)
  Definition level_rule (a : assignment) (p : pos) : Prop :=
    (vs (V a p) = true -> (exists e, vi (V a p) e = true) /\ exists e, vo (V a p) e = true) /\
    (vh (V a p) = true \/ vs (V a p) = true -> count a (level g k p) = 1) /\
    (vs (V a p) = false -> count a (level g k p) = 0 /\ count a (level_primary g k p) = 0) /\
    (vs (V a p) = true -> values a (level g k p) = values a (level_primary g k p)).
  Lemma all_false_count a ls : Forall nonzero ls -> (sat a (set_all_false ls) = true <-> count a ls = 0).
  Proof.
    intros Nz. rewrite sat_all_false by exact Nz. pose proof (count_nonneg a ls). pose proof (count_pos_In a ls) as P. split.
    - intros Hf. destruct (Z.eq_dec (count a ls) 0) as [E|Ne]; [exact E|]. destruct (proj1 P ltac:(lia)) as (l & Hl & El). rewrite (Hf l Hl) in El. discriminate.
    - intros E l Hl. destruct (evl a l) eqn:El; [|reflexivity]. assert (0 < count a ls) by (apply P; eauto). lia.
  Qed.
  Lemma level_clauses_exact p : inside A p -> exists cs, level_clauses g k p = Some cs /\ cnf_ok N cs /\ forall a, sat a cs = true <-> level_rule a p.
  Proof.
    intros Hp. destruct (level_ok p Hp) as [O1 O2]. destruct (level_length p) as [L1 L2]. pose proof (tile_at_ok g p W Hp) as Op. pose proof (lits g W p Hp) as Ot.
    pose proof (Forall_ok_nonzero _ _ O1) as N1. pose proof (Forall_ok_nonzero _ _ O2) as N2.
    destruct (proj2 (set_numbers_equal_some (level g k p) (level_primary g k p) false)) as [same Es]; [right; congruence|].
    unfold level_clauses. rewrite Es. cbn [obind]. eexists. split; [reflexivity|]. split.
    - assert (Oin : Forall (lit_ok N) (inputs (tile_at g p)) /\ Forall (lit_ok N) (outputs (tile_at g p))).
      { split; apply Forall_map, Forall_forall; intros d _; apply Ot. }
      repeat apply cnf_ok_app; apply implies_ok; lits_solve; try apply Ot; try apply Oin; try (apply quadratic_one_ok; assumption); try (apply set_all_false_ok; assumption).
      eapply set_numbers_equal_ok; [exact O1|exact O2|exact Es].
    - intros a. pose proof (ok_s _ Op) as Ns. pose proof (ok_h _ Op) as Nh.
      assert (Nz1 : - is_splitter (tile_at g p) <> 0) by lia. assert (Nz2 : - is_splitter_head (tile_at g p) <> 0) by lia.
      rewrite !sat_app_iff, !sat_implies1, sat_implies2, !evl_neg_iff by (assumption || lia). rewrite !quadratic_one_sat, !all_false_count by assumption.
      rewrite (set_numbers_equal_spec _ _ false same N1 N2 Es), <- values_eq_value by congruence.
      rewrite !sat_cons_iff, sat_nil. unfold inputs, outputs. rewrite !satc_dirs.
      unfold level_rule. cbn [view_of vs vh vi vo].
      destruct (evl a (is_splitter (tile_at g p))), (evl a (is_splitter_head (tile_at g p))); intuition congruence.
  Qed.

  Notation hue p := (colour (tile_at g p)).
  Definition join_rule (a : assignment) (p : pos) (d : dir) : Prop :=
    vh (V a p) = true -> vi (V a p) d = true ->
    match block_of g p d with
    | None => False
    | Some (p10, p01, p11) =>
        (forall c, (c < colour_bits g)%nat ->
           bit_at a (hue p) c && bit_at a (hue p01) c = false /\
           bit_at a (hue p10) c = bit_at a (hue p) c || bit_at a (hue p01) c /\ bit_at a (hue p11) c = bit_at a (hue p) c || bit_at a (hue p01) c) /\
        values a (level g k p) = values a (level g k p01)
    end.
  Lemma block_inside p d p10 p01 p11 : block_of g p d = Some (p10, p01, p11) -> inside A p10 /\ inside A p01 /\ inside A p11.
  Proof.
    unfold block_of. rewrite !offset_place by apply W. fold (garea g).
    destruct (place A (fst p + dx d, snd p + dy d)) as [q|] eqn:E1; [|discriminate]. destruct (place A (fst p + dx (next d), snd p + dy (next d))) as [r|] eqn:E2; [|discriminate].
    destruct (place A (fst p + (dx d + dx (next d)), snd p + (dy d + dy (next d)))) as [s|] eqn:E3; [|discriminate]. intros E.
    assert (q = p10) by congruence. assert (r = p01) by congruence. assert (s = p11) by congruence. subst. repeat split; first [apply (place_inside _ _ _ E1)|apply (place_inside _ _ _ E2)|apply (place_inside _ _ _ E3)].
  Qed.
  Lemma join_at_exact p d : inside A p -> exists cs, join_at g k p d = Some cs /\ cnf_ok N cs /\ forall a, sat a cs = true <-> join_rule a p d.
  Proof.
    intros Hp. pose proof (tile_at_ok g p W Hp) as Op. pose proof (lits g W p Hp) as Ot. pose proof (ok_h _ Op) as Nh. pose proof (ok_i _ Op d) as Ni.
    unfold join_at, join_rule. destruct (block_of g p d) as [[[p10 p01] p11]|] eqn:Eb.
    - destruct (block_inside p d p10 p01 p11 Eb) as (I1 & I2 & I3). destruct (level_ok p Hp) as [O1 _]. destruct (level_ok p01 I2) as [O2 _]. destruct (level_length p) as [L1 _]. destruct (level_length p01) as [L2 _].
      destruct (proj2 (set_numbers_equal_some (level g k p) (level g k p01) false)) as [same Es]; [right; congruence|]. rewrite Es. cbn [obind]. eexists. split; [reflexivity|]. split.
      + apply cnf_ok_app; [apply join_bits_ok|apply implies_ok]; lits_solve; try apply Ot; try (apply (lits g W); assumption). eapply set_numbers_equal_ok; [exact O1|exact O2|exact Es].
      + assert (Nz : Forall nonzero [is_splitter_head (tile_at g p); input_dir (tile_at g p) d]) by (repeat constructor; assumption).
        intros a. rewrite sat_app_iff, (join_bits_sat a [is_splitter_head (tile_at g p); input_dir (tile_at g p) d] Nz (colour_bits g)), sat_implies2 by
          (assumption || apply hue_length || (eapply Forall_ok_nonzero; apply (lits g W); assumption)).
        rewrite (set_numbers_equal_spec _ _ false same (Forall_ok_nonzero _ _ O1) (Forall_ok_nonzero _ _ O2) Es), <- values_eq_value by congruence.
        cbn [view_of vh vi]. split.
        * intros [H1 H2] X1 X2. split; [apply H1; intros l [<-|[<-|[]]]; assumption|auto].
        * intros H. split; [intros X; apply H; apply X; cbn; auto|intros X1 X2; apply H; assumption].
    - eexists. split; [reflexivity|]. split; [constructor; [|constructor]; unfold invert_components; cbn [map]; repeat (apply Forall_cons; [apply lit_ok_opp, Ot|]); constructor|].
      intros a. rewrite sat_one. unfold invert_components. cbn [map]. rewrite satc_cons_iff, satc_one, !evl_neg_iff by assumption. cbn [view_of vh vi].
      destruct (evl a (is_splitter_head (tile_at g p))), (evl a (input_dir (tile_at g p) d)); intuition congruence.
  Qed.
  (** A splitter of level [i] receives sets of size [2 ^ i]. *)
  Definition size_rule (a : assignment) (p : pos) : Prop :=
    forall i, (i < k)%nat -> bit_at a (level g k p) i = true -> count a (hue p) = 2 ^ Z.of_nat i.

  Variable E : card_encoder.
  Hypothesis HE : honest E.
  Lemma splitter_gen_ok p : inside A p -> gen_ok N (splitter_gen E g k p) (fun a => size_rule a p /\ forall d, join_rule a p d).
  Proof.
    intros Hp. destruct (level_ok p Hp) as [O1 _]. pose proof (lits g W p Hp) as Ot. pose proof size_nonneg as N0.
    unfold splitter_gen. eapply gen_ok_ext; [|apply gen_ok_app; [apply gen_ok_map with (P := fun (il : nat * lit) a => (forall l, In l [snd il] -> evl a l = true) -> count a (hue p) = 2 ^ Z.of_nat (fst il))|
      apply gen_ok_cons; [|apply gen_ok_nil]; apply gen_ok_exact, oflat_exact; intros d _; apply join_at_exact; exact Hp]].
    - intros a. cbv beta. unfold size_rule. split.
      + intros [H1 [H2 _]]. split; [|intros d; apply H2, directions_all]. intros i Hi Hb.
        destruct (nth_error (level g k p) i) as [l|] eqn:El; [|apply nth_error_None in El; destruct (level_length p); lia].
        apply (H1 (i, l)); [apply indexed_in; exact El|]. intros l' [<-|[]]. cbn [snd]. unfold bit_at, values in Hb. rewrite <- Hb. symmetry.
        apply nth_error_nth. rewrite nth_error_map, El. reflexivity.
      + intros [H1 H2]. split; [|split; [auto|exact Logic.I]]. intros [i l] Hi Hl. cbn [fst snd] in *. apply indexed_in in Hi.
        assert (Hlt : (i < length (level g k p))%nat) by (apply nth_error_Some; congruence). destruct (level_length p) as [Ll _]. rewrite Ll in Hlt. apply (H1 i Hlt).
        unfold bit_at, values. rewrite (nth_error_nth (map (evl a) (level g k p)) i false (x := evl a l)); [apply Hl; left; reflexivity|]. rewrite nth_error_map, Hi. reflexivity.
    - intros [i l] Hi. apply indexed_in in Hi. cbn [fst snd]. apply gen_ok_guarded.
      + lits_solve. rewrite Forall_forall in O1. apply O1. eapply nth_error_In; exact Hi.
      + apply gen_ok_equals; [exact HE|exact N0|apply Ot].
  Qed.

  (** The first and the last column. *)
  Definition straight_rule (a : assignment) (p : pos) : Prop := vb (V a p) = true /\ vi (V a p) RIGHT = true /\ vo (V a p) RIGHT = true.
  Lemma straight_exact x y : inside A (x, y) -> exists cs, set_tile g x y (Belt RIGHT RIGHT) = Some cs /\ cnf_ok N cs /\ forall a, sat a cs = true <-> straight_rule a (x, y).
  Proof.
    intros Hp. pose proof (lits g W _ Hp) as Ot. unfold set_tile. pose proof Hp as [Hx Hy]. cbn [garea area_of aw ah fst snd] in Hx, Hy.
    replace (((0 <=? x) && (0 <=? y)) && ((x <? width (geo g)) && (y <? height (geo g)))) with true by (symmetry; rewrite !andb_true_iff, !Z.leb_le, !Z.ltb_lt; lia).
    cbn [set_tile_clauses input_direction output_direction app]. eexists. split; [reflexivity|]. split; [lits_solve; apply Ot|].
    intros a. rewrite !sat_cons_iff, sat_nil, !satc_one. unfold straight_rule. cbn [view_of vb vi vo]. tauto.
  Qed.
  Definition first_rule (a : assignment) (y : Z) : Prop := straight_rule a (0, y) /\ value a (hue (0, y)) = 2 ^ (y / 2).
  Lemma first_exact y : 0 <= y < h -> exists cs, first_column g y = Some cs /\ cnf_ok N cs /\ forall a, sat a cs = true <-> first_rule a y.
  Proof.
    intros Hy. assert (Hp : inside A (0, y)) by (split; cbn [garea area_of aw ah fst snd]; cbn; lia). unfold first_column.
    destruct (straight_exact 0 y Hp) as (c1 & E1 & O1 & S1). rewrite E1. cbn [obind]. destruct half_pos as [H1 H2]. pose proof pow2_bits as B.
    assert (P : 0 <= 2 ^ (y / 2) < 2 ^ (h / 2)).
    { assert (0 <= y / 2 < h / 2) by (split; [apply Z.div_pos; lia|apply Z.div_lt_upper_bound; lia]). split; [apply Z.pow_nonneg; lia|apply Z.pow_lt_mono_r; lia]. }
    assert (Es : set_colour g 0 y (2 ^ (y / 2)) = set_number (2 ^ (y / 2)) (hue (0, y))).
    { unfold set_colour. assert (Gc : gcolours g = Some (2 ^ (h / 2))) by reflexivity. rewrite Gc. unfold in_grid.
      destruct Hp as [Hx _]. cbn [garea area_of aw ah fst snd] in Hx. assert (Gh : height (geo g) = h) by reflexivity. rewrite Gh.
      match goal with |- (if ?c then _ else _) = _ => replace c with true by (symmetry; rewrite !andb_true_iff, !Z.leb_le, !Z.ltb_lt; lia) end. reflexivity. }
    rewrite Es. pose proof (lits g W _ Hp) as Ot. destruct (proj2 (set_number_some (2 ^ (y / 2)) (hue (0, y)))) as [c2 E2]; [unfold len; rewrite hue_length, B; lia|].
    rewrite E2. cbn [obind]. eexists. split; [reflexivity|]. split.
    - apply cnf_ok_app; [exact O1|]. eapply set_number_ok; [|exact E2]. apply Ot.
    - intros a. rewrite sat_app_iff, S1, (set_number_sat (2 ^ (y / 2)) _ c2 a (Forall_ok_nonzero _ _ (tl_c _ _ Ot)) ltac:(lia) E2). reflexivity.
  Qed.
  Lemma last_exact y : 0 <= y < h -> exists cs, last_column g y = Some cs /\ cnf_ok N cs /\ forall a, sat a cs = true <-> straight_rule a (w - 1, y).
  Proof. intros Hy. unfold last_column. apply straight_exact. split; cbn [garea area_of aw ah fst snd]; cbn; lia. Qed.
  Definition pair_rule (a : assignment) (y : Z) : Prop :=
    forall c, (c < colour_bits g)%nat -> bit_at a (hue (w - 1, 2 * y + 1)) c = negb (bit_at a (hue (w - 1, 2 * y)) c).
  Lemma pair_exact y : 0 <= y < h / 2 -> exists cs, differing_pair g y = Some cs /\ cnf_ok N cs /\ forall a, sat a cs = true <-> pair_rule a y.
  Proof.
    intros Hy. destruct half_pos as [H1 H2]. unfold differing_pair. assert (Gw : width (geo g) = w) by reflexivity. assert (Gh : height (geo g) = h) by reflexivity.
    unfold in_grid. rewrite Gw, Gh.
    match goal with |- context [if negb ?c then _ else _] => replace c with true by (symmetry; rewrite !andb_true_iff, !Z.leb_le, !Z.ltb_lt; lia) end. cbn [negb].
    assert (I1 : inside A (w - 1, 2 * y)) by (unfold inside; cbn [garea area_of aw ah fst snd]; rewrite Gw, Gh; lia).
    assert (I2 : inside A (w - 1, 2 * y + 1)) by (unfold inside; cbn [garea area_of aw ah fst snd]; rewrite Gw, Gh; lia).
    eexists. split; [reflexivity|]. split; [apply different_ok; apply (lits g W); assumption|]. intros a.
    rewrite different_sat; [rewrite hue_length; reflexivity|rewrite !hue_length; reflexivity| |]; eapply Forall_ok_nonzero; apply (lits g W); assumption.
  Qed.

  (** ** The whole of create_balancer *)
  Record pow2_rules (a : assignment) : Prop := {
    pr_init : solves_init g a;
    pr_edges : sat a (block_underground_through_edges g (EBool true)) = true;
    pr_under : sat a (prevent_bad_undergrounding g) = true;
    pr_colouring : solves_colouring g a;
    pr_level : forall p, inside A p -> level_rule a p;
    pr_join : forall p, inside A p -> size_rule a p /\ forall d, join_rule a p d;
    pr_first : forall y, 0 <= y < h -> first_rule a y;
    pr_last : forall y, 0 <= y < h -> straight_rule a (w - 1, y);
    pr_pair : forall y, 0 <= y < h / 2 -> pair_rule a y;
    pr_checker : forall i, (i < k)%nat -> count a (map (nth_primary g k i) (checkerboard g)) = h / 2 }.

  Lemma checkerboard_in p : In p (checkerboard g) <-> inside A p /\ (fst p + snd p) mod 2 = 1.
  Proof.
    unfold checkerboard. rewrite filter_In, Z.eqb_eq, in_flat_map. unfold inside. cbn [garea area_of aw ah].
    split.
    - intros [(y & Hy & Hx) M]. apply in_map_iff in Hx. destruct Hx as (x & <- & Hx). apply range_in in Hx, Hy. cbn [fst snd] in *. auto.
    - intros [[Hx Hy] M]. split; [|exact M]. exists (snd p). split; [apply range_in; exact Hy|]. apply in_map_iff. exists (fst p). split; [destruct p; reflexivity|apply range_in; exact Hx].
  Qed.
  Lemma cells_inside p : In p (cells w h) <-> inside A p.
  Proof.
    unfold cells, inside. rewrite in_flat_map. cbn [garea area_of aw ah].
    split.
    - intros (x & Hx & Hy). apply in_map_iff in Hy. destruct Hy as (y & <- & Hy). apply range_in in Hx, Hy. auto.
    - intros [Hx Hy]. exists (fst p). split; [apply range_in; exact Hx|]. apply in_map_iff. exists (snd p). split; [destruct p; reflexivity|apply range_in; exact Hy].
  Qed.
  Theorem create_pow2_spec g' cs top : create_pow2 E w h ul = Some (g', cs, top) ->
    g' = g /\ N <= top /\ cnf_ok top cs /\ encodes N cs pow2_rules.
  Proof.
    intros E0. unfold create_pow2 in E0. destruct (negb _); [discriminate|]. fold pg in E0.
    destruct (init_clauses g) as [init|] eqn:Ei; [|discriminate]. cbn [obind] in E0. assert (Hg : grid_top g = N) by reflexivity. rewrite Hg in E0.
    match type of E0 with obind (seq_gen ?l _) _ = _ => set (gens := l) in *; destruct (seq_gen gens N) as [[c1 t1]|] eqn:Eg; [|discriminate] end.
    cbn [obind] in E0. apply Some_inj in E0. assert (g' = g) by congruence. assert (cs = (init ++ c1)%list) by congruence. assert (t1 = top) by congruence. subst g' cs t1. clear E0.
    pose proof size_nonneg as N0. destruct half_pos as [H1 H2].
    assert (P2 : exists o, prevent_bad_colouring g = Some o) by (apply (seq_gen_pure gens _ _ _ Eg); do 2 right; left; reflexivity). destruct P2 as [o2 P2].
    assert (R2 : (h + 1) / 2 = h / 2) by (symmetry; apply Z.div_unique with (r := 1); lia).
    assert (G : gen_ok N (seq_gen gens) (fun a =>
      (sat a (block_underground_through_edges g (EBool true)) = true /\ sat a (prevent_bad_undergrounding g) = true /\ solves_colouring g a /\
       (forall p, In p (iterate_tiles (geo g)) -> level_rule a p) /\ True) /\
      (forall p, In p (cells w h) -> size_rule a p /\ forall d, join_rule a p d) /\
      ((forall y, In y (range h) -> first_rule a y) /\ (forall y, In y (range h) -> straight_rule a (w - 1, y)) /\ (forall y, In y (range ((h + 1) / 2)) -> pair_rule a y) /\ True) /\
      (forall i, In i (seq 0 k) -> count a (map (nth_primary g k i) (checkerboard g)) = h / 2))).
    { unfold gens. apply gen_ok_app; [|apply gen_ok_app; [|apply gen_ok_app]].
      - repeat apply gen_ok_cons; try apply gen_ok_nil.
        + apply gen_ok_exact. eexists. split; [reflexivity|]. split; [apply block_underground_ok; exact W|]. intros a. reflexivity.
        + apply gen_ok_exact. eexists. split; [reflexivity|]. split; [apply undergrounding_ok; exact W|]. intros a. reflexivity.
        + apply gen_ok_exact. exists o2. split; [exact P2|]. split; [eapply colouring_ok; [exact W|exact P2]|]. intros a. unfold solves_colouring. split; [eauto|]. intros (c & Ec & Sc). congruence.
        + apply gen_ok_exact, oflat_exact. intros p Hp. apply level_clauses_exact. apply iterate_tiles_in. exact Hp.
      - apply gen_ok_map. intros p Hp. apply splitter_gen_ok. apply cells_inside. exact Hp.
      - repeat apply gen_ok_cons; try apply gen_ok_nil; apply gen_ok_exact, oflat_exact; intros y Hy; apply range_in in Hy.
        + apply first_exact. exact Hy.
        + apply last_exact. exact Hy.
        + apply pair_exact. lia.
      - apply gen_ok_map with (P := fun i a => count a (map (nth_primary g k i) (checkerboard g)) = h / 2). intros i Hi. apply in_seq in Hi. apply gen_ok_equals; [exact HE|exact N0|].
        apply Forall_map, Forall_forall. intros p Hp. apply checkerboard_in in Hp. destruct Hp as [Hp _]. destruct (level_ok p Hp) as [_ O]. destruct (level_length p) as [_ Ll].
        rewrite Forall_forall in O. apply O. unfold nth_primary. apply nth_In. lia. }
    destruct (proj2 G N c1 top ltac:(lia) Eg) as (M & O & S & C). pose proof (init_ok g W init Ei) as Oi. split; [reflexivity|]. split; [exact M|]. split; [apply cnf_ok_app; [eapply cnf_ok_mono; [exact M|exact Oi]|exact O]|].
    assert (IT : forall p, In p (iterate_tiles (geo g)) <-> inside A p) by apply iterate_tiles_in. assert (IC : forall p, In p (cells w h) <-> inside A p) by apply cells_inside.
    rewrite R2 in *. split.
    - intros a. rewrite sat_app_iff. intros [Sa Sb]. destruct (S a Sb) as ((A1 & A2 & A3 & A4 & _) & B & (D1 & D2 & D3 & _) & F).
      constructor; try assumption.
      + exists init. auto.
      + intros p Hp. apply A4, IT, Hp.
      + intros p Hp. apply B, IC, Hp.
      + intros y Hy. apply D1, range_in, Hy.
      + intros y Hy. apply D2, range_in, Hy.
      + intros y Hy. apply D3, range_in, Hy.
      + intros i Hi. apply F, in_seq. lia.
    - intros a [P Q1 Q2 Q3 Q4 Q5 Q6 Q7 Q8 Q9]. destruct (C a) as (b & Ab & Sb).
      { split; [split; [exact Q1|]; split; [exact Q2|]; split; [exact Q3|]; split; [intros p Hp; apply Q4, IT, Hp|exact Logic.I]|].
        split; [intros p Hp; apply Q5, IC, Hp|]. split; [|intros i Hi; apply in_seq in Hi; apply Q9; lia].
        split; [intros y Hy; apply range_in in Hy; auto|]. split; [intros y Hy; apply range_in in Hy; auto|]. split; [intros y Hy; apply range_in in Hy; auto|exact Logic.I]. }
      exists b. split; [exact Ab|]. rewrite sat_app_iff. split; [|exact Sb]. destruct P as (i' & Ei' & Si). assert (i' = init) by congruence. subst i'.
      rewrite <- (sat_agree N a b init Ab Oi). exact Si.
  Qed.
End Rules.
