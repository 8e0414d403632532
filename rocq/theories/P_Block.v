(** What the clauses of make_block.py say. *)
From Coq Require Import String ZArith List Bool Lia.
From Verif Require Import Spec_Cnf Spec_Tile Spec_Layout Spec_Pattern Spec_Loop M_Json M_Tile M_Util M_Card M_Template M_Grid M_Balancer M_Optimise M_Block
  P_Cnf P_Util P_Util3 P_Card P_Tile P_Layout P_List P_Template P_Walk P_Grid P_GridSound P_GridComplete P_Transport P_Trace T_Grid P_Pattern.
Import ListNotations.
Open Scope Z_scope.

Lemma satc_nonzero a ls : Forall nonzero ls -> (satc a ls = true <-> value a ls <> 0).
Proof.
  intros N. pose proof (all_false_num (values a ls)) as X. unfold value. destruct (satc a ls) eqn:E.
  - split; [intros _ C|reflexivity]. apply X in C. unfold satc in E. apply existsb_exists in E. destruct E as (l & Hl & El).
    rewrite forallb_forall in C. specialize (C (evl a l)). rewrite El in C. discriminate C. unfold values. rewrite <- El. apply in_map. exact Hl.
  - split; [discriminate|]. intros C. exfalso. apply C. apply X. apply forallb_forall. intros b Hb. unfold values in Hb. apply in_map_iff in Hb.
    destruct Hb as (l & <- & Hl). destruct (evl a l) eqn:El; [|reflexivity]. unfold satc in E. rewrite <- not_true_iff_false in E. exfalso. apply E.
    apply existsb_exists. eauto.
Qed.

(** A guard made of a literal and the negations of four others. *)
Lemma sat_guard a x (f : dir -> lit) (front : bool) cs : x <> 0 -> (forall d, f d <> 0) ->
  (sat a (implies (if front then x :: invert_components (map f directions) else invert_components (map f directions) ++ [x]) cs) = true <->
   (evl a x = true -> (forall d, evl a (f d) = false) -> sat a cs = true)).
Proof.
  intros Hx Hf.
  assert (NI : Forall nonzero (invert_components (map f directions))).
  { unfold invert_components. rewrite map_map. apply Forall_map. apply Forall_forall. intros d _. unfold nonzero. specialize (Hf d). lia. }
  assert (FI : forallb (evl a) (invert_components (map f directions)) = true <-> forall d, evl a (f d) = false).
  { unfold invert_components. rewrite map_map. rewrite forallb_forall. split.
    - intros H d. specialize (H (- f d)). rewrite P_Cnf.evl_neg in H by apply Hf. destruct (evl a (f d)); [|reflexivity].
      discriminate H. apply in_map_iff. exists d. split; [reflexivity|apply directions_all].
    - intros H l Hl. apply in_map_iff in Hl. destruct Hl as (d & <- & _). rewrite P_Cnf.evl_neg by apply Hf. rewrite H. reflexivity. }
  assert (E : forallb (evl a) (if front then x :: invert_components (map f directions) else invert_components (map f directions) ++ [x])%list = true <->
    evl a x = true /\ forall d, evl a (f d) = false).
  { rewrite <- FI. destruct front; [cbn [forallb]; apply andb_true_iff|]. rewrite forallb_app. cbn [forallb]. rewrite !andb_true_iff. tauto. }
  rewrite sat_implies.
  2:{ destruct front; [constructor; [exact Hx|exact NI]|]. apply Forall_app. split; [exact NI|]. constructor; [exact Hx|constructor]. }
  clear FI. rewrite orb_true_iff, negb_true_iff. destruct (forallb (evl a) _).
  - destruct (proj1 E eq_refl) as [E1 E2]. split; [intros [C|C]; [discriminate|auto]|]. intros H. right. auto.
  - split; [|auto]. intros _ H1 H2. assert (false = true) by (apply E; auto). discriminate.
Qed.

Section Loop.
  Variable g : grid.
  Hypothesis W : wf_grid g.
  Variable a : assignment.
  Notation A := (garea g).
  Notation V p := (view_of a (tile_at g p)).
  Variable n : Z.
  Hypothesis Gc : gcolours g = Some n.
  Definition hue (p : pos) : Z := value a (colour (tile_at g p)).
  Definition deep (d : dir) (p : pos) : Z := value a (tunnel_colour g d p).
  Notation span := (2 ^ Z.of_nat (colour_bits g)).

  Definition loop_rule (p : pos) (d : dir) : Prop := forall q, neighbour A p d = Some q ->
    (vo (V p) d = true -> (go p d = (0, 0) -> hue p = n - 1) /\ (go p d <> (0, 0) -> hue q = (hue p + 1) mod span)) /\
    (vi (V p) d = true -> (forall e, vo (V p) e = false) -> deep d q = (hue p + 1) mod span) /\
    (vo (V q) d = true -> (forall e, vi (V q) e = false) -> deep d p = hue q) /\
    (vu (V p) d = true -> vu (V q) d = true -> deep d p = deep d q).
  Definition start_rule (p : pos) : Prop := hue p = 0 <-> p = (0, 0).

  Lemma colour_ok p : inside A p -> length (colour (tile_at g p)) = colour_bits g /\ Forall nonzero (colour (tile_at g p)).
  Proof. intros Hp. split; [apply fresh_length|apply (tile_at_ok g p W Hp)]. Qed.
  Lemma tunnel_ok p d : inside A p -> length (tunnel_colour g d p) = colour_bits g /\ Forall nonzero (tunnel_colour g d p).
  Proof. intros Hp. unfold tunnel_colour. destruct (is_horizontal d); (split; [apply fresh_length|apply (tile_at_ok g p W Hp)]). Qed.

  Lemma start_sat p : inside A p -> (sat a (loop_start g p) = true <-> start_rule p).
  Proof.
    intros Hp. destruct (colour_ok p Hp) as [_ N]. unfold loop_start, start_rule. destruct p as [x y]. cbn [fst snd].
    destruct (Z.eqb_spec x 0) as [->|Nx]; [destruct (Z.eqb_spec y 0) as [->|Ny]|]; cbn [andb].
    - rewrite (set_all_false_value a _ N). unfold hue. tauto.
    - rewrite sat_one, (satc_nonzero a _ N). unfold hue. split; [intros H; split; [contradiction|intros [=]; contradiction]|intros H C; apply H in C; congruence].
    - rewrite sat_one, (satc_nonzero a _ N). unfold hue. split; [intros H; split; [contradiction|intros [=]; contradiction]|intros H C; apply H in C; congruence].
  Qed.

  Lemma step_sat p d : inside A p -> (0 < colour_bits g)%nat ->
    exists cs, loop_step g n p d = Some cs /\ (sat a cs = true <-> loop_rule p d).
  Proof.
    intros Hp Hb. unfold loop_step, loop_rule. rewrite (offset_neighbour g W).
    destruct (neighbour A p d) as [q|] eqn:En; [|exists []; split; [reflexivity|split; [intros _ q [=]|reflexivity]]].
    assert (Hq : inside A q) by (eapply ahead_inside; exact En).
    pose proof (tile_at_ok g p W Hp) as Op. pose proof (tile_at_ok g q W Hq) as Oq.
    pose proof (colour_ok p Hp) as [Lp Np]. pose proof (colour_ok q Hq) as [Lq Nq].
    pose proof (tunnel_ok p d Hp) as [Lup Nup]. pose proof (tunnel_ok q d Hq) as [Luq Nuq].
    assert (Ne : colour (tile_at g p) <> []) by (intros C; rewrite C in Lp; cbn in Lp; lia).
    assert (Sp : 2 ^ len (colour (tile_at g p)) = span) by (unfold len; rewrite Lp; reflexivity).
    assert (INC : forall ys, length ys = colour_bits g -> Forall nonzero ys -> exists cs, increment_number (colour (tile_at g p)) ys = Some cs /\ (sat a cs = true <-> value a ys = (hue p + 1) mod span)).
    { intros ys Ly Ny. destruct (proj2 (increment_number_some (colour (tile_at g p)) ys)) as [cs E]; [split; [congruence|exact Ne]|].
      exists cs. split; [exact E|]. rewrite (increment_number_spec _ _ _ Np Ny E a), Sp. reflexivity. }
    assert (EQ : forall xs ys, length xs = length ys -> Forall nonzero xs -> Forall nonzero ys -> exists cs, set_numbers_equal xs ys false = Some cs /\ (sat a cs = true <-> value a xs = value a ys)).
    { intros xs ys Lx Nx Ny. destruct (proj2 (set_numbers_equal_some xs ys false)) as [cs E]; [right; congruence|]. exists cs. split; [exact E|]. apply (set_numbers_equal_spec xs ys false); assumption. }
    assert (C1 : exists cs, (if (fst p + dx d =? 0) && (snd p + dy d =? 0) then set_number (n - 1) (colour (tile_at g p)) else increment_number (colour (tile_at g p)) (colour (tile_at g q))) = Some cs /\
      (sat a cs = true <-> (go p d = (0, 0) -> hue p = n - 1) /\ (go p d <> (0, 0) -> hue q = (hue p + 1) mod span))).
    { assert (Z0 : (fst p + dx d =? 0) && (snd p + dy d =? 0) = true <-> go p d = (0, 0)).
      { unfold go. rewrite andb_true_iff, !Z.eqb_eq, dx_step, dy_step. split; [intros [-> ->]; reflexivity|]. intros E. split; [exact (f_equal fst E)|exact (f_equal snd E)]. }
      destruct ((fst p + dx d =? 0) && (snd p + dy d =? 0)) eqn:EZ.
      - pose proof W as (_ & _ & Wc & _). rewrite Gc in Wc. pose proof (colour_fits n Wc) as Fn.
        assert (Eb : Z.to_nat (bit_length (n - 1)) = colour_bits g) by (unfold colour_bits; rewrite Gc; reflexivity). rewrite Eb in Fn.
        destruct (proj2 (set_number_some (n - 1) (colour (tile_at g p)))) as [cs E]; [rewrite Sp; lia|].
        exists cs. split; [exact E|]. rewrite (set_number_spec _ _ _ Np E a), Sp, Z.mod_small by lia. fold (hue p).
        assert (G0 : go p d = (0, 0)) by (apply Z0; reflexivity). tauto.
      - destruct (INC _ Lq Nq) as (cs & E & Sc). exists cs. split; [exact E|]. rewrite Sc. fold (hue q).
        assert (G0 : go p d <> (0, 0)) by (intros C; apply Z0 in C; discriminate). tauto. }
    destruct C1 as (c1 & E1 & S1). destruct (INC _ Luq Nuq) as (c2 & E2 & S2).
    destruct (EQ (tunnel_colour g d p) (colour (tile_at g q))) as (c3 & E3 & S3); [congruence|exact Nup|exact Nq|].
    destruct (EQ (tunnel_colour g d p) (tunnel_colour g d q)) as (c4 & E4 & S4); [congruence|exact Nup|exact Nuq|].
    rewrite E1. cbn [obind]. rewrite E2. cbn [obind]. rewrite E3. cbn [obind]. rewrite E4. cbn [obind].
    eexists. split; [reflexivity|]. rewrite !sat_app_iff. rewrite sat_implies1 by apply Op. rewrite sat_implies2 by (apply Op || apply Oq).
    pose proof (sat_guard a (input_dir (tile_at g p) d) (output_dir (tile_at g p)) true c2 (ok_i _ Op d) (ok_o _ Op)) as G2. cbv iota in G2.
    pose proof (sat_guard a (output_dir (tile_at g q) d) (input_dir (tile_at g q)) false c3 (ok_o _ Oq d) (ok_i _ Oq)) as G3. cbv iota in G3.
    unfold outputs, inputs. rewrite G2, G3, S1, S2, S3, S4. cbn [view_of vb ve vs vui vuo vh vi vo vu vinp voutp]. unfold deep, hue. split.
    - intros (H1 & H2 & H3 & H4) r E. apply Some_inj in E. subst r. auto.
    - intros H. apply (H q eq_refl).
  Qed.

  Lemma row_major_in p : In p (row_major g) <-> inside A p.
  Proof.
    unfold row_major. rewrite in_flat_map. split.
    - intros (y & Hy & Hp). apply range_in in Hy. apply in_map_iff in Hp. destruct Hp as (x & <- & Hx). apply range_in in Hx. split; [exact Hx|exact Hy].
    - destruct p as [x y]. intros [Hx Hy]. cbn [garea area_of aw ah fst snd] in *. exists y. split; [apply range_in; exact Hy|]. apply (in_map (fun x0 => (x0, y))). apply range_in. exact Hx.
  Qed.
  Lemma loop_sat : (0 < colour_bits g)%nat -> exists cs, ensure_loop_length g = Some cs /\
    (sat a cs = true <-> forall p, inside A p -> start_rule p /\ forall d, loop_rule p d).
  Proof.
    intros Hb. unfold ensure_loop_length. rewrite Gc.
    assert (E : forall p, inside A p -> exists cs, oflat (loop_step g n p) directions = Some cs /\ (sat a cs = true <-> forall d, loop_rule p d)).
    { intros p Hp. destruct (oflat_some (loop_step g n p) directions) as [cs E]; [intros d _; destruct (step_sat p d Hp Hb) as (c & -> & _); eauto|].
      exists cs. split; [exact E|]. rewrite (sat_oflat a _ _ _ E). split.
      - intros H d. destruct (H d (directions_all d)) as (c & Ec & Sc). destruct (step_sat p d Hp Hb) as (c' & Ec' & Sc'). apply Sc'. congruence.
      - intros H d _. destruct (step_sat p d Hp Hb) as (c' & Ec' & Sc'). exists c'. split; [exact Ec'|]. apply Sc'. apply H. }
    match goal with |- exists cs, oflat ?f _ = _ /\ _ => destruct (oflat_some f (row_major g)) as [cs Ecs] end.
    { intros p Hp. apply row_major_in in Hp. destruct (E p Hp) as (c & -> & _). cbn [obind]. eauto. }
    exists cs. split; [exact Ecs|]. rewrite (sat_oflat a _ _ _ Ecs). split.
    - intros H p Hp. destruct (H p (proj2 (row_major_in p) Hp)) as (c & Ec & Sc). destruct (E p Hp) as (c' & Ec' & Sc'). rewrite Ec' in Ec. cbn [obind] in Ec. apply Some_inj in Ec. subst c.
      apply sat_app_iff in Sc. destruct Sc as [Sc1 Sc2]. split; [apply start_sat; assumption|apply Sc'; exact Sc2].
    - intros H p Hp. apply row_major_in in Hp. destruct (E p Hp) as (c' & Ec' & Sc'). rewrite Ec'. cbn [obind]. eexists. split; [reflexivity|]. destruct (H p Hp) as [H1 H2].
      apply sat_app_iff. split; [apply start_sat; assumption|apply Sc'; exact H2].
  Qed.
End Loop.

(** * A numbering that counts up along the steps makes a single loop *)
Lemma range_nodup n : NoDup (range n).
Proof. unfold range. apply FinFun.Injective_map_NoDup; [intros x y; apply Nat2Z.inj|apply seq_NoDup]. Qed.
Lemma range_len n : length (range n) = Z.to_nat n.
Proof. unfold range. rewrite map_length, seq_length. reflexivity. Qed.

Section Count.
  Variable A : area.
  Hypothesis HA : wf_area A.
  Notation n := (aw A * ah A).
  Definition spots : list pos := flat_map (fun y => map (fun x => (x, y)) (range (aw A))) (range (ah A)).
  Lemma spots_in p : In p spots <-> inside A p.
  Proof.
    unfold spots. rewrite in_flat_map. split.
    - intros (y & Hy & Hp). apply range_in in Hy. apply in_map_iff in Hp. destruct Hp as (x & <- & Hx). apply range_in in Hx. split; [exact Hx|exact Hy].
    - destruct p as [x y]. intros [Hx Hy]. cbn [fst snd] in *. exists y. split; [apply range_in; exact Hy|]. apply (in_map (fun x0 => (x0, y))). apply range_in. exact Hx.
  Qed.
  Lemma spots_len : length spots = Z.to_nat n.
  Proof.
    unfold spots. destruct HA as (Hw & Hh). assert (E : forall l : list Z, length (flat_map (fun y => map (fun x => (x, y)) (range (aw A))) l) = (length l * Z.to_nat (aw A))%nat).
    { induction l as [|y l IH]; [reflexivity|]. cbn [flat_map]. rewrite app_length, map_length, range_len, IH. cbn [length]. lia. }
    rewrite E, range_len. rewrite Z2Nat.inj_mul by lia. lia.
  Qed.

  Variable R : pos -> pos -> Prop.
  Variable c : pos -> Z.
  Definition corner : pos := (0, 0).
  Hypothesis Cr : forall p, inside A p -> 0 <= c p < n.
  Hypothesis C0 : c corner = 0.
  Hypothesis Sc : forall p, inside A p -> exists q, inside A q /\ R p q.
  Hypothesis St : forall p q, inside A p -> inside A q -> R p q -> (q = corner -> c p = n - 1) /\ (q <> corner -> c q = c p + 1).

  Lemma n_pos : 0 < n.
  Proof. destruct HA as (Hw & Hh). apply Z.mul_pos_pos; assumption. Qed.
  Lemma o_inside : inside A corner.
  Proof. destruct HA as (Hw & Hh). split; cbn; lia. Qed.
  Lemma all_numbers i : 0 <= i < n -> exists p, inside A p /\ c p = i.
  Proof.
    intros [H0 H1]. revert H1. pattern i. apply natlike_ind; [|clear i H0|exact H0].
    - intros _. exists corner. split; [apply o_inside|exact C0].
    - intros i Hi IH H. destruct (IH ltac:(lia)) as (p & Hp & Ep). destruct (Sc p Hp) as (q & Hq & Rq). exists q. split; [exact Hq|].
      destruct (St p q Hp Hq Rq) as [S1 S2].
      destruct (Z.eq_dec (fst q) 0) as [E1|N1]; [destruct (Z.eq_dec (snd q) 0) as [E2|N2]|].
      + assert (Eo : q = corner) by (destruct q; cbn [fst snd] in *; subst; reflexivity). specialize (S1 Eo). lia.
      + rewrite S2; [lia|]. intros ->. apply N2. reflexivity.
      + rewrite S2; [lia|]. intros ->. apply N1. reflexivity.
  Qed.
  Lemma one_each p q : inside A p -> inside A q -> c p = c q -> p = q.
  Proof.
    assert (ND : NoDup (map c spots)).
    { apply (@NoDup_incl_NoDup _ (range n)); [apply range_nodup|rewrite map_length, spots_len, range_len; lia|].
      intros i Hi. apply range_in in Hi. destruct (all_numbers i Hi) as (p0 & Hp0 & <-). apply in_map. apply spots_in. exact Hp0. }
    rewrite <- !spots_in. revert ND. generalize spots. induction l as [|x l IH]; cbn [map]; intros ND Hp Hq E; [destruct Hp|].
    inversion ND as [|? ? Nx ND']; subst. destruct Hp as [<-|Hp], Hq as [<-|Hq].
    - reflexivity.
    - exfalso. apply Nx. rewrite E. apply in_map. exact Hq.
    - exfalso. apply Nx. rewrite <- E. apply in_map. exact Hp.
    - auto.
  Qed.
  Definition numbered (i : Z) : pos := match find (fun p => c p =? i) spots with Some p => p | None => corner end.
  Lemma numbered_spec p i : inside A p -> c p = i -> numbered i = p.
  Proof.
    intros Hp E. unfold numbered. destruct (find (fun r => c r =? i) spots) as [q|] eqn:F.
    - apply find_some in F. destruct F as [Fq Fe]. apply Z.eqb_eq in Fe. apply spots_in in Fq. apply one_each; [exact Fq|exact Hp|congruence].
    - exfalso. apply (find_none _ _ F p) in E; [exact E|apply spots_in; exact Hp] || (pose proof (find_none _ _ F p (proj2 (spots_in p) Hp)) as X; cbv beta in X; rewrite E, Z.eqb_refl in X; discriminate).
  Qed.
  Lemma count_loop : exists cell : Z -> pos,
    (forall i, 0 <= i < n -> inside A (cell i)) /\
    (forall p, inside A p -> exists i, 0 <= i < n /\ cell i = p) /\
    (forall i j, 0 <= i < n -> 0 <= j < n -> cell i = cell j -> i = j) /\
    (forall i, 0 <= i < n -> R (cell i) (cell ((i + 1) mod n))).
  Proof.
    exists numbered.
    assert (X : forall i, 0 <= i < n -> inside A (numbered i) /\ c (numbered i) = i).
    { intros i Hi. destruct (all_numbers i Hi) as (p & Hp & E). rewrite (numbered_spec p i Hp E). auto. }
    split; [intros i Hi; apply X; exact Hi|]. split; [intros p Hp; exists (c p); split; [apply Cr; exact Hp|apply numbered_spec; auto]|]. split.
    - intros i j Hi Hj E. rewrite <- (proj2 (X i Hi)), <- (proj2 (X j Hj)), E. reflexivity.
    - intros i Hi. destruct (X i Hi) as [Hp Ep]. destruct (Sc _ Hp) as (q & Hq & Rq). destruct (St _ _ Hp Hq Rq) as [S1 S2].
      enough (c q = (i + 1) mod n) by (rewrite (numbered_spec q _ Hq H); exact Rq).
      assert (D : {q = corner} + {q <> corner}) by (destruct (pos_dec q corner); auto).
      destruct D as [Eq|Nq].
      + specialize (S1 Eq). rewrite Eq, C0. replace (i + 1) with n by lia. symmetry. apply Z_mod_same_full.
      + rewrite (S2 Nq), Ep. symmetry. apply Z.mod_small. specialize (Cr q Hq). rewrite (S2 Nq), Ep in Cr. lia.
  Qed.
End Count.

(** * The colours of a solution count up along the steps *)
Section Counting.
  Variable g : grid.
  Hypothesis W : wf_grid g.
  Variable a : assignment.
  Variable T : layout.
  Notation A := (garea g).
  Notation V p := (view_of a (tile_at g p)).
  Hypothesis HT : forall p, inside A p -> decoded g a p = Some (T p).
  Hypothesis G : grid_rules g a.
  Hypothesis UR : forall p d, inside A p -> under_rule g a p d.
  Variable n : Z.
  Hypothesis Gc : gcolours g = Some n.
  Hypothesis SR : forall p, inside A p -> start_rule g a p.
  Hypothesis LR : forall p d, inside A p -> loop_rule g a n p d.
  Let HA : wf_area A := WA g W.
  Notation span := (2 ^ Z.of_nat (colour_bits g)).

  Lemma hue_range p : inside A p -> 0 <= hue g a p < n.
  Proof.
    intros Hp. split; [apply num_nonneg|]. destruct G as [G1 _]. destruct (G1 p Hp) as (_ & C & _). unfold colour_rule in C. rewrite Gc in C. apply C.
  Qed.
  Lemma span_fits : n <= span.
  Proof.
    pose proof W as (_ & _ & Wc & _). rewrite Gc in Wc. pose proof (colour_fits n Wc) as Fn.
    replace (colour_bits g) with (Z.to_nat (bit_length (n - 1))) by (unfold colour_bits; rewrite Gc; reflexivity). lia.
  Qed.

  Lemma counted p q : inside A p -> inside A q -> hue g a q = (hue g a p + 1) mod span ->
    (q = corner -> hue g a p = n - 1) /\ (q <> corner -> hue g a q = hue g a p + 1).
  Proof.
    intros Hp Hq E. pose proof (hue_range p Hp) as Rp. pose proof span_fits as F. split.
    - intros ->. rewrite (proj2 (SR _ Hq) eq_refl) in E. destruct (Z.eq_dec (hue g a p + 1) span) as [X|X]; [lia|].
      rewrite Z.mod_small in E by lia. lia.
    - intros N. assert (H0 : hue g a q <> 0) by (intros C; apply N; apply (SR _ Hq); exact C).
      destruct (Z.eq_dec (hue g a p + 1) span) as [X|X]; [rewrite X, Z_mod_same_full in E; contradiction|].
      rewrite Z.mod_small in E by lia. exact E.
  Qed.

  Lemma sends_under_counts L p q : sends_under A T L p q -> hue g a q = (hue g a p + 1) mod span.
  Proof.
    intros (Hp & d & Tp & Tq & k & Hk & Ek & Hc).
    pose proof (T_shows g a T HT G p Hp) as Sp. rewrite Tp in Sp. destruct Sp as ((S1 & S2 & S3) & _ & _ & S4 & _).
    assert (Vi : vi (V p) d = true) by (apply S2; reflexivity).
    destruct (UR p d Hp) as ((R1 & _) & R2 & _).
    assert (U : forall j, 1 <= j < k -> exists r, ahead A p d j = Some r /\ vu (V r) d = true).
    { intros j [Hj1 Hj2]. revert Hj2. revert j Hj1. apply (z_up_ind (fun j => j < k -> exists r, ahead A p d j = Some r /\ vu (V r) d = true)).
      - intros _. destruct (Hc 1 ltac:(lia)) as (r & Er & _). exists r. split; [exact Er|]. apply (proj1 (R2 r Er)); assumption.
      - intros m Hm IH Hlt. destruct (IH ltac:(lia)) as (r & Er & Ur). destruct (Hc (m + 1) ltac:(lia)) as (r' & Er' & Nr').
        exists r'. split; [exact Er'|]. assert (Hr : inside A r) by (eapply ahead_inside; exact Er).
        assert (Hr' : inside A r') by (eapply ahead_inside; exact Er').
        assert (En : neighbour A r d = Some r') by (unfold neighbour; rewrite (ahead_add A p d m 1 r HA Er); exact Er').
        destruct (vu (V r') d) eqn:Ur'; [reflexivity|]. exfalso.
        destruct (UR r d Hr) as (_ & R4 & _). destruct (proj2 (R4 r' En) Ur Ur') as [O1 O2].
        pose proof (T_shows g a T HT G r' Hr') as Sr. pose proof (shows_pushes _ _ _ Sr O2) as Pr.
        destruct Sr as (_ & _ & _ & _ & _ & Sr & _). rewrite O1 in Sr. destruct (T r') as [| |i o|f []|f h|f y|x y]; try discriminate.
        cbn in Pr. subst f. apply Nr'. cbn. destruct d; reflexivity. }
    assert (Q : forall j r, 1 <= j < k -> ahead A p d j = Some r -> deep g a d r = (hue g a p + 1) mod span).
    { intros j r [Hj1 Hj2]. revert Hj2. revert r. revert j Hj1. apply (z_up_ind (fun j => forall r, j < k -> ahead A p d j = Some r -> deep g a d r = (hue g a p + 1) mod span)).
      - intros r _ Er. destruct (LR p d Hp r Er) as (_ & R & _ & _). apply R; auto.
      - intros m Hm IH r' Hle Er'. destruct (U m ltac:(lia)) as (r & Er & Ur). destruct (U (m + 1) ltac:(lia)) as (r2 & Er2 & Ur').
        assert (r2 = r') by congruence. subst r2. rewrite <- (IH r ltac:(lia) Er).
        assert (Hr : inside A r) by (eapply ahead_inside; exact Er).
        assert (En : neighbour A r d = Some r') by (unfold neighbour; rewrite (ahead_add A p d m 1 r HA Er); exact Er').
        destruct (LR r d Hr r' En) as (_ & _ & _ & R). symmetry. apply R; assumption. }
    destruct (U (k - 1) ltac:(lia)) as (r & Er & Ur). assert (Hr : inside A r) by (eapply ahead_inside; exact Er).
    assert (En : neighbour A r d = Some q) by (unfold neighbour; rewrite (ahead_add A p d (k - 1) 1 r HA Er); replace (k - 1 + 1) with k by lia; exact Ek).
    assert (Hq : inside A q) by (eapply ahead_inside; exact Ek).
    pose proof (T_shows g a T HT G q Hq) as Sq. rewrite Tq in Sq. destruct Sq as ((O1 & O2 & O3) & _ & _ & O4 & _).
    rewrite <- (Q (k - 1) r ltac:(lia) Er). destruct (LR r d Hr q En) as (_ & _ & R & _). symmetry. apply R; [apply O3; reflexivity|exact O2].
  Qed.

  Lemma go_place p d q : inside A p -> neighbour A p d = Some q -> go p d = (0, 0) -> q = (0, 0).
  Proof.
    intros Hp E H. unfold neighbour, ahead in E. unfold go in H.
    replace (fst p + 1 * step_x d, snd p + 1 * step_y d) with (0, 0) in E.
    2:{ rewrite <- H. apply pair_equal_spec. split; ring. }
    rewrite (place_self A (0, 0)) in E; [congruence|]. apply (o_inside A HA).
  Qed.

  Lemma follows_counts L p q : follows A T L p q ->
    (q = corner -> hue g a p = n - 1) /\ (q <> corner -> hue g a q = hue g a p + 1).
  Proof.
    intros [(Hp & Ns & d & Pd & En)|S].
    - assert (Hq : inside A q) by (eapply ahead_inside; exact En).
      pose proof (T_shows g a T HT G p Hp) as Sp. pose proof (shows_pushes_inv _ _ d Sp Pd Ns) as O.
      destruct (LR p d Hp q En) as (R & _). destruct (R O) as [R1 R2].
      destruct (pos_dec (go p d) (0, 0)) as [E|N].
      + pose proof (go_place p d q Hp En E) as Eq. split; [intros _; apply R1; exact E|intros C; contradiction].
      + apply counted; auto.
    - pose proof S as (Hp & d & _ & _ & k & _ & Ek & _). assert (Hq : inside A q) by (eapply ahead_inside; exact Ek).
      apply counted; auto. apply (sends_under_counts L). exact S.
  Qed.

  (** How the corner is entered when there are unused numbers. *)
  Lemma corner_entry L p : follows A T L p corner -> n < span -> exists d, pushes (T p) d /\ go p d = (0, 0).
  Proof.
    intros [(Hp & Ns & d & Pd & En)|S] Hn.
    - exists d. split; [exact Pd|]. destruct (pos_dec (go p d) (0, 0)) as [E|N]; [exact E|exfalso].
      pose proof (T_shows g a T HT G p Hp) as Sp. pose proof (shows_pushes_inv _ _ d Sp Pd Ns) as O.
      destruct (LR p d Hp _ En) as (R & _). destruct (R O) as [_ R2]. specialize (R2 N).
      rewrite (proj2 (SR _ (o_inside A HA)) eq_refl) in R2. pose proof (hue_range p Hp). rewrite Z.mod_small in R2 by lia. lia.
    - exfalso. pose proof S as (Hp & _). apply sends_under_counts in S. rewrite (proj2 (SR _ (o_inside A HA)) eq_refl) in S. pose proof (hue_range p Hp). rewrite Z.mod_small in S by lia. lia.
  Qed.
End Counting.

(** * Every single loop can be numbered *)
Section Numbering.
  Variable A : area.
  Hypothesis HA : wf_area A.
  Variable T : layout.
  Variable L : Z.
  Hypothesis VL : valid_layout A T L.
  Notation n := (aw A * ah A).

  Lemma follows_inside p q : follows A T L p q -> inside A p /\ inside A q.
  Proof. exact (step_inside A T L p q). Qed.
  Lemma follows_fun p q q' : follows A T L p q -> follows A T L p q' -> q = q'.
  Proof. exact (step_fun A T L p q q'). Qed.

  Lemma loop_numbering : single_loop A T L -> exists c : pos -> Z,
    (forall p, inside A p -> 0 <= c p < n) /\
    (forall p, inside A p -> (c p = 0 <-> p = corner)) /\
    (forall p q, follows A T L p q -> (q = corner -> c p = n - 1) /\ (q <> corner -> c q = c p + 1)).
  Proof.
    intros (cell & Ci & Cs & Cj & Cf). pose proof (n_pos A HA) as Hn.
    destruct (Cs corner (o_inside A HA)) as (k0 & Hk0 & Ek0).
    pose (idx := fun p => match find (fun i => if pos_dec (cell i) p then true else false) (range n) with Some i => i | None => 0 end).
    assert (Ix : forall p, inside A p -> 0 <= idx p < n /\ cell (idx p) = p).
    { intros p Hp. destruct (Cs p Hp) as (i & Hi & Ei). unfold idx.
      destruct (find (fun i => if pos_dec (cell i) p then true else false) (range n)) as [j|] eqn:F.
      - apply find_some in F. destruct F as [Fj Fe]. apply range_in in Fj. split; [exact Fj|]. destruct (pos_dec (cell j) p); [assumption|discriminate].
      - exfalso. pose proof (find_none _ _ F i (proj2 (range_in n i) Hi)) as X. cbv beta in X. destruct (pos_dec (cell i) p); [discriminate|contradiction]. }
    assert (Nx : forall p q, follows A T L p q -> idx q = (idx p + 1) mod n).
    { intros p q F. destruct (follows_inside p q F) as [Hp Hq]. destruct (Ix p Hp) as [Ip Ep]. destruct (Ix q Hq) as [Iq Eq].
      apply Cj; [exact Iq|apply Z.mod_pos_bound; lia|]. rewrite Eq. apply (follows_fun p); [exact F|]. rewrite <- Ep at 1. apply Cf. exact Ip. }
    assert (I0 : idx corner = k0) by (destruct (Ix corner (o_inside A HA)) as [I1 I2]; apply Cj; [exact I1|exact Hk0|congruence]).
    exists (fun p => (idx p - k0) mod n).
    assert (Z0 : forall p, inside A p -> ((idx p - k0) mod n = 0 <-> p = corner)).
    { intros p Hp. destruct (Ix p Hp) as [Ip Ep]. split; [|intros ->; rewrite I0, Z.sub_diag; apply Z.mod_0_l; lia].
      intros M. rewrite <- Ep, <- Ek0. f_equal. apply Z.mod_divide in M; [|lia]. destruct M as [m Em]. assert (m = 0) by nia. subst m. lia. }
    split; [intros p _; apply Z.mod_pos_bound; lia|]. split; [exact Z0|].
    intros p q F. destruct (follows_inside p q F) as [Hp Hq].
    assert (E : (idx q - k0) mod n = ((idx p - k0) mod n + 1) mod n).
    { rewrite (Nx p q F), Zminus_mod_idemp_l, Zplus_mod_idemp_l. f_equal. lia. }
    pose proof (Z.mod_pos_bound (idx p - k0) n Hn) as B.
    destruct (Z.eq_dec ((idx p - k0) mod n + 1) n) as [X|X].
    - rewrite X, Z_mod_same_full in E. apply (Z0 q Hq) in E. split; [intros _; lia|intros N; contradiction].
    - rewrite (Z.mod_small ((idx p - k0) mod n + 1)) in E by lia. split; [|intros _; exact E].
      intros ->. apply (Z0 _ Hq) in E; [|reflexivity] || (rewrite (proj2 (Z0 _ Hq) eq_refl) in E; lia).
  Qed.
End Numbering.

Section CompleteLoop.
  Variable g : grid.
  Hypothesis W : wf_grid g.
  Variable T : layout.
  Variable L : Z.
  Variable C : pos -> Z.
  Variable a0 : assignment.
  Notation A := (garea g).
  Hypothesis VL : valid_layout A T L.
  Hypothesis NS : forall p, inside A p -> ~ is_splitter_tile (T p).
  Variable n : Z.
  Hypothesis Gc : gcolours g = Some n.
  Hypothesis Cr : forall p, inside A p -> 0 <= C p < n.
  Hypothesis C0 : forall p, inside A p -> (C p = 0 <-> p = corner).
  Hypothesis Cf : forall p q, follows A T L p q -> (q = corner -> C p = n - 1) /\ (q <> corner -> C q = C p + 1).
  Notation span := (2 ^ Z.of_nat (colour_bits g)).
  (** Either all numbers are in use, or the corner is entered over the ground
      from inside the rectangle. *)
  Hypothesis HE : n = span \/ forall p, follows A T L p corner -> exists d, pushes (T p) d /\ go p d = (0, 0).
  Let HA : wf_area A := WA g W.

  Definition below (p : pos) : Z := match T p with Underground _ true => (C p + 1) mod span | _ => C p end.
  Definition below_x : pos -> Z := tunnel_quantity A T L Z below 0 (RIGHT, LEFT).
  Definition below_y : pos -> Z := tunnel_quantity A T L Z below 0 (UP, DOWN).
  Notation a := (layout_assignment g T L C below_x below_y a0).
  Notation V p := (view_of a (tile_at g p)).
  Definition bq (d : dir) (p : pos) : Z := tunnel_quantity A T L Z below 0 (axis_dirs d) p.

  Lemma below_same p q : sends_under A T L p q -> (C p + 1) mod span = C q.
  Proof.
    intros S. assert (F : follows A T L p q) by (right; exact S). destruct (follows_inside A T L p q F) as [Hp Hq].
    destruct (Cf p q F) as [F1 F2]. pose proof (span_fits g W n Gc) as SF. pose proof (Cr p Hp). pose proof (Cr q Hq).
    destruct (pos_dec q corner) as [->|N].
    - specialize (F1 eq_refl). rewrite (proj2 (C0 _ Hq) eq_refl). destruct HE as [E|E].
      + rewrite F1, <- E. replace (n - 1 + 1) with n by lia. apply Z_mod_same_full.
      + exfalso. destruct (E p F) as (d & Pd & _). destruct S as (_ & d' & Tp & _). rewrite Tp in Pd. contradiction.
    - rewrite (F2 N) in *. apply Z.mod_small. lia.
  Qed.
  Lemma below_range p : inside A p -> 0 <= below p < n.
  Proof.
    intros Hp. unfold below. pose proof (Cr p Hp). destruct (T p) as [| |i o|d []|d h|d k|x y] eqn:E; try assumption.
    pose proof VL as (_ & _ & _ & _ & _ & _ & VE & _). destruct (VE p d Hp E) as (q & Tq & K). assert (S : sends_under A T L p q) by (split; [exact Hp|]; exists d; auto).
    rewrite (below_same p q S). apply Cr. apply (follows_inside A T L p q). right. exact S.
  Qed.
  Lemma bq_range d p : inside A p -> 0 <= bq d p < n.
  Proof. intros Hp. apply (tunnel_quantity_range g T L below); [exact below_range|specialize (Cr p Hp); lia|exact Hp]. Qed.

  Lemma loop_values p d : inside A p -> hue g a p = C p /\ deep g a d p = bq d p.
  Proof.
    intros Hp. destruct (layout_colours g W T L C below_x below_y a0 p Hp) as (V1 & V2 & V3). pose proof (span_fits g W n Gc) as SF.
    split; [apply V1; specialize (Cr p Hp); lia|]. unfold deep, tunnel_colour, bq, axis_dirs. pose proof (bq_range d p Hp) as B. unfold bq, axis_dirs in B.
    destruct (is_horizontal d); [apply V2|apply V3]; (change (0 <= tunnel_quantity A T L Z below 0 (RIGHT, LEFT) p < span) || change (0 <= tunnel_quantity A T L Z below 0 (UP, DOWN) p < span)); lia.
  Qed.

  Lemma layout_loop_rule p d : inside A p -> loop_rule g a n p d.
  Proof.
    intros Hp q En. assert (Hq : inside A q) by (eapply ahead_inside; exact En).
    pose proof (layout_shows g W T L C below_x below_y a0 VL p Hp) as Sp.
    pose proof (layout_shows g W T L C below_x below_y a0 VL q Hq) as Sq.
    destruct (view_layout g W T L C below_x below_y a0 p Hp) as (_ & _ & _ & _ & _ & _ & _ & _ & _ & _ & Vu).
    destruct (view_layout g W T L C below_x below_y a0 q Hq) as (_ & _ & _ & _ & _ & _ & _ & _ & _ & _ & Vuq).
    pose proof VL as (VB & _ & _ & _ & _ & _ & VE & VX).
    destruct (loop_values p d Hp) as [-> ->]. destruct (loop_values q d Hq) as [-> ->].
    split; [|split; [|split]].
    - intros O. assert (F : follows A T L p q).
      { left. split; [exact Hp|]. split; [apply NS; exact Hp|]. exists d. split; [exact (shows_pushes _ _ _ Sp O)|exact En]. }
      destruct (Cf p q F) as [F1 F2]. pose proof (Cr p Hp) as Rp. pose proof (span_fits g W n Gc) as SF. split.
      + intros E. apply F1. exact (go_place g W p d q Hp En E).
      + intros N. destruct (pos_dec q corner) as [->|Nq].
        * rewrite (proj2 (C0 _ Hq) eq_refl), (F1 eq_refl). destruct HE as [E|E].
          -- rewrite <- E. replace (n - 1 + 1) with n by lia. symmetry. apply Z_mod_same_full.
          -- exfalso. destruct (E p F) as (e & Pe & Ge). rewrite (pushes_fun _ _ _ Pe (shows_pushes _ _ _ Sp O)) in Ge. contradiction.
        * rewrite (F2 Nq). symmetry. apply Z.mod_small. pose proof (Cr q Hq). rewrite (F2 Nq) in H. lia.
    - intros I1 N. pose proof (shows_takes _ _ _ Sp I1) as Tk.
      assert (Tp : T p = Underground d true).
      { destruct (T p) as [| |i o|f []|f h|f k|x y] eqn:E; cbn in Tk; try contradiction; subst.
        - destruct Sp as ((_ & _ & O & _) & _). specialize (N o). rewrite (proj2 (O o) eq_refl) in N. discriminate.
        - reflexivity.
        - exfalso. apply (NS p Hp). rewrite E. exact Logic.I. }
      destruct (VE p d Hp Tp) as (x & Tx & k & Hk & Ek & Hc). unfold bq.
      destruct (Hc 1 ltac:(lia)) as (r & Er & Nr). unfold neighbour in En. rewrite En in Er. injection Er as <-.
      rewrite (tunnel_quantity_inside A T L Z below 0 HA VL q d 1 p); auto; try lia.
      + unfold below. rewrite Tp. reflexivity.
      + apply (ahead_back A p d 1 q HA Hp En).
      + intros i Hi. replace (- i) with 0 by lia. exists q. split; [apply ahead_0; exact Hq|exact Nr].
    - intros O N. pose proof (shows_pushes _ _ _ Sq O) as Pq.
      assert (Tq : T q = Underground d false).
      { destruct (T q) as [| |i o|f []|f h|f k|x y] eqn:E; cbn in Pq; try contradiction; subst.
        - destruct Sq as ((_ & I1 & _) & _). specialize (N i). rewrite (proj2 (I1 i) eq_refl) in N. discriminate.
        - reflexivity.
        - exfalso. apply (NS q Hq). rewrite E. exact Logic.I. }
      destruct (VX q d Hq Tq) as (x & Hx & Tx & k & Hk & Ek & Hc).
      assert (Ep : ahead A x d (k - 1) = Some p).
      { pose proof (neighbour_back A p d q HA Hp En) as B. unfold neighbour in B. rewrite ahead_opposite in B. change (Z.opp 1) with (-1) in B.
        rewrite (ahead_add A x d k (-1) q HA Ek) in B. exact B. }
      transitivity (below x).
      + unfold bq. apply (tunnel_quantity_inside A T L Z below 0 HA VL p d (k - 1) x); auto; try lia.
        * apply (ahead_back A x d (k - 1) p HA Hx Ep).
        * intros i Hi. rewrite (ahead_add A x d (k - 1) (- i) p HA Ep). apply Hc. lia.
      + unfold below. rewrite Tx. apply below_same. split; [exact Hx|]. exists d. split; [exact Tx|]. split; [exact Tq|]. exists k. auto.
    - intros U U'. rewrite Vu in U. rewrite Vuq in U'.
      destruct (f_under_inside A T L HA VL p d Hp U) as (j & k & e & x & Hj & Hk & He & Ee & Ep & Te & Ex & Tx & Hc).
      assert (E1 : bq d p = below e).
      { unfold bq. apply (tunnel_quantity_inside A T L Z below 0 HA VL p d j e); auto; try lia.
        intros i Hi. rewrite (ahead_add A e d j (- i) p HA Ep). apply Hc. lia. }
      assert (Eq : ahead A e d (j + 1) = Some q) by (rewrite <- (ahead_add A e d j 1 p HA Ep); exact En).
      rewrite E1. destruct (Z.eq_dec (j + 1) k) as [E|N].
      + exfalso. rewrite E in Eq. assert (x = q) by congruence. subst x. apply (f_under_clear A T L q d Hq U'). rewrite Tx. destruct d; reflexivity.
      + symmetry. unfold bq. apply (tunnel_quantity_inside A T L Z below 0 HA VL q d (j + 1) e); auto; try lia.
        * apply (ahead_back A e d (j + 1) q HA He Eq).
        * intros i Hi. rewrite (ahead_add A e d (j + 1) (- i) q HA Eq). apply Hc. lia.
  Qed.

  Lemma layout_start_rule p : inside A p -> start_rule g a p.
  Proof. intros Hp. unfold start_rule. destruct (loop_values p RIGHT Hp) as [-> _]. exact (C0 p Hp). Qed.
End CompleteLoop.
