(** Proofs about calculate_optimal.py: factors, next_size and the query. *)
From Coq Require Import ZArith List Bool Lia Permutation.
From Verif Require Import M_Json M_Dict P_Dict M_Network Spec_Network P_Network M_Optimal Spec_Optimal P_Optimal.
Import ListNotations.
Open Scope Z_scope.

(** * factors *)
Lemma nodup_flat_map {X Y} (f : X -> list Y) l : NoDup l -> (forall x, In x l -> NoDup (f x)) ->
  (forall x y z, In x l -> In y l -> In z (f x) -> In z (f y) -> x = y) -> NoDup (flat_map f l).
Proof.
  induction l as [|x l IH]; intros N F D; cbn [flat_map]; [constructor|]. inversion N as [|? ? N1 N2]; subst.
  assert (G : NoDup (flat_map f l)).
  { apply IH; [assumption|intros; apply F; right; assumption|]. intros a b z Ha Hb. apply D; right; assumption. }
  pose proof (F x (or_introl eq_refl)) as Fx.
  assert (Dj : forall z, In z (f x) -> ~ In z (flat_map f l)).
  { intros z Hz H. apply in_flat_map in H. destruct H as (y & Hy & H). assert (x = y) by (apply (D x y z); auto using in_eq, in_cons). subst. contradiction. }
  clear - Fx G Dj. induction (f x) as [|z r IHr]; [exact G|]. cbn [app]. inversion Fx; subst. constructor.
  - intros H. apply in_app_or in H. destruct H as [H|H]; [contradiction|]. apply (Dj z (or_introl eq_refl) H).
  - apply IHr; [assumption|]. intros y Hy. apply Dj. right. exact Hy.
Qed.
Definition pair_of (v t : Z) : list (Z * Z) :=
  if v mod t =? 0 then (t, v / t) :: (if t =? v / t then [] else [(v / t, t)]) else [].
Lemma pair_of_in v t a b : 1 <= v -> 1 <= t -> (In (a, b) (pair_of v t) <-> a * b = v /\ 1 <= a /\ (a = t \/ b = t)).
Proof.
  intros Hv Ht. unfold pair_of. destruct (Z.eqb_spec (v mod t) 0) as [E|E].
  - assert (V : v = t * (v / t)) by (pose proof (Z.div_mod v t ltac:(lia)); lia).
    set (q := v / t) in *. assert (Q1 : 1 <= q) by nia.
    assert (U : forall x, x * t = v -> x = q) by (intros x Hx; nia).
    split.
    + intros [[= <- <-]|H]; [repeat split; try lia|]. destruct (Z.eqb_spec t q) as [Eq|N]; [destruct H|].
      destruct H as [[= <- <-]|[]]. repeat split; lia.
    + intros (M & P & [->| ->]).
      * left. f_equal. symmetry. apply U. lia.
      * destruct (Z.eqb_spec t q) as [Eq|N].
        -- left. rewrite (U a M). rewrite Eq. reflexivity.
        -- right. left. rewrite (U a M). reflexivity.
  - split; [intros []|]. intros (M & P & [->| ->]); exfalso; apply E; rewrite <- M; [rewrite Z.mul_comm|]; apply Z.mod_mul; lia.
Qed.
Lemma tests_in v t : In t (rev (map (fun i => Z.of_nat i + 1) (seq 0 (Z.to_nat (Z.sqrt v))))) <-> 1 <= t <= Z.sqrt v.
Proof.
  rewrite <- in_rev, in_map_iff. split.
  - intros (i & <- & H). apply in_seq in H. lia.
  - intros H. exists (Z.to_nat (t - 1)). split; [lia|]. apply in_seq. lia.
Qed.
Lemma factors_in v a b : 1 <= v -> (In (a, b) (factors v) <-> a * b = v /\ 1 <= a).
Proof.
  intros Hv. unfold factors. rewrite in_flat_map. split.
  - intros (t & Ht & H). apply tests_in in Ht. apply (pair_of_in v t a b Hv ltac:(lia)) in H. tauto.
  - intros [M P]. assert (1 <= b) by nia. pose proof (Z.sqrt_spec v ltac:(lia)) as Sq.
    destruct (Z_le_gt_dec a b) as [L|L].
    + exists a. split; [apply tests_in; split; [lia|apply Z.sqrt_le_square; nia]|]. apply (pair_of_in v a a b Hv P). auto.
    + exists b. split; [apply tests_in; split; [lia|apply Z.sqrt_le_square; nia]|]. apply (pair_of_in v b a b Hv H). auto.
Qed.
Lemma square_root_pair v x y : x * y = v -> 1 <= x <= Z.sqrt v -> 1 <= y <= Z.sqrt v -> Z.sqrt v * Z.sqrt v <= v -> x = y.
Proof.
  intros E Hx Hy H. set (r := Z.sqrt v) in *.
  destruct (Z.eq_dec x r) as [->|N]; [destruct (Z.eq_dec y r) as [->|N]; [reflexivity|]|]; exfalso.
  - assert (r * y <= r * (r - 1)) by (apply Z.mul_le_mono_nonneg; lia). nia.
  - assert (x * y <= (r - 1) * r) by (apply Z.mul_le_mono_nonneg; lia). nia.
Qed.
Lemma factors_nodup v : 1 <= v -> NoDup (factors v).
Proof.
  intros Hv. unfold factors. apply nodup_flat_map.
  - apply NoDup_rev. apply FinFun.Injective_map_NoDup; [intros x y; lia|apply seq_NoDup].
  - intros t Ht. apply tests_in in Ht. change (NoDup (pair_of v t)). unfold pair_of.
    destruct (v mod t =? 0); [|constructor]. constructor; [|destruct (t =? v / t); repeat constructor; auto].
    destruct (Z.eqb_spec t (v / t)) as [E|E]; [auto|]. intros [[= E1 E2]|[]]. congruence.
  - intros x y [a b] Hx Hy H1 H2. apply tests_in in Hx. apply tests_in in Hy.
    apply (pair_of_in v x a b Hv ltac:(lia)) in H1. apply (pair_of_in v y a b Hv ltac:(lia)) in H2.
    destruct H1 as (M & P & H1), H2 as (_ & _ & H2). pose proof (Z.sqrt_spec v ltac:(lia)) as Sq.
    assert (1 <= b) by nia. destruct H1 as [->| ->], H2 as [E|E]; try congruence.
    + subst b. apply (square_root_pair v x y); try assumption; apply Sq.
    + subst a. apply (square_root_pair v x y); try assumption; [rewrite Z.mul_comm; exact M|apply Sq].
Qed.

(** * next_size *)
Lemma min_height_pos net mh : min_height net = Some mh -> 1 <= mh.
Proof.
  unfold min_height. destruct (get_input_output_colours net) as [[[ic n] [oc m]]|] eqn:E; cbn; [|discriminate].
  intros [= <-]. apply ends_spec in E. destruct E as ((P1 & P2) & _). lia.
Qed.
Lemma widest_bound {A} (st : store A) u w h b : In ((u, w, h), b) (st_exist st) -> w <= widest st.
Proof.
  unfold widest. intros H. induction (st_exist st) as [|e l IH]; [destruct H|]. cbn [map fold_right]. destruct H as [->|H]; cbn; [lia|].
  specialize (IH H). lia.
Qed.
Lemma widest_nonneg {A} (st : store A) : 0 <= widest st.
Proof. unfold widest. induction (st_exist st) as [|e l IH]; cbn [map fold_right]; lia. Qed.
Lemma beyond_not_false {A} (st : store A) u w h : widest st < w -> does_balancer_exist st (u, w, h) <> Some false.
Proof.
  intros H E. apply lookup_false in E. destruct E as ([[u' w'] h'] & I1 & W). pose proof (widest_bound st u' w' h' false I1).
  unfold within in W. lia.
Qed.

Definition needs_width {A} (st : store A) (w h : Z) : Prop := needed (st_network st) <= (w - 2) * h.
Lemma length_loop_spec {A} (st : store A) u h fuel : forall w,
  match length_loop fuel st u h w with
  | None => forall w', w <= w' < w + Z.of_nat fuel -> does_balancer_exist st (u, w', h) <> Some true /\
              (needs_width st w' h -> does_balancer_exist st (u, w', h) = Some false)
  | Some r => exists w', w <= w' /\
      (forall x, w <= x < w' -> does_balancer_exist st (u, x, h) <> Some true /\ (needs_width st x h -> does_balancer_exist st (u, x, h) = Some false)) /\
      match r with
      | None => does_balancer_exist st (u, w', h) = Some true
      | Some s => s = (u, w', h) /\ does_balancer_exist st s = None /\ needs_width st w' h
      end
  end.
Proof.
  induction fuel as [|fuel IH]; intros w; cbn [length_loop]; [intros w' H; lia|].
  destruct (does_balancer_exist st (u, w, h)) as [[|]|] eqn:E.
  - exists w. split; [lia|]. split; [intros x Hx; lia|]. exact E.
  - rewrite andb_false_r. specialize (IH (w + 1)). destruct (length_loop fuel st u h (w + 1)) as [r|].
    + destruct IH as (w' & L & B & R). exists w'. split; [lia|]. split; [|exact R]. intros x Hx.
      destruct (Z.eq_dec x w) as [->|N]; [rewrite E; split; [discriminate|auto]|]. apply B. lia.
    + intros w' Hw. destruct (Z.eq_dec w' w) as [->|N]; [rewrite E; split; [discriminate|auto]|]. apply IH. lia.
  - rewrite andb_true_r. destruct (Z.leb_spec (needed (st_network st)) ((w - 2) * h)) as [Le|Lt].
    + exists w. split; [lia|]. split; [intros x Hx; lia|]. split; [reflexivity|]. split; [exact E|exact Le].
    + specialize (IH (w + 1)). destruct (length_loop fuel st u h (w + 1)) as [r|].
      * destruct IH as (w' & L & B & R). exists w'. split; [lia|]. split; [|exact R]. intros x Hx.
        destruct (Z.eq_dec x w) as [->|N]; [rewrite E; split; [discriminate|unfold needs_width; lia]|]. apply B. lia.
      * intros w' Hw. destruct (Z.eq_dec w' w) as [->|N]; [rewrite E; split; [discriminate|unfold needs_width; lia]|]. apply IH. lia.
Qed.
Lemma needed_nonneg net : 0 <= needed net.
Proof. unfold needed. lia. Qed.
Lemma length_loop_total {A} (st : store A) u h fuel : 1 <= h -> (length_fuel st <= fuel)%nat -> exists r, length_loop fuel st u h 3 = Some r.
Proof.
  intros Hh F. pose proof (length_loop_spec st u h fuel 3) as L. destruct (length_loop fuel st u h 3) as [r|]; [eauto|]. exfalso.
  unfold length_fuel in F. pose proof (widest_nonneg st). pose proof (needed_nonneg (st_network st)) as Nn.
  set (w := widest st + needed (st_network st) + 3). specialize (L w ltac:(lia)). destruct L as [_ L].
  apply (beyond_not_false st u w h); [lia|]. apply L. unfold needs_width. nia.
Qed.
Lemma length_loop_more {A} (st : store A) u h fuel : forall w r k, length_loop fuel st u h w = Some r -> length_loop (fuel + k) st u h w = Some r.
Proof.
  induction fuel as [|fuel IH]; intros w r k E; cbn [length_loop Nat.add] in *; [discriminate|].
  destruct (does_balancer_exist st (u, w, h)) as [[|]|]; [exact E| |];
    (destruct ((needed (st_network st) <=? (w - 2) * h) && _); [exact E|apply IH, E]).
Qed.

(** Pairs looked at by the area search. *)
Definition area_ok {A} (st : store A) (mh w h : Z) : Prop := mh <= h <= 2 * mh /\ needed (st_network st) <= w * h.
Lemma area_pairs_spec {A} (st : store A) u mh pairs :
  match area_pairs st u mh pairs with
  | None => forall w h, In (w, h) pairs -> area_ok st mh w h -> does_balancer_exist st (u, w + 2, h) = Some false
  | Some r => exists w h, In (w, h) pairs /\ area_ok st mh w h /\
      match r with
      | None => does_balancer_exist st (u, w + 2, h) = Some true
      | Some s => s = (u, w + 2, h) /\ does_balancer_exist st s = None
      end
  end.
Proof.
  induction pairs as [|[w h] pairs IH]; cbn [area_pairs]; [intros w h []|].
  assert (Skip : ~ area_ok st mh w h \/ does_balancer_exist st (u, w + 2, h) = Some false ->
    match area_pairs st u mh pairs with
    | None => forall x y, In (x, y) ((w, h) :: pairs) -> area_ok st mh x y -> does_balancer_exist st (u, x + 2, y) = Some false
    | Some r => exists x y, In (x, y) ((w, h) :: pairs) /\ area_ok st mh x y /\
        match r with None => does_balancer_exist st (u, x + 2, y) = Some true | Some s => s = (u, x + 2, y) /\ does_balancer_exist st s = None end
    end).
  { intros H. destruct (area_pairs st u mh pairs) as [r|].
    - destruct IH as (x & y & I1 & O & R). exists x, y. split; [right; exact I1|auto].
    - intros x y [[= <- <-]|I1] O; [tauto|]. apply IH; assumption. }
  unfold area_ok in *. destruct (Z.ltb_spec h mh) as [L1|L1]; cbn [orb]; [apply Skip; lia|].
  destruct (Z.ltb_spec (2 * mh) h) as [L2|L2]; [apply Skip; lia|].
  destruct (Z.ltb_spec (w * h) (needed (st_network st))) as [L3|L3]; [apply Skip; lia|].
  destruct (does_balancer_exist st (u, w + 2, h)) as [[|]|] eqn:E.
  - exists w, h. split; [left; reflexivity|]. split; [lia|exact E].
  - apply Skip. auto.
  - exists w, h. split; [left; reflexivity|]. split; [lia|]. auto.
Qed.
Lemma area_loop_spec {A} (st : store A) u mh fuel : forall a, 1 <= a ->
  let ruled x := forall w h, w * h = x -> 1 <= w -> area_ok st mh w h -> does_balancer_exist st (u, w + 2, h) = Some false in
  match area_loop fuel st u mh a with
  | None => forall x, a <= x < a + Z.of_nat fuel -> ruled x
  | Some r => exists w h, a <= w * h /\ 1 <= w /\ area_ok st mh w h /\ (forall x, a <= x < w * h -> ruled x) /\
      match r with
      | None => does_balancer_exist st (u, w + 2, h) = Some true
      | Some s => s = (u, w + 2, h) /\ does_balancer_exist st s = None
      end
  end.
Proof.
  cbv zeta. induction fuel as [|fuel IH]; intros a Ha; cbn [area_loop]; [intros x H; lia|].
  pose proof (area_pairs_spec st u mh (factors a)) as P. destruct (area_pairs st u mh (factors a)) as [r|].
  - destruct P as (w & h & I1 & O & R). apply factors_in in I1; [|exact Ha]. destruct I1 as [I1 I2]. exists w, h. split; [lia|]. split; [exact I2|].
    split; [exact O|]. split; [|exact R]. intros x Hx. lia.
  - assert (R0 : forall w h, w * h = a -> 1 <= w -> area_ok st mh w h -> does_balancer_exist st (u, w + 2, h) = Some false).
    { intros w h M W O. apply P; [|exact O]. apply factors_in; [exact Ha|]. auto. }
    specialize (IH (a + 1) ltac:(lia)). destruct (area_loop fuel st u mh (a + 1)) as [r|].
    + destruct IH as (w & h & L & W & O & B & R). exists w, h. split; [lia|]. split; [exact W|]. split; [exact O|]. split; [|exact R].
      intros x Hx. destruct (Z.eq_dec x a) as [->|N]; [exact R0|]. apply B. lia.
    + intros x Hx. destruct (Z.eq_dec x a) as [->|N]; [exact R0|]. apply IH. lia.
Qed.
Lemma area_loop_total {A} (st : store A) u mh fuel : 1 <= mh -> (area_fuel st mh <= fuel)%nat -> exists r, area_loop fuel st u mh mh = Some r.
Proof.
  intros Hh F. pose proof (area_loop_spec st u mh fuel mh Hh) as L. cbv zeta in L. destruct (area_loop fuel st u mh mh) as [r|]; [eauto|]. exfalso.
  unfold area_fuel in F. pose proof (widest_nonneg st). pose proof (needed_nonneg (st_network st)) as Nn.
  set (w := widest st + needed (st_network st) + 3) in *.
  specialize (L (w * mh) ltac:(split; nia) w mh eq_refl ltac:(lia)).
  apply (beyond_not_false st u (w + 2) mh); [lia|]. apply L. unfold area_ok. split; [lia|nia].
Qed.
Lemma area_loop_more {A} (st : store A) u mh fuel : forall a r k, area_loop fuel st u mh a = Some r -> area_loop (fuel + k) st u mh a = Some r.
Proof.
  induction fuel as [|fuel IH]; intros a r k E; cbn [area_loop Nat.add] in *; [discriminate|].
  destruct (area_pairs st u mh (factors a)); [exact E|apply IH, E].
Qed.
Lemma next_size_total {A} o (st : store A) u mh : min_height (st_network st) = Some mh -> exists r, next_size o st u = Some r.
Proof.
  intros M. unfold next_size. rewrite M. cbn [obind]. pose proof (min_height_pos _ _ M).
  destruct o; [apply length_loop_total|apply area_loop_total]; auto.
Qed.

(** What the searches return, in common terms. *)
Lemma next_size_spec {A} o (st : store A) u mh r : min_height (st_network st) = Some mh -> next_size o st u = Some r ->
  exists w h,
    (forall w' h', searched o (st_network st) mh w' h' -> cost o w' h' < cost o w h -> does_balancer_exist st (u, w', h') = Some false) /\
    match r with
    | None => does_balancer_exist st (u, w, h) = Some true /\ match o with Length => h = mh | Area => searched o (st_network st) mh w h end
    | Some s => s = (u, w, h) /\ does_balancer_exist st s = None /\ searched o (st_network st) mh w h
    end.
Proof.
  intros M. unfold next_size. rewrite M. cbn [obind]. pose proof (min_height_pos _ _ M) as Hm. destruct o.
  - intros E. pose proof (length_loop_spec st u mh (length_fuel st) 3) as L. rewrite E in L. destruct L as (w & L & B & R).
    exists w, mh. split.
    + intros w' h' (S1 & S2 & ->) C. cbn [cost] in C. apply B; [lia|exact S2].
    + destruct r as [s|]; [|auto]. destruct R as (-> & R1 & R2). split; [reflexivity|]. split; [exact R1|]. repeat split; [exact L|exact R2].
  - intros E. pose proof (area_loop_spec st u mh (area_fuel st mh) mh Hm) as L. rewrite E in L. destruct L as (w & h & L & W & O & B & R).
    exists (w + 2), h. unfold area_ok, searched, needed in *. split.
    + intros w' h' (S1 & S2 & S3) C. cbn [cost] in C. replace w' with ((w' - 2) + 2) by lia. apply (B ((w' - 2) * h')).
      * split; [nia|]. replace (w + 2 - 2) with w in C by lia. exact C.
      * reflexivity.
      * lia.
      * split; [exact S3|exact S2].
    + assert (Sw : 3 <= w + 2 /\ Z.of_nat (length (st_network st)) * 2 <= (w + 2 - 2) * h /\ mh <= h <= 2 * mh)
        by (replace (w + 2 - 2) with w by lia; lia).
      destruct r as [s|]; [|auto]. destruct R as (-> & R1). auto.
Qed.

(** * Databases built by searching *)
Record good {A} (answer : network -> size -> option A -> Prop) (st : store A) : Prop := {
  gd_nodup : NoDup (map fst (st_exist st));
  gd_nodup_sol : NoDup (map fst (st_solutions st));
  gd_consistent : consistent (st_exist st);
  gd_solutions : forall s, In (s, true) (st_exist st) <-> In s (map fst (st_solutions st));
  gd_searched : forall u w h b, In ((u, w, h), b) (st_exist st) -> exists mh, min_height (st_network st) = Some mh /\ searched Area (st_network st) mh w h;
  gd_yes : forall s a, In (s, a) (st_solutions st) -> answer (st_network st) s (Some a);
  gd_no : forall s, In (s, false) (st_exist st) -> answer (st_network st) s None }.
Lemma searched_area o net mh w h : 1 <= mh -> searched o net mh w h -> searched Area net mh w h.
Proof. unfold searched. intros M (H1 & H2 & H3). destruct o; [subst; repeat split; try assumption; lia|auto]. Qed.
Lemma next_size_asked {A} o (st : store A) u s : next_size o st u = Some (Some s) -> does_balancer_exist st s = None /\
  exists mh w h, min_height (st_network st) = Some mh /\ s = (u, w, h) /\ searched o (st_network st) mh w h.
Proof.
  intros E. destruct (min_height (st_network st)) as [mh|] eqn:M; [|unfold next_size in E; rewrite M in E; discriminate].
  destruct (next_size_spec o st u mh (Some s) M E) as (w & h & _ & -> & L & S1). split; [exact L|]. exists mh, w, h. auto.
Qed.
Lemma good_step {A} answer (st : store A) s sol mh w h u : good answer st -> does_balancer_exist st s = None ->
  min_height (st_network st) = Some mh -> s = (u, w, h) -> searched Area (st_network st) mh w h ->
  answer (st_network st) s sol -> good answer (clean (add_solution st s sol)).
Proof.
  intros [N Ns C Sol Se Ye No] L M Es Hs An.
  assert (Fr : ~ In s (map fst (st_solutions st))).
  { intros H. apply Sol in H. apply (unknown_fresh _ _ L). change s with (fst (s, true)). apply in_map. exact H. }
  pose proof (add_exist st s sol L) as Ex. set (st1 := add_solution st s sol) in *.
  assert (N1 : NoDup (map fst (st_exist st1))).
  { rewrite Ex, map_app. cbn [map fst]. apply (Permutation_NoDup (Permutation_cons_append _ _)). constructor; [apply unknown_fresh, L|exact N]. }
  assert (C1 : consistent (st_exist st1)) by (rewrite Ex; apply add_consistent; assumption).
  assert (S1 : st_solutions st1 = (st_solutions st ++ match sol with Some x => [(s, x)] | None => [] end)%list).
  { subst st1. cbn. destruct sol; [apply (dset_fresh size_eqb size_eqb_spec), Fr|rewrite app_nil_r; reflexivity]. }
  pose proof (clean_ok st1 N1) as K. destruct K as [K1 K2 K3 K4].
  constructor.
  - exact K1.
  - change (st_solutions (clean st1)) with (st_solutions st1). rewrite S1, map_app. destruct sol; cbn [map fst]; [|rewrite app_nil_r; exact Ns].
    apply (Permutation_NoDup (Permutation_cons_append _ _)). constructor; assumption.
  - apply (cleaned_consistent (st_exist st1)); [exact C1|]. constructor; assumption.
  - intros x. rewrite K2, Ex. change (st_solutions (clean st1)) with (st_solutions st1). rewrite S1, map_app, !in_app_iff, Sol.
    destruct sol; cbn; intuition congruence.
  - intros u' w' h' b H. change (st_network (clean st1)) with (st_network st).
    assert (H' : In ((u', w', h'), b) (st_exist st1)) by (destruct b; [apply K2, H|apply K3, H]).
    rewrite Ex in H'. apply in_app_or in H'. destruct H' as [H'|[H'|[]]]; [apply (Se _ _ _ _ H')|].
    injection H' as H' _. exists mh. rewrite Es in H'. injection H' as <- <- <-. auto.
  - intros x a H. change (st_network (clean st1)) with (st_network st). change (st_solutions (clean st1)) with (st_solutions st1) in H. rewrite S1 in H.
    apply in_app_or in H. destruct H as [H|H]; [apply Ye, H|]. destruct sol; [|destruct H]. destruct H as [[= <- <-]|[]]. exact An.
  - intros x H. change (st_network (clean st1)) with (st_network st). apply K3 in H. rewrite Ex in H.
    apply in_app_or in H. destruct H as [H|[[= <- H]|[]]]; [apply No, H|]. destruct sol; [discriminate|exact An].
Qed.
Lemma built_good {A} answer (st : store A) : built answer st -> good answer st.
Proof.
  induction 1 as [name net|st o u s sol B G E An].
  - constructor; cbn; try (intros; contradiction); try constructor; try contradiction; intros t f [].
  - destruct (next_size_asked o st u s E) as (L & mh & w & h & M & Es & Hs).
    apply (good_step answer st s sol mh w h u G L M Es); [|exact An]. apply (searched_area o); [apply (min_height_pos _ _ M)|exact Hs].
Qed.
Lemma built_history {A} answer (st : store A) : built answer st -> history st.
Proof.
  induction 1 as [name net|st o u s sol B G E An]; [constructor|]. apply history_clean, history_add; [exact G|].
  apply (next_size_asked o st u s E).
Qed.

(** * The query *)
Lemma loss_lt_irrefl a : loss_lt a a = false.
Proof. unfold loss_lt. rewrite !Z.ltb_irrefl, andb_false_r. reflexivity. Qed.
Lemma loss_lt_false a b : loss_lt a b = false <-> fst b < fst a \/ fst b = fst a /\ snd b <= snd a.
Proof. unfold loss_lt. destruct (Z.ltb_spec (fst a) (fst b)), (Z.eqb_spec (fst a) (fst b)), (Z.ltb_spec (snd a) (snd b)); cbn; split; intros; try discriminate; try reflexivity; lia. Qed.
Lemma loss_lt_true a b : loss_lt a b = true <-> fst a < fst b \/ fst b = fst a /\ snd a < snd b.
Proof. unfold loss_lt. destruct (Z.ltb_spec (fst a) (fst b)), (Z.eqb_spec (fst a) (fst b)), (Z.ltb_spec (snd a) (snd b)); cbn; split; intros; try discriminate; try reflexivity; lia. Qed.
Lemma best_spec {A} o (l : list (size * A)) :
  match best o l with
  | None => l = []
  | Some x => In x l /\ forall y, In y l -> loss_lt (loss o (fst y)) (loss o (fst x)) = false
  end.
Proof.
  induction l as [|x l IH]; cbn [best]; [reflexivity|]. destruct (best o l) as [y|].
  - destruct IH as [I1 B]. destruct (loss_lt (loss o (fst y)) (loss o (fst x))) eqn:E.
    + split; [right; exact I1|]. intros z [<-|Hz]; [|apply B, Hz]. apply loss_lt_false. apply loss_lt_true in E. lia.
    + split; [left; reflexivity|]. intros z [<-|Hz]; [apply loss_lt_irrefl|]. specialize (B z Hz).
      apply loss_lt_false. apply loss_lt_false in E. apply loss_lt_false in B. lia.
  - subst l. split; [left; reflexivity|]. intros z [<-|[]]. apply loss_lt_irrefl.
Qed.
Lemma usable_in {A} (st : store A) u s a : In (s, a) (usable_solutions st u) <-> stored st s a /\ fst (fst s) <= u.
Proof. unfold usable_solutions, stored. rewrite filter_In. cbn. rewrite Z.leb_le. tauto. Qed.
