(** Proofs about calculate_optimal.py: the query and the concurrent computation. *)
From Coq Require Import String ZArith List Bool Lia Permutation.
From Verif Require Import M_Json M_Dict P_Dict M_Network M_Optimal Spec_Optimal P_Optimal P_Search.
Import ListNotations.
Open Scope Z_scope.

Lemma query_best {A} answer o (st : store A) u mh : good answer st -> min_height (st_network st) = Some mh ->
  next_size o st u = Some None ->
  exists u' w h a, u' <= u /\ stored st (u', w, h) a /\ best_current_solution o st u = Some a /\ searched o (st_network st) mh w h /\
    forall w' h', searched o (st_network st) mh w' h' -> cost o w' h' < cost o w h -> does_balancer_exist st (u, w', h') = Some false.
Proof.
  intros G M E. pose proof (min_height_pos _ _ M) as Hm.
  destruct (next_size_spec o st u mh None M E) as (w0 & h0 & Ruled & T & Hh).
  apply lookup_true in T. destruct T as ([[ut wt] ht] & It & Wt). unfold within in Wt.
  destruct (gd_searched _ _ G _ _ _ _ It) as (mh' & M' & (S1 & S2 & S3)). assert (mh' = mh) by congruence. subst mh'.
  pose proof (proj1 (gd_solutions _ _ G _) It) as Is. apply in_map_iff in Is. destruct Is as ([t at_] & Et & Is). cbn in Et. subst t.
  assert (Us : In ((ut, wt, ht), at_) (usable_solutions st u)) by (apply usable_in; split; [exact Is|cbn; lia]).
  pose proof (best_spec o (usable_solutions st u)) as B. unfold best_current_solution.
  destruct (best o (usable_solutions st u)) as [[[[u1 w1] h1] a1]|]; [|rewrite B in Us; destruct Us].
  destruct B as [I1 B]. specialize (B _ Us). cbn [fst] in B. apply loss_lt_false in B.
  apply usable_in in I1. destruct I1 as [I1 Hu]. cbn [fst] in Hu.
  assert (I2 : In ((u1, w1, h1), true) (st_exist st)).
  { apply (gd_solutions _ _ G). change (u1, w1, h1) with (fst ((u1, w1, h1), a1)). apply in_map. exact I1. }
  destruct (gd_searched _ _ G _ _ _ _ I2) as (mh' & M2 & (R1 & R2 & R3)). assert (mh' = mh) by congruence. subst mh'.
  exists u1, w1, h1, a1. split; [exact Hu|]. split; [exact I1|]. split; [reflexivity|].
  destruct o; cbn [loss fst snd cost] in *.
  - assert (h1 = mh /\ w1 <= wt) as [-> L] by lia. split; [repeat split; lia|].
    intros w' h' S' C. apply Ruled; [exact S'|lia].
  - split; [repeat split; lia|]. intros w' h' S' C. apply Ruled; [exact S'|].
    assert ((wt - 2) * ht <= (w0 - 2) * h0) by (apply Z.mul_le_mono_nonneg; lia). lia.
Qed.

Section Solver.
  Context {A : Type} (solves : network -> size -> A -> Prop) (lengths : Z -> Prop).
  Notation truth := (truthful solves).
  (** A size that is recorded as impossible rules out the smaller sizes that the
      searches look at: they were answered before. *)
  Definition ruled_out (st : store A) : Prop :=
    (forall u w h b, In ((u, w, h), b) (st_exist st) -> lengths u) /\
    forall u w h mh w' h', In ((u, w, h), false) (st_exist st) -> min_height (st_network st) = Some mh ->
      searched Area (st_network st) mh w' h' -> w' <= w -> h' <= h -> ~ feasible solves (st_network st) (u, w', h').
  Lemma ruled_lookup (st : store A) u w h mh : longer_helps solves lengths -> ruled_out st -> lengths u -> min_height (st_network st) = Some mh ->
    searched Area (st_network st) mh w h -> does_balancer_exist st (u, w, h) = Some false -> ~ feasible solves (st_network st) (u, w, h).
  Proof.
    intros Hl [Le R] Lu M Se L F. apply lookup_false in L. destruct L as ([[u0 w0] h0] & If & (W1 & W2 & W3)).
    apply (R u0 w0 h0 mh w h If M Se W2 W3). apply (Hl _ u u0); [exact Lu|apply (Le _ _ _ _ If)|exact W1|exact F].
  Qed.
  Lemma ruled_step o (st : store A) u s sol : longer_helps solves lengths -> good truth st -> ruled_out st -> lengths u -> next_size o st u = Some (Some s) ->
    truth (st_network st) s sol -> ruled_out (clean (add_solution st s sol)).
  Proof.
    intros Hl G R Lu E T. destruct (next_size_asked o st u s E) as (L & mh & w & h & M & -> & Se).
    destruct (next_size_spec o st u mh _ M E) as (w1 & h1 & Ruled & E1 & _ & _). injection E1 as <- <-.
    pose proof (min_height_pos _ _ M) as Hm. pose proof (add_exist st (u, w, h) sol L) as Ex.
    assert (N1 : NoDup (map fst (st_exist (add_solution st (u, w, h) sol)))).
    { rewrite Ex, map_app. cbn [map fst]. apply (Permutation_NoDup (Permutation_cons_append _ _)). constructor; [apply unknown_fresh, L|apply G]. }
    destruct (clean_ok _ N1) as [_ K2 K3 _].
    assert (Old : forall x b, In (x, b) (st_exist (clean (add_solution st (u, w, h) sol))) -> In (x, b) (st_exist st) \/ x = (u, w, h) /\ b = yes sol).
    { intros x b H. assert (H' : In (x, b) (st_exist (add_solution st (u, w, h) sol))) by (destruct b; [apply K2, H|apply K3, H]).
      rewrite Ex in H'. apply in_app_or in H'. destruct H' as [H'|[H'|[]]]; [left; exact H'|right]. injection H' as <- <-. auto. }
    split.
    - intros u0 w0 h0 b H. destruct (Old _ _ H) as [H'|[H' _]]; [apply (proj1 R _ _ _ _ H')|]. injection H' as -> _ _. exact Lu.
    - intros u0 w0 h0 mh0 w' h' H M0 Se' Hw Hh. change (st_network (clean (add_solution st (u, w, h) sol))) with (st_network st) in *.
      destruct (Old _ _ H) as [H'|[H' Y]]; [apply (proj2 R u0 w0 h0 mh0); assumption|]. injection H' as -> -> ->.
      destruct sol as [x|]; [discriminate|]. assert (mh0 = mh) by congruence. subst mh0.
      destruct (Z.eq_dec w' w) as [->|Nw]; [destruct (Z.eq_dec h' h) as [->|Nh]; [exact T|]|].
      + apply (ruled_lookup st u w h' mh Hl R Lu M Se'). destruct Se' as (Q1 & Q2 & Q3). destruct o.
        * destruct Se as (_ & _ & ->). lia.
        * apply Ruled; [exact (conj Q1 (conj Q2 Q3))|]. cbn [cost]. nia.
      + apply (ruled_lookup st u w' h' mh Hl R Lu M Se'). destruct Se' as (Q1 & Q2 & Q3). destruct o.
        * destruct Se as (_ & _ & ->). apply Ruled; [|cbn [cost]; lia]. repeat split; try assumption. lia.
        * apply Ruled; [exact (conj Q1 (conj Q2 Q3))|]. cbn [cost]. nia.
  Qed.
  Lemma built_for_built answer (st : store A) : built_for lengths answer st -> built answer st.
  Proof. induction 1 as [name net|st o u s sol B G Lu E An]; [constructor|]. apply (built_more _ st o u s sol G E An). Qed.
  Lemma built_ruled (st : store A) : longer_helps solves lengths -> built_for lengths truth st -> ruled_out st.
  Proof.
    intros Hl. induction 1 as [name net|st o u s sol B R Lu E An].
    - split; cbn; [intros; contradiction|intros; contradiction].
    - apply (ruled_step o st u s sol Hl (built_good _ _ (built_for_built _ _ B)) R Lu E An).
  Qed.
  Lemma query_optimal o (st : store A) u mh : longer_helps solves lengths -> good truth st -> ruled_out st -> lengths u -> min_height (st_network st) = Some mh ->
    next_size o st u = Some None ->
    exists a, best_current_solution o st u = Some a /\ optimal solves lengths o (st_network st) mh u a.
  Proof.
    intros Hl G R Lu M E. destruct (query_best truth o st u mh G M E) as (u' & w & h & a & Hu & Ha & B & Se & Ruled).
    exists a. split; [exact B|]. exists u', w, h.
    assert (Lu' : lengths u').
    { apply (proj1 R u' w h true). apply (gd_solutions _ _ G). change (u', w, h) with (fst ((u', w, h), a)). apply in_map. exact Ha. }
    split; [exact Lu'|]. split; [exact Hu|]. split; [exact Se|].
    split; [apply (gd_yes _ _ G _ _ Ha)|]. intros u'' w' h' Lu'' Hu' Se' F.
    destruct (Z_lt_le_dec (cost o w' h') (cost o w h)) as [L|L]; [|exact L]. exfalso.
    specialize (Ruled w' h' Se' L). apply (ruled_lookup st u w' h' mh Hl R Lu M); [apply (searched_area o); [apply (min_height_pos _ _ M)|exact Se']|exact Ruled|].
    apply (Hl _ u'' u); assumption.
  Qed.

  (** * Runs *)
  Variables (o : objective) (u : Z).
  Hypothesis helps : longer_helps solves lengths.
  Hypothesis length_u : lengths u.
  Definition task_ok (t : task A) : Prop := (good truth (tk_store t) /\ ruled_out (tk_store t)) /\ next_size o (tk_store t) u = Some (tk_pending t) /\
    exists mh, min_height (st_network (tk_store t)) = Some mh.
  Definition comp_ok (c : computation A) : Prop := Forall task_ok (cp_tasks c).

  Lemma set_nth_length {X} n (x : X) l : length (set_nth n x l) = length l.
  Proof. revert n. induction l as [|y l IH]; intros [|n]; cbn; auto. Qed.
  Lemma set_nth_same {X} n (x : X) l : (n < length l)%nat -> nth_error (set_nth n x l) n = Some x.
  Proof. revert n. induction l as [|y l IH]; intros [|n] H; cbn in *; try lia; [reflexivity|]. apply IH. lia. Qed.
  Lemma set_nth_other {X} n m (x : X) l : n <> m -> nth_error (set_nth n x l) m = nth_error l m.
  Proof. revert n m. induction l as [|y l IH]; intros [|n] [|m] H; cbn; try reflexivity; try congruence. apply IH. congruence. Qed.
  Lemma set_nth_forall {X} (P : X -> Prop) n x l : Forall P l -> P x -> Forall P (set_nth n x l).
  Proof. revert n. induction l as [|y l IH]; intros [|n] H Hx; cbn; inversion H; subst; constructor; auto. Qed.
  Lemma set_nth_map {X Y} (f : X -> Y) n x l : map f (set_nth n x l) = set_nth n (f x) (map f l).
  Proof. revert n. induction l as [|y l IH]; intros [|n]; cbn; try reflexivity. rewrite IH. reflexivity. Qed.

  Definition updated (t : task A) (s : size) (sol : option A) : store A := clean (add_solution (tk_store t) s sol).
  Lemma task_step t s sol : task_ok t -> tk_pending t = Some s -> truth (st_network (tk_store t)) s sol ->
    exists n, resume o u (updated t s sol) = Some {| tk_store := updated t s sol; tk_pending := n |} /\
      task_ok {| tk_store := updated t s sol; tk_pending := n |}.
  Proof.
    intros ((G & Ro) & E & mh & M) P T. rewrite P in E. destruct (next_size_asked o _ u s E) as (L & mh' & w & h & M' & Es & Se).
    destruct (next_size_total o (updated t s sol) u mh M) as [n En]. exists n. unfold resume. rewrite En. split; [reflexivity|].
    split; [|split; [exact En|exists mh; exact M]]. cbn [tk_store]. unfold updated. split; [|apply (ruled_step o _ u s sol helps G Ro length_u E T)]. rewrite M in M'. injection M' as <-.
    apply (good_step truth _ s sol mh w h u G L M Es); [|exact T]. apply (searched_area o); [apply (min_height_pos _ _ M)|exact Se].
  Qed.
  Lemma deliver_ok c i t s sol : comp_ok c -> nth_error (cp_tasks c) i = Some t -> tk_pending t = Some s ->
    truth (st_network (tk_store t)) s sol ->
    exists n, let t' := {| tk_store := updated t s sol; tk_pending := n |} in
      deliver o u c i sol = Some {| cp_tasks := set_nth i t' (cp_tasks c); cp_file := Some (save_data (map tk_store (set_nth i t' (cp_tasks c)))) |} /\
      task_ok t'.
  Proof.
    intros Ok Ei P T. assert (Ot : task_ok t) by (apply nth_error_In in Ei; apply (proj1 (Forall_forall _ _) Ok t Ei)).
    destruct (task_step t s sol Ot P T) as (n & R & Ot'). exists n. split; [|exact Ot'].
    unfold deliver. rewrite Ei. destruct t as [st p]. cbn [tk_store tk_pending] in *. subst p. fold (updated {| tk_store := st; tk_pending := Some s |} s sol) in *.
    cbn [tk_store] in *. change (clean (add_solution st s sol)) with (updated {| tk_store := st; tk_pending := Some s |} s sol).
    rewrite R. cbn [obind]. rewrite !set_nth_map. reflexivity.
  Qed.
  Lemma start_ok stores : (forall st, In st stores -> (good truth st /\ ruled_out st) /\ exists mh, min_height (st_network st) = Some mh) ->
    exists c, start o u stores = Some c /\ comp_ok c /\ map tk_store (cp_tasks c) = stores /\ cp_file c = None.
  Proof.
    intros H. unfold start. assert (K : exists ts, omap (resume o u) stores = Some ts /\ Forall task_ok ts /\ map tk_store ts = stores).
    { induction stores as [|st stores IH]; [exists []; repeat split; constructor|].
      destruct IH as (ts & E & Ok & Mp); [intros x Hx; apply H; right; exact Hx|].
      destruct (H st (or_introl eq_refl)) as [G (mh & M)]. destruct (next_size_total o st u mh M) as [n En].
      exists ({| tk_store := st; tk_pending := n |} :: ts). cbn [omap]. unfold resume at 1. rewrite En. cbn [obind]. rewrite E. cbn [obind].
      split; [reflexivity|]. split; [|cbn; rewrite Mp; reflexivity]. constructor; [|exact Ok]. split; [exact G|]. split; [exact En|exists mh; exact M]. }
    destruct K as (ts & E & Ok & Mp). rewrite E. cbn [obind]. eexists. split; [reflexivity|]. auto.
  Qed.
  Notation nets c := (map (fun t => st_network (tk_store t)) (cp_tasks c)).
  Notation names c := (map (fun t => st_name (tk_store t)) (cp_tasks c)).
  Lemma deliver_keeps c i t s sol c' : comp_ok c -> nth_error (cp_tasks c) i = Some t -> tk_pending t = Some s ->
    truth (st_network (tk_store t)) s sol -> deliver o u c i sol = Some c' ->
    comp_ok c' /\ nets c' = nets c /\ names c' = names c /\ cp_file c' = Some (save_data (map tk_store (cp_tasks c'))).
  Proof.
    intros Ok Ei P T D. destruct (deliver_ok c i t s sol Ok Ei P T) as (n & D' & Ot). rewrite D in D'. injection D' as ->. cbn [cp_tasks cp_file].
    split; [apply set_nth_forall; assumption|]. rewrite !set_nth_map. cbn [tk_store].
    assert (K : forall (X : Type) (f : task A -> X) l j, nth_error l j = Some t -> set_nth j (f t) (map f l) = map f l).
    { intros X f l. induction l as [|y l IH]; intros [|j] H; cbn in *; try discriminate; [congruence|]. rewrite IH; auto. }
    split; [exact (K _ (fun t => st_network (tk_store t)) _ _ Ei)|]. split; [exact (K _ (fun t => st_name (tk_store t)) _ _ Ei)|reflexivity].
  Qed.
  Lemma run_keeps c asked c' : run solves o u c asked c' -> comp_ok c -> comp_ok c' /\ nets c' = nets c /\ names c' = names c.
  Proof.
    induction 1 as [c|c i t s sol c' asked c'' Ei P T D R IH]; intros Ok; [auto|].
    destruct (deliver_keeps c i t s sol c' Ok Ei P T D) as (Ok' & N1 & N2 & _). destruct (IH Ok') as (Ok'' & M1 & M2). split; [exact Ok''|]. split; congruence.
  Qed.

  (** A size that is known stays known. *)
  Definition known (c : computation A) (i : nat) (s : size) : Prop :=
    exists t, nth_error (cp_tasks c) i = Some t /\ does_balancer_exist (tk_store t) s <> None.
  Lemma updated_known t s sol : good truth (tk_store t) -> does_balancer_exist (tk_store t) s = None ->
    does_balancer_exist (updated t s sol) s <> None /\
    forall x v, does_balancer_exist (tk_store t) x = Some v -> does_balancer_exist (updated t s sol) x = Some v.
  Proof.
    intros G L. pose proof (add_exist (tk_store t) s sol L) as Ex.
    assert (N1 : NoDup (map fst (st_exist (add_solution (tk_store t) s sol)))).
    { rewrite Ex, map_app. cbn [map fst]. apply (Permutation_NoDup (Permutation_cons_append _ _)). constructor; [apply unknown_fresh, L|apply G]. }
    assert (C1 : consistent (st_exist (add_solution (tk_store t) s sol))) by (rewrite Ex; apply add_consistent; [apply G|exact L]).
    pose proof (cleaned_lookup _ _ C1 (clean_ok _ N1)) as K. unfold does_balancer_exist, updated in *. split.
    - rewrite K, Ex, app_lookup_new; [discriminate|apply G|exact L].
    - intros x v X. rewrite K, Ex. apply app_lookup; [apply G|exact L|exact X].
  Qed.
  Lemma deliver_known c i t s sol c' : comp_ok c -> nth_error (cp_tasks c) i = Some t -> tk_pending t = Some s ->
    truth (st_network (tk_store t)) s sol -> deliver o u c i sol = Some c' ->
    ~ known c i s /\ known c' i s /\ forall j x, known c j x -> known c' j x.
  Proof.
    intros Ok Ei P T D. assert (Ot : task_ok t) by (apply nth_error_In in Ei; apply (proj1 (Forall_forall _ _) Ok t Ei)).
    destruct Ot as ((G & _) & E & _). rewrite P in E. destruct (next_size_asked o _ u s E) as (L & _).
    destruct (deliver_ok c i t s sol Ok Ei P T) as (n & D' & Ot'). rewrite D in D'. injection D' as ->.
    destruct (updated_known t s sol G L) as [K1 K2]. assert (Hi : (i < length (cp_tasks c))%nat) by (apply nth_error_Some; congruence).
    split; [|split].
    - intros (t1 & E1 & H). assert (t1 = t) by congruence. subst. contradiction.
    - eexists. cbn [cp_tasks]. rewrite set_nth_same by exact Hi. split; [reflexivity|exact K1].
    - intros j x (t1 & E1 & H). unfold known. cbn [cp_tasks]. destruct (Nat.eq_dec i j) as [->|N].
      + assert (t1 = t) by congruence. subst t1. rewrite set_nth_same by exact Hi. eexists. split; [reflexivity|]. cbn [tk_store].
        destruct (does_balancer_exist (tk_store t) x) as [v|] eqn:X; [|contradiction]. rewrite (K2 x v X). discriminate.
      + rewrite set_nth_other by exact N. exists t1. auto.
  Qed.
  Lemma run_fresh c asked c' : run solves o u c asked c' -> comp_ok c ->
    NoDup asked /\ (forall i s, In (i, s) asked -> ~ known c i s).
  Proof.
    induction 1 as [c|c i t s sol c' asked c'' Ei P T D R IH]; intros Ok; [split; [constructor|intros i s []]|].
    destruct (deliver_keeps c i t s sol c' Ok Ei P T D) as (Ok' & _). destruct (deliver_known c i t s sol c' Ok Ei P T D) as (K1 & K2 & K3).
    destruct (IH Ok') as [N F]. split.
    - constructor; [|exact N]. intros H. apply (F i s H K2).
    - intros j x [[= <- <-]|H]; [exact K1|]. intros K. apply (F j x H). apply K3, K.
  Qed.

  (** * Termination *)
  Definition reachable_goal (net : network) (w h : Z) : Prop :=
    exists mh, min_height net = Some mh /\ searched o net mh w h /\ feasible solves net (u, w, h).
  (** All sizes that are no worse than (w, h). *)
  Definition candidates (mh w h : Z) : list size :=
    flat_map (fun x => map (fun y => (u, 3 + Z.of_nat x, mh + Z.of_nat y)) (seq 0 (Z.to_nat (mh + 1)))) (seq 0 (Z.to_nat (w * h + w + 1))).
  Lemma candidates_in mh w h w' h' : 1 <= mh -> searched o (nil : network) mh w' h' -> mh <= h -> 3 <= w -> cost o w' h' <= cost o w h -> In (u, w', h') (candidates mh w h).
  Proof.
    intros Hm (S1 & _ & S3) Hh Hw C. unfold candidates. apply in_flat_map. exists (Z.to_nat (w' - 3)).
    assert (Hb : w' <= w * h + w + 1 /\ mh <= h' <= 2 * mh).
    { destruct o; cbn [cost] in C; [subst h'; nia|]. split; [|lia]. assert ((w' - 2) * 1 <= (w' - 2) * h') by (apply Z.mul_le_mono_nonneg_l; lia). nia. }
    split; [apply in_seq; lia|]. apply in_map_iff. exists (Z.to_nat (h' - mh)). split; [repeat f_equal; lia|]. apply in_seq. lia.
  Qed.
  Definition unknowns (st : store A) (l : list size) : nat :=
    length (filter (fun s => match does_balancer_exist st s with None => true | Some _ => false end) l).
  Lemma asked_candidate (st : store A) s w h mh : good truth st -> ruled_out st -> next_size o st u = Some (Some s) ->
    min_height (st_network st) = Some mh -> searched o (st_network st) mh w h -> feasible solves (st_network st) (u, w, h) -> In s (candidates mh w h).
  Proof.
    intros G Ro E M Se F. destruct (next_size_spec o st u mh (Some s) M E) as (w' & h' & Ruled & -> & L & Se').
    pose proof (min_height_pos _ _ M) as Hm. assert (Z0 : searched o [] mh w' h') by (destruct Se' as (Q1 & Q2 & Q3); repeat split; try assumption; unfold needed in Q2; cbn; lia).
    apply candidates_in; try assumption.
    - destruct Se as (_ & _ & Q). destruct o; lia.
    - apply Se.
    - destruct (Z_lt_le_dec (cost o w h) (cost o w' h')) as [C|C]; [|exact C]. exfalso.
      specialize (Ruled w h Se C). apply (ruled_lookup st u w h mh helps Ro length_u M); [apply (searched_area o); assumption|exact Ruled|exact F].
  Qed.
  Lemma unknowns_less t s sol l : good truth (tk_store t) -> does_balancer_exist (tk_store t) s = None -> In s l ->
    (unknowns (updated t s sol) l < unknowns (tk_store t) l)%nat.
  Proof.
    intros G L H. destruct (updated_known t s sol G L) as [K1 K2].
    assert (Le : forall l, (unknowns (updated t s sol) l <= unknowns (tk_store t) l)%nat).
    { clear l H. induction l as [|x l IH]; unfold unknowns in *; cbn [filter length]; [lia|].
      destruct (does_balancer_exist (tk_store t) x) as [v|] eqn:X; [rewrite (K2 x v X); exact IH|].
      destruct (does_balancer_exist (updated t s sol) x); cbn [length]; lia. }
    induction l as [|x l IH]; [destruct H|]. specialize (Le l). unfold unknowns in *. cbn [filter].
    destruct H as [->|H].
    - rewrite L. destruct (does_balancer_exist (updated t s sol) s) as [v|]; [|contradiction]. cbn [length]. lia.
    - specialize (IH H). destruct (does_balancer_exist (tk_store t) x) as [v|] eqn:X; [rewrite (K2 x v X); exact IH|].
      destruct (does_balancer_exist (updated t s sol) x); cbn [length]; lia.
  Qed.

  (** [bounds] gives each task its candidates. *)
  Fixpoint total (bounds : list (list size)) (ts : list (task A)) : nat :=
    match bounds, ts with
    | b :: bs, t :: ts => unknowns (tk_store t) b + total bs ts
    | _, _ => 0
    end%nat.
  Definition bounded (bounds : list (list size)) (ts : list (task A)) : Prop :=
    Forall2 (fun b t => exists mh w h, b = candidates mh w h /\ min_height (st_network (tk_store t)) = Some mh /\
      searched o (st_network (tk_store t)) mh w h /\ feasible solves (st_network (tk_store t)) (u, w, h)) bounds ts.
  Lemma total_less bounds ts i t s sol n : Forall task_ok ts -> bounded bounds ts -> nth_error ts i = Some t ->
    tk_pending t = Some s ->
    let t' := {| tk_store := updated t s sol; tk_pending := n |} in
    (total bounds (set_nth i t' ts) < total bounds ts)%nat /\ bounded bounds (set_nth i t' ts).
  Proof.
    cbv zeta. revert bounds i. induction ts as [|x ts IH]; intros bounds i Ok B Ei P; [destruct i; discriminate|].
    inversion B as [|b x' bs ts' Hb Bs]; subst. inversion Ok as [|? ? Ok1 Ok2]; subst. destruct i as [|i]; cbn [nth_error set_nth total] in *.
    - injection Ei as ->. destruct Hb as (mh & w & h & -> & M & Se & F). destruct Ok1 as ((G & Ro) & E & _). rewrite P in E.
      destruct (next_size_asked o _ u s E) as (L & _).
      pose proof (unknowns_less t s sol (candidates mh w h) G L (asked_candidate _ s w h mh G Ro E M Se F)) as U. cbn [tk_store].
      split; [lia|]. constructor; [|exact Bs]. exists mh, w, h. auto.
    - destruct (IH bs i Ok2 Bs Ei P) as [H1 H2]. split; [lia|]. constructor; assumption.
  Qed.
  Lemma run_bound c asked c' bounds : run solves o u c asked c' -> comp_ok c -> bounded bounds (cp_tasks c) ->
    (length asked <= total bounds (cp_tasks c))%nat.
  Proof.
    intros R. induction R as [c|c i t s sol c' asked c'' Ei P T D R IH]; intros Ok B; cbn [length]; [lia|].
    destruct (deliver_keeps c i t s sol c' Ok Ei P T D) as (Ok' & _). destruct (deliver_ok c i t s sol Ok Ei P T) as (n & D' & Ot). rewrite D in D'. injection D' as ->.
    destruct (total_less bounds (cp_tasks c) i t s sol n Ok B Ei P) as [H1 H2]. cbn [cp_tasks] in *. specialize (IH Ok' H2). lia.
  Qed.
End Solver.
