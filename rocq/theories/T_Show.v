(** C124: the texts of --show-raw; C125: the profile of clauses. *)
From Coq Require Import String ZArith QArith List Bool Lia Lqa Permutation Sorted.
From Verif Require Import M_Json M_Show Spec_Quad.
Import ListNotations.
Open Scope Z_scope.

(** ** C124 *)
Definition sized (cells : list ((Z * Z) * lines)) : Prop := forall c l, In (c, l) cells -> forall w h, In (w, h) l -> 0 <= w /\ 0 <= h.
Lemma fold_max_le l : forall a, a <= fold_left Z.max l a /\ forall x, In x l -> x <= fold_left Z.max l a.
Proof. induction l as [|b l IH]; intros a; cbn [fold_left]; [split; [lia|intros x []]|]. destruct (IH (Z.max a b)) as [A B]. split; [lia|]. intros x [<-|H]; [lia|exact (B x H)]. Qed.
Lemma fold_max_in l : forall a, fold_left Z.max l a = a \/ In (fold_left Z.max l a) l.
Proof. induction l as [|b l IH]; intros a; cbn [fold_left]; [auto|]. destruct (IH (Z.max a b)) as [E|E]; [|cbn; auto]. rewrite E. destruct (Z.max_spec a b) as [[_ ->]|[_ ->]]; cbn; auto. Qed.
Lemma fold_add l : forall a, fold_left Z.add l a = a + fold_left Z.add l 0.
Proof. induction l as [|b l IH]; intros a; cbn [fold_left]; [lia|]. rewrite (IH (a + b)), (IH (0 + b)). lia. Qed.
Definition height (l : lines) : Z := fold_left Z.add (map snd l) 0.
Lemma height_cons w h l : height ((w, h) :: l) = h + height l.
Proof. unfold height. cbn [map snd fold_left]. rewrite fold_add. lia. Qed.
Lemma largest_spec cells : forall acc m, largest acc cells = Some m ->
  (fst acc <= fst m /\ snd acc <= snd m) /\ (forall c l, In (c, l) cells -> l <> [] /\ (forall w h, In (w, h) l -> w <= fst m) /\ height l <= snd m) /\
  (fst m = fst acc \/ exists c l h, In (c, l) cells /\ In (fst m, h) l) /\ (snd m = snd acc \/ exists c l, In (c, l) cells /\ height l = snd m).
Proof.
  induction cells as [|[c l] cells IH]; intros acc m E; cbn [largest snd] in E.
  - assert (m = acc) by congruence. subst. split; [lia|]. split; [intros ? ? []|]. split; left; reflexivity.
  - destruct l as [|[w h] l]; [discriminate|]. cbn [cell_size obind fst] in E. destruct (IH _ _ E) as ((A1 & A2) & B & C & D). cbn [fst snd] in A1, A2, C, D.
    destruct (fold_max_le (map fst l) w) as [M1 M2]. change (fold_left Z.add (map snd ((w, h) :: l)) 0) with (height ((w, h) :: l)) in *. split; [lia|]. split; [|split].
    + intros c' l' [H|H]; [|exact (B c' l' H)]. assert (l' = (w, h) :: l) by congruence. subst l'. split; [discriminate|]. split; [|lia]. intros w' h' [K|K]; [assert (w' = w) by congruence; lia|].
      assert (w' <= fold_left Z.max (map fst l) w) by (apply M2; apply in_map_iff; exists (w', h'); auto). lia.
    + destruct C as [C|(c' & l' & h' & H1 & H2)]; [|right; exists c', l', h'; split; [right; exact H1|exact H2]]. rewrite C.
      destruct (Z.max_spec (fold_left Z.max (map fst l) w) (fst acc)) as [[_ ->]|[_ ->]]; [left; reflexivity|right]. exists c, ((w, h) :: l).
      destruct (fold_max_in (map fst l) w) as [K|K]; [rewrite K; exists h; split; left; reflexivity|]. apply in_map_iff in K. destruct K as ([a b] & K1 & K2). exists b. split; [left; reflexivity|]. right. cbn [fst] in K1. rewrite <- K1. exact K2.
    + destruct D as [D|(c' & l' & H1 & H2)]; [|right; exists c', l'; split; [right; exact H1|exact H2]]. rewrite D.
      destruct (Z.max_spec (height ((w, h) :: l)) (snd acc)) as [[_ ->]|[_ ->]]; [left; reflexivity|right]. exists c, ((w, h) :: l). split; [left; reflexivity|reflexivity].
Qed.
Lemma inverse_times n : 0 < n -> (1 / inject_Z n * inject_Z n == 1)%Q.
Proof. intros H. rewrite Qmult_comm. apply Qmult_div_r. change 0%Q with (inject_Z 0). rewrite inject_Z_injective. lia. Qed.
Lemma inverse_pos n : 0 < n -> (0 < 1 / inject_Z n)%Q.
Proof. intros H. apply Qlt_shift_div_l; [change 0%Q with (inject_Z 0); rewrite <- Zlt_Qlt; exact H|]. rewrite Qmult_0_l. reflexivity. Qed.
Lemma scale_spec w h : 0 < w -> 0 < h -> let s := text_scale w h in
  (0 < s /\ s * inject_Z w <= 1 /\ s * inject_Z h <= 1)%Q /\ (s * inject_Z w == 1 \/ s * inject_Z h == 1)%Q.
Proof.
  intros Hw Hh. cbv zeta. unfold text_scale. pose proof (inverse_times w Hw). pose proof (inverse_times h Hh). pose proof (inverse_pos w Hw). pose proof (inverse_pos h Hh).
  assert (0 < inject_Z w)%Q by (change 0%Q with (inject_Z 0); rewrite <- Zlt_Qlt; exact Hw). assert (0 < inject_Z h)%Q by (change 0%Q with (inject_Z 0); rewrite <- Zlt_Qlt; exact Hh).
  set (a := (1 / inject_Z w)%Q) in *. set (b := (1 / inject_Z h)%Q) in *. destruct (Qle_bool a b) eqn:E.
  - apply Qle_bool_iff in E. split; [|left; assumption]. split; [assumption|]. split; [lra|]. rewrite <- H0. apply Qmult_le_compat_r; lra.
  - assert (b <= a)%Q. { destruct (Qlt_le_dec a b) as [K|K]; [|exact K]. apply Qlt_le_weak in K. apply Qle_bool_iff in K. congruence. }
    split; [|right; assumption]. split; [assumption|]. split; [|lra]. rewrite <- H. apply Qmult_le_compat_r; lra.
Qed.
Lemma placed s left l : (0 < s)%Q -> (forall w h, In (w, h) l -> 0 <= w /\ 0 <= h) -> forall top r, In r (place_lines s left top l) ->
  (top <= snd (fst r) /\ snd (fst r) <= snd (snd r) /\ snd (snd r) <= top + s * inject_Z (height l))%Q /\
  (fst (fst r) == left)%Q /\ exists w h, In (w, h) l /\ (fst (snd r) == left + s * inject_Z w)%Q /\ (snd (snd r) - snd (fst r) == s * inject_Z h)%Q.
Proof.
  intros Hs. induction l as [|[w h] l IH]; intros N top r H; [destruct H|]. cbn [place_lines In] in H. rewrite height_cons, inject_Z_plus.
  assert (Hh : (0 <= s * inject_Z h)%Q) by (apply Qmult_le_0_compat; [lra|]; change 0%Q with (inject_Z 0); rewrite <- Zle_Qle; exact (proj2 (N w h (or_introl eq_refl)))).
  assert (Ht : (0 <= s * inject_Z (height l))%Q).
  { apply Qmult_le_0_compat; [lra|]. change 0%Q with (inject_Z 0). rewrite <- Zle_Qle. clear -N. induction l as [|[a b] l IH]; [cbn; lia|]. rewrite height_cons. assert (0 <= b) by exact (proj2 (N a b (or_intror (or_introl eq_refl)))). assert (0 <= height l); [|lia]. apply IH. intros x y [K|K]; apply N; [left; exact K|right; right; exact K]. }
  rewrite Qmult_plus_distr_r. destruct H as [<-|H].
  - cbn [fst snd]. split; [lra|]. split; [reflexivity|]. exists w, h. split; [left; reflexivity|]. split; [reflexivity|lra].
  - destruct (IH (fun a b K => N a b (or_intror K)) _ r H) as ((A & B & C) & D & a & b & E & F & G). split; [lra|]. split; [exact D|]. exists a, b. split; [right; exact E|]. split; [exact F|exact G].
Qed.
(** Every line of every text lies in its cell. *)
Theorem C124_fits cells out : sized cells -> place_texts cells = Some out ->
  forall c rs r, In (c, rs) out -> In r rs -> in_block 1 c (fst r) /\ in_block 1 c (snd r).
Proof.
  intros Z0 E c rs r Hc Hr. unfold place_texts in E. destruct (largest (0, 0) cells) as [m|] eqn:El; [|discriminate]. cbn [obind] in E.
  destruct (_ || _) eqn:Ez; [assert (out = []) by congruence; subst; destruct Hc|]. apply orb_false_iff in Ez. destruct Ez as [E1 E2]. apply Z.eqb_neq in E1, E2.
  destruct (largest_spec cells _ _ El) as ((A1 & A2) & B & _ & _). cbn [fst snd] in A1, A2. destruct (scale_spec (fst m) (snd m) ltac:(lia) ltac:(lia)) as ((S1 & S2 & S3) & _). set (s := text_scale (fst m) (snd m)) in *.
  assert (Eo := f_equal (fun o => match o with Some x => x | None => [] end) E). cbn beta iota in Eo. rewrite <- Eo in Hc. apply in_map_iff in Hc. destruct Hc as ([[x y] l] & K & Hl). cbn [fst snd] in K.
  assert (c = (x, y)) by congruence. subst c. assert (rs = place_lines s (inject_Z x) (inject_Z y) l) by congruence. subst rs. destruct (B _ _ Hl) as (_ & Bw & Bh).
  destruct (placed s (inject_Z x) l S1 (Z0 _ _ Hl) _ r Hr) as ((P1 & P2 & P3) & P4 & w & h & P5 & P6 & _).
  assert (W : (0 <= s * inject_Z w /\ s * inject_Z w <= 1)%Q).
  { pose proof (Bw w h P5) as Q1. destruct (Z0 _ _ Hl w h P5) as [Q2 _]. rewrite Zle_Qle in Q1, Q2. change (inject_Z 0) with 0%Q in Q2. split; [apply Qmult_le_0_compat; lra|]. apply Qle_trans with (s * inject_Z (fst m))%Q; [|exact S2]. rewrite !(Qmult_comm s). apply Qmult_le_compat_r; lra. }
  assert (H : (s * inject_Z (height l) <= 1)%Q).
  { apply Qle_trans with (s * inject_Z (snd m))%Q; [|exact S3]. rewrite Zle_Qle in Bh. rewrite !(Qmult_comm s). apply Qmult_le_compat_r; lra. }
  unfold in_block, between. cbn [fst snd]. rewrite !inject_Z_plus. change (inject_Z 1) with 1%Q. split; split; split; lra.
Qed.
(** The lines of a cell are below each other, without overlap, in order. *)
Theorem C124_order cells out c rs : place_texts cells = Some out -> In (c, rs) out ->
  forall k r r', nth_error rs k = Some r -> nth_error rs (S k) = Some r' -> (snd (fst r') == snd (snd r))%Q.
Proof.
  intros E Hc. unfold place_texts in E. destruct (largest (0, 0) cells) as [m|]; [|discriminate]. cbn [obind] in E. destruct (_ || _); [assert (out = []) by congruence; subst; destruct Hc|].
  assert (Eo := f_equal (fun o => match o with Some x => x | None => [] end) E). cbn beta iota in Eo. rewrite <- Eo in Hc. apply in_map_iff in Hc. destruct Hc as ([[x y] l] & K & _). cbn [fst snd] in K.
  assert (rs = place_lines (text_scale (fst m) (snd m)) (inject_Z x) (inject_Z y) l) by congruence. subst rs. generalize (inject_Z y) as top. clear.
  induction l as [|[w h] l IH]; intros top k r r' A B; cbn [place_lines] in A, B; [destruct k; discriminate|]. destruct k as [|k]; cbn [nth_error] in A, B.
  - destruct l as [|[w' h'] l]; [discriminate|]. cbn [place_lines nth_error] in B. assert (Q1 := f_equal (fun o => match o with Some x => x | None => r end) A). assert (Q2 := f_equal (fun o => match o with Some x => x | None => r' end) B). cbn beta iota in Q1, Q2. rewrite <- Q1, <- Q2. cbn [fst snd]. reflexivity.
  - exact (IH _ k r r' A B).
Qed.
(** They are as large as they can be: one scale for all, with which a line is as
    wide as its cell or the lines of a cell are together as high. *)
Theorem C124_scale cells out : sized cells -> place_texts cells = Some out -> out <> [] ->
  exists s, (0 < s)%Q /\ map fst out = map fst cells /\
    (forall k c l rs, nth_error cells k = Some (c, l) -> nth_error out k = Some (c, rs) -> Forall2 (fun wh r => fst (snd r) - fst (fst r) == s * inject_Z (fst wh) /\ snd (snd r) - snd (fst r) == s * inject_Z (snd wh))%Q l rs) /\
    ((exists c l w h, In (c, l) cells /\ In (w, h) l /\ s * inject_Z w == 1)%Q \/ (exists c l, In (c, l) cells /\ s * inject_Z ((fold_right Z.add 0 (map snd l))%Z) == 1)%Q).
Proof.
  intros Z0 E NE. unfold place_texts in E. destruct (largest (0, 0) cells) as [m|] eqn:El; [|discriminate]. cbn [obind] in E. destruct (_ || _) eqn:Ez; [congruence|]. apply orb_false_iff in Ez. destruct Ez as [E1 E2]. apply Z.eqb_neq in E1, E2.
  destruct (largest_spec cells _ _ El) as ((A1 & A2) & _ & C & D). cbn [fst snd] in *. destruct (scale_spec (fst m) (snd m) ltac:(lia) ltac:(lia)) as ((S1 & _ & _) & S4). set (s := text_scale (fst m) (snd m)) in *. exists s. split; [exact S1|].
  assert (Eo := f_equal (fun o => match o with Some x => x | None => [] end) E). cbn beta iota in Eo. rewrite <- Eo. split; [rewrite map_map; apply map_ext; reflexivity|]. split.
  - intros k c l rs H1 H2. rewrite (map_nth_error _ _ _ H1) in H2. cbn [fst snd] in H2. assert (rs = place_lines s (inject_Z (fst c)) (inject_Z (snd c)) l) by congruence. subst rs. generalize (inject_Z (snd c)) as top, (inject_Z (fst c)) as left. clear.
    induction l as [|[w h] l IH]; intros top left; cbn [place_lines]; constructor; [|apply IH]. cbn [fst snd]. split; lra.
  - destruct S4 as [S4|S4]; [left|right].
    + destruct C as [C|(c & l & h & H1 & H2)]; [congruence|]. exists c, l, (fst m), h. auto.
    + destruct D as [D|(c & l & H1 & H2)]; [congruence|]. exists c, l. split; [exact H1|]. assert (K : height l = fold_right Z.add 0 (map snd l)); [|rewrite <- K, H2; exact S4].
      clear. induction l as [|[w h] l IH]; [reflexivity|]. rewrite height_cons, IH. reflexivity.
Qed.

(** With a line in each cell the texts are drawn, unless nothing has a width or
    nothing has a height. *)
Theorem C124_drawn cells : sized cells -> (forall c l, In (c, l) cells -> l <> []) ->
  exists out, place_texts cells = Some out /\
    ((exists c l w h, In (c, l) cells /\ In (w, h) l /\ 0 < w) -> (exists c l w h, In (c, l) cells /\ In (w, h) l /\ 0 < h) -> map fst out = map fst cells).
Proof.
  intros Z0 NE. assert (L : forall acc, exists m, largest acc cells = Some m).
  { clear Z0. induction cells as [|[c l] cells IH]; intros acc; [exists acc; reflexivity|]. cbn [largest snd]. destruct l as [|a l]; [exfalso; exact (NE c [] (or_introl eq_refl) eq_refl)|]. cbn [cell_size obind]. apply IH. intros c' l' H. exact (NE c' l' (or_intror H)). }
  destruct (L (0, 0)) as [m El]. unfold place_texts. rewrite El. cbn [obind]. destruct (largest_spec cells _ _ El) as (_ & B & _ & _). destruct (_ || _) eqn:Ez; (eexists; split; [reflexivity|]); intros (c & l & w & h & H1 & H2 & H3) (c' & l' & w' & h' & K1 & K2 & K3); [exfalso|rewrite map_map; apply map_ext; reflexivity].
  destruct (B _ _ H1) as (_ & Bw & _). specialize (Bw _ _ H2). destruct (B _ _ K1) as (_ & _ & Bh). apply orb_true_iff in Ez. destruct Ez as [Ez|Ez]; apply Z.eqb_eq in Ez; [lia|].
  assert (h' <= height l'); [|lia]. specialize (Z0 _ _ K1). clear -K2 Z0. induction l' as [|[a b] l IH]; [destruct K2|]. rewrite height_cons. destruct K2 as [K|K].
  - assert (b = h') by congruence. assert (0 <= height l); [|lia]. clear -Z0. revert Z0. induction l as [|[x y] l IH]; intros Z0; [cbn; lia|]. rewrite height_cons. pose proof (proj2 (Z0 x y (or_intror (or_introl eq_refl)))). assert (0 <= height l); [|lia]. apply IH. intros u v [E|E]; apply Z0; [left; exact E|right; right; exact E].
  - pose proof (proj2 (Z0 a b (or_introl eq_refl))). specialize (IH (fun u v E => Z0 u v (or_intror E)) K). lia.
Qed.

(** ** C125 *)
Section Trace.
  Variables (stack value : Type) (same : stack -> stack -> bool).
  Hypothesis same_eq : forall a b, same a b = true <-> a = b.
  Notation growth := (growth stack value).
  Notation run gs := (fold_left (grow stack value same) gs ([], [])).
  (** The elements that a stack of calls added. *)
  Definition added_by (s : stack) (g : growth) : list value :=
    match g with Extend _ _ t l => if same s t then l else [] | Append _ _ t v => if same s t then [v] else [] end.
  Definition added (g : growth) : list value := match g with Extend _ _ _ l => l | Append _ _ _ v => [v] end.
  Definition adder (g : growth) : stack := match g with Extend _ _ s _ => s | Append _ _ s _ => s end.
  Fixpoint find_count (s : stack) (t : list (stack * Z)) : Z := match t with [] => 0 | (k, n) :: r => if same s k then n else find_count s r end.
  Definition total (t : list (stack * Z)) : Z := fold_right Z.add 0 (map snd t).
  Lemma same_refl a : same a a = true.
  Proof. apply same_eq. reflexivity. Qed.
  Lemma count_find s n t k : find_count k (count_in stack same s n t) = find_count k t + (if same k s then n else 0).
  Proof.
    induction t as [|[a m] t IH]; cbn [count_in find_count]; [destruct (same k s); lia|]. destruct (same s a) eqn:E; cbn [find_count].
    - apply same_eq in E. subst a. destruct (same k s); lia.
    - destruct (same k a) eqn:Ek; [|exact IH]. apply same_eq in Ek. subst k. destruct (same a s) eqn:Es; [|lia]. apply same_eq in Es. subst. rewrite same_refl in E. discriminate.
  Qed.
  Lemma count_total s n t : total (count_in stack same s n t) = total t + n.
  Proof. induction t as [|[a m] t IH]; cbn [count_in]; [cbn; lia|]. destruct (same s a); unfold total in *; cbn [map snd fold_right] in *; lia. Qed.
  Lemma count_keys s n t k : In k (map fst (count_in stack same s n t)) <-> In k (map fst t) \/ k = s.
  Proof.
    induction t as [|[a m] t IH]; cbn [count_in]; [cbn; intuition|]. destruct (same s a) eqn:E; cbn [map fst In] in *; [apply same_eq in E; subst; intuition|]. rewrite IH. tauto.
  Qed.
  Lemma count_nodup s n t : NoDup (map fst t) -> NoDup (map fst (count_in stack same s n t)).
  Proof.
    induction t as [|[a m] t IH]; cbn [count_in map fst]; intros N; [constructor; [intros []|constructor]|]. destruct (same s a) eqn:E; [exact N|]. apply NoDup_cons_iff in N. destruct N as [N1 N2]. cbn [map fst]. constructor; [|exact (IH N2)].
    intros H. apply count_keys in H. destruct H as [H|H]; [contradiction|]. subst. rewrite same_refl in E. discriminate.
  Qed.
  Lemma grow_counts g st : snd (grow stack value same st g) = count_in stack same (adder g) (Z.of_nat (List.length (added g))) (snd st) /\ fst (grow stack value same st g) = (fst st ++ added g)%list.
  Proof. destruct g; split; reflexivity. Qed.
  Lemma run_spec gs : forall st, let r := fold_left (grow stack value same) gs st in
    fst r = (fst st ++ flat_map added gs)%list /\ total (snd r) = total (snd st) + Z.of_nat (List.length (flat_map added gs)) /\
    (forall k, find_count k (snd r) = find_count k (snd st) + Z.of_nat (List.length (flat_map (added_by k) gs))) /\
    (forall k, In k (map fst (snd r)) <-> In k (map fst (snd st)) \/ In k (map adder gs)) /\ (NoDup (map fst (snd st)) -> NoDup (map fst (snd r))).
  Proof.
    induction gs as [|g gs IH]; intros st; cbn [fold_left flat_map map]; cbv zeta in *.
    - cbn [flat_map List.length Z.of_nat map In]. rewrite List.app_nil_r. split; [reflexivity|]. split; [lia|]. split; [intros k; cbn; lia|]. split; [intros k; cbn; tauto|auto].
    - destruct (IH (grow stack value same st g)) as (A & B & C & D & N). destruct (grow_counts g st) as [G1 G2]. rewrite G1, G2 in *. rewrite count_total in B. split; [rewrite A, <- List.app_assoc; reflexivity|]. split; [rewrite app_length; lia|]. split; [|split].
      + intros k. rewrite C, count_find, app_length. assert (K : Z.of_nat (List.length (added_by k g)) = if same k (adder g) then Z.of_nat (List.length (added g)) else 0) by (destruct g; cbn; destruct (same k s); reflexivity). lia.
      + intros k. rewrite D, count_keys. cbn [In]. intuition.
      + intros H. apply N. apply count_nodup. exact H.
  Qed.
  (** The list holds what a list would. *)
  Theorem C125_list gs : fst (run gs) = flat_map added gs.
  Proof. exact (proj1 (run_spec gs ([], []))). Qed.
  Lemma insert_perm x l : Permutation (insert stack x l) (x :: l).
  Proof. induction l as [|y l IH]; [reflexivity|]. cbn [insert]. destruct (snd y <? snd x); [reflexivity|]. rewrite IH. apply perm_swap. Qed.
  Lemma by_count_perm l : Permutation (by_count stack l) l.
  Proof.
    unfold by_count. assert (G : forall l a, Permutation (fold_left (fun a x => insert stack x a) l a) (l ++ a)); [|rewrite (G l []), List.app_nil_r; reflexivity].
    induction l0 as [|x l0 IH]; intros a; [reflexivity|]. cbn [fold_left app]. rewrite IH, insert_perm. symmetry. apply Permutation_middle.
  Qed.
  Lemma by_count_sorted l : StronglySorted (fun a b => snd b <= snd a) (by_count stack l).
  Proof.
    unfold by_count. assert (G : forall l a, StronglySorted (fun a b : stack * Z => snd b <= snd a) a -> StronglySorted (fun a b => snd b <= snd a) (fold_left (fun a x => insert stack x a) l a)); [|apply G; constructor].
    induction l0 as [|x l0 IH]; intros a Sa; [exact Sa|]. cbn [fold_left]. apply IH. clear -Sa. induction Sa as [|y a Sa IH F]; [constructor; constructor|]. cbn [insert]. destruct (Z.ltb_spec (snd y) (snd x)).
    - constructor; [constructor; assumption|]. constructor; [lia|]. rewrite Forall_forall in *. intros z Hz. specialize (F z Hz). lia.
    - constructor; [exact IH|]. apply Forall_forall. intros z Hz. apply (Permutation_in _ (insert_perm x a)) in Hz. destruct Hz as [<-|Hz]; [lia|]. rewrite Forall_forall in F. exact (F z Hz).
  Qed.
  (** The profile has each stack that added something, or nothing at all, once, with
      the number of the elements it added, largest first; the numbers sum up to the
      length of the list. *)
  Theorem C125_profile gs out : profile stack (snd (run gs)) = Some out ->
    NoDup (map fst out) /\ (forall s, In s (map fst out) <-> In s (map adder gs)) /\
    (forall s n, In (s, n) out -> n = Z.of_nat (List.length (flat_map (added_by s) gs))) /\
    StronglySorted (fun a b => snd b <= snd a) out /\ fold_right Z.add 0 (map snd out) = Z.of_nat (List.length (fst (run gs))).
  Proof.
    destruct (run_spec gs ([], [])) as (A & B & C & D & N). cbv zeta in *. unfold profile. destruct (snd (run gs)) as [|x t] eqn:E; [discriminate|]. intros H. assert (out = by_count stack (x :: t)) by congruence. subst out. clear H. rewrite <- E in *. clear E x t. set (t := snd (run gs)) in *.
    pose proof (by_count_perm t) as P. assert (Pk := Permutation_map fst P). split; [|split; [|split; [|split]]].
    - apply (Permutation_NoDup (Permutation_sym Pk)). apply N. constructor.
    - intros s. split; intros H.
      + apply (Permutation_in _ Pk) in H. apply D in H. destruct H as [[]|H]. exact H.
      + apply (Permutation_in _ (Permutation_sym Pk)). apply D. right. exact H.
    - intros s n H. apply (Permutation_in _ P) in H. specialize (C s). cbn [snd find_count] in C. rewrite Z.add_0_l in C. rewrite <- C. assert (Nt : NoDup (map fst t)) by (apply N; constructor). clear -H Nt same_eq.
      induction t as [|[k m] t IH]; [destruct H|]. cbn [find_count map fst] in *. apply NoDup_cons_iff in Nt. destruct Nt as [N1 N2]. destruct H as [H|H].
      + assert (k = s /\ m = n) as [-> ->] by (split; congruence). rewrite same_refl. reflexivity.
      + destruct (same s k) eqn:Es; [|exact (IH H N2)]. apply same_eq in Es. subst k. exfalso. apply N1. apply in_map_iff. exists (s, n). auto.
    - apply by_count_sorted.
    - assert (T : forall l l', Permutation l l' -> fold_right Z.add 0 l = fold_right Z.add 0 l') by (clear; induction 1; cbn; lia). rewrite (T _ _ (Permutation_map snd P)). fold (total t). rewrite B, A. cbn. lia.
  Qed.
End Trace.

Example C124_met : let cells := [((0, 0), [(10, 5); (4, 5)]); ((1, 0), [(8, 5)])] in sized cells /\ exists out, place_texts cells = Some out /\ out <> [].
Proof. split; [|eexists; split; [reflexivity|discriminate]]. intros c l H w h K. cbn in H. destruct H as [H|[H|[]]]; assert (E := f_equal snd H); cbn [snd] in E; subst l; cbn in K; intuition (try congruence); repeat match goal with H : (_, _) = _ |- _ => injection H as <- <- end; lia. Qed.
Example C125_met : profile string (snd (fold_left (grow string Z String.eqb) [Append string Z "a" 1; Extend string Z "b" [2; 3]; Extend string Z "c" []; Append string Z "b" 4]%string ([], []))) =
  Some [("b", 3); ("a", 1); ("c", 0)]%string.
Proof. reflexivity. Qed.

Print Assumptions C124_fits.
Print Assumptions C124_order.
Print Assumptions C124_scale.
Print Assumptions C124_drawn.
Print Assumptions C125_list.
Print Assumptions C125_profile.
