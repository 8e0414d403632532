(** Proofs about the window of the renderer. *)
From Coq Require Import ZArith List Bool Lia.
From Verif Require Import M_Viewer.
Import ListNotations.
Open Scope Z_scope.

Section Viewer.
  Variable layout : Type.
  Variable length_of : layout -> Z.
  Hypothesis pos : forall l, 0 < length_of l.
  Variable export_all : bool.
  (** All lines of the input. *)
  Variable all : list layout.
  Notation state := (state layout).
  Notation round := (round layout length_of export_all).
  Notation run := (run layout length_of export_all).

  Definition pictures (l : layout) : list (layout * Z) := map (fun a => (l, a)) (range (length_of l)).
  Definition good (o : output layout) : Prop :=
    match o with
    | Shown _ (l, a) => In l all /\ 0 <= a < length_of l
    | Saved _ k ps => 0 <= k /\ exists l, nth_error all (Z.to_nat k) = Some l /\ ps = pictures l
    | Blueprint _ l => In l all
    end.
  Definition coherent (s : state) : Prop := forall a p, buffer layout a (framebuffers _ s) = Some p ->
    exists l, current _ s = Some l /\ p = (l, a) /\ 0 <= a < length_of l.
  Definition inv (s : state) : Prop :=
    0 <= index _ s < Z.of_nat (length (solutions _ s)) /\ (solutions _ s ++ input _ s)%list = all /\
    (input_closed _ s = true -> input _ s = []) /\ coherent s /\ Forall good (log _ s).

  Lemma read_lines_spec i : forall input solutions closed, (closed = true -> input = []) ->
    forall sols inp cl, read_lines layout i solutions input closed = (sols, inp, cl) ->
    (sols ++ inp = solutions ++ input)%list /\ (length solutions <= length sols)%nat /\ (cl = true -> inp = []) /\
    (i < Z.of_nat (length sols) \/ inp = []) /\
    (length sols = length solutions \/ Z.of_nat (length sols) <= i + 1).
  Proof.
    induction input as [|l r IH]; intros solutions closed Hc sols inp cl; cbn [read_lines].
    - destruct (negb closed && (Z.of_nat (length solutions) <=? i)) eqn:E; intros [= <- <- <-]; repeat split; auto; try lia.
    - destruct closed; [discriminate (Hc eq_refl)|]. cbn [negb andb]. destruct (Z.leb_spec (Z.of_nat (length solutions)) i) as [L|L].
      + intros E. destruct (IH (solutions ++ [l])%list false (fun X => match Bool.diff_false_true X with end) _ _ _ E) as (A & B & C & D & F). rewrite app_length in B, F. cbn in B, F. rewrite <- app_assoc in A. repeat split; auto; try lia.
      + intros [= <- <- <-]. repeat split; auto; lia.
  Qed.
  Lemma nth_prefix {A} (l m : list A) i x : nth_error l i = Some x -> nth_error (l ++ m) i = Some x.
  Proof. intros H. rewrite nth_error_app1; [exact H|]. apply nth_error_Some. congruence. Qed.
  Lemma current_some s : inv s -> exists l, current _ s = Some l /\ nth_error all (Z.to_nat (index _ s)) = Some l.
  Proof.
    intros (I & A & _). unfold current. destruct (nth_error (solutions _ s) (Z.to_nat (index _ s))) as [l|] eqn:E.
    - exists l. split; [reflexivity|]. rewrite <- A. apply nth_prefix. exact E.
    - apply nth_error_None in E. lia.
  Qed.
  Lemma increment_inv k s : inv s -> inv (increment_solution _ k s).
  Proof.
    intros (I & A & C & F & G). unfold increment_solution. destruct (read_lines layout (index _ s + k) (solutions _ s) (input _ s) (input_closed _ s)) as [[sols inp] cl] eqn:E.
    destruct (read_lines_spec _ _ _ _ C _ _ _ E) as (R1 & R2 & R3 & R4 & R5). unfold inv, coherent. cbn. repeat split; auto.
    - apply Z.mod_pos_bound. lia.
    - apply Z.mod_pos_bound. lia.
    - congruence.
    - intros a p X. discriminate.
  Qed.
  (** The number that the key i leads to, and the key k. *)
  Lemma increment_next s : inv s -> index _ (increment_solution _ 1 s) = if index _ s + 1 <? Z.of_nat (length all) then index _ s + 1 else 0.
  Proof.
    intros (I & A & C & _). unfold increment_solution. destruct (read_lines layout (index _ s + 1) (solutions _ s) (input _ s) (input_closed _ s)) as [[sols inp] cl] eqn:E.
    destruct (read_lines_spec _ _ _ _ C _ _ _ E) as (R1 & R2 & R3 & R4 & R5). cbn. assert (L : length all = (length sols + length inp)%nat) by (rewrite <- A, <- R1, app_length; reflexivity).
    destruct R4 as [R4| ->].
    - rewrite Z.mod_small by lia. destruct (Z.ltb_spec (index _ s + 1) (Z.of_nat (length all))); lia.
    - cbn in L. destruct (Z.ltb_spec (index _ s + 1) (Z.of_nat (length all))); [apply Z.mod_small; lia|]. replace (index _ s + 1) with (Z.of_nat (length sols)) by lia. apply Z_mod_same_full.
  Qed.
  Lemma increment_prev s : inv s -> index _ (increment_solution _ (-1) s) = (if index _ s =? 0 then Z.of_nat (length (solutions _ s)) - 1 else index _ s - 1) /\ solutions _ (increment_solution _ (-1) s) = solutions _ s.
  Proof.
    intros (I & A & C & _). unfold increment_solution. destruct (read_lines layout (index _ s + -1) (solutions _ s) (input _ s) (input_closed _ s)) as [[sols inp] cl] eqn:E.
    assert (S : sols = solutions _ s).
    { revert E. destruct (input _ s); cbn [read_lines]; (destruct (Z.leb_spec (Z.of_nat (length (solutions _ s))) (index _ s + -1)); [lia|]); rewrite andb_false_r; intros [= <- _ _]; reflexivity. }
    subst sols. cbn. split; [|reflexivity]. destruct (Z.eqb_spec (index _ s) 0) as [->|N].
    - cbn. symmetry. apply (Z.mod_unique_pos _ _ (-1)); lia.
    - rewrite Z.mod_small by lia. lia.
  Qed.

  Lemma good_app l o : Forall good l -> good o -> Forall good (l ++ [o]).
  Proof. intros H K. apply Forall_app. split; [exact H|]. constructor; [exact K|constructor]. Qed.
  Lemma handle_inv e s : inv s -> exists s', handle _ export_all e s = Some s' /\ inv s'.
  Proof.
    intros H. unfold handle. destruct e; try (destruct export_all; [exists s; split; [reflexivity|exact H]|]).
    - eexists. split; [reflexivity|]. exact H.
    - eexists. split; [reflexivity|]. apply increment_inv. exact H.
    - eexists. split; [reflexivity|]. apply increment_inv. exact H.
    - eexists. split; [reflexivity|]. exact H.
    - destruct (current_some s H) as (l & E & N). rewrite E. eexists. split; [reflexivity|]. destruct H as (I & A & C & F & G). repeat split; try assumption; try apply I. apply good_app; [exact G|]. cbn. apply nth_error_In with (Z.to_nat (index _ s)). exact N.
  Qed.
  Lemma handle_all_inv es : forall s, inv s -> exists s', handle_all _ export_all es s = Some s' /\ inv s'.
  Proof. induction es as [|e es IH]; intros s H; [exists s; split; [reflexivity|exact H]|]. cbn. destruct (handle_inv e s H) as (s1 & -> & H1). apply IH. exact H1. Qed.

  Lemma buffers_spec l fb : (forall a p, buffer layout a fb = Some p -> p = (l, a)) -> forall is_ ps, buffers _ is_ fb = Some ps -> ps = map (fun a => (l, a)) is_.
  Proof.
    intros C. induction is_ as [|i r IH]; intros ps; cbn; [intros [= <-]; reflexivity|]. destruct (buffer layout i fb) as [p|] eqn:B; [|discriminate]. destruct (buffers _ r fb) as [q|] eqn:Q; [|discriminate]. intros [= <-]. rewrite (C i p B), (IH q eq_refl). reflexivity.
  Qed.
  Lemma buffers_all fb is_ : (forall i, In i is_ -> buffer layout i fb <> None) -> exists ps, buffers _ is_ fb = Some ps.
  Proof.
    induction is_ as [|i r IH]; intros H; [exists []; reflexivity|]. cbn. destruct IH as (ps & ->); [intros j J; apply H; right; exact J|]. destruct (buffer layout i fb) eqn:B; [eexists; reflexivity|]. destruct (H i (or_introl eq_refl) B).
  Qed.
  Lemma range_in n i : In i (range n) <-> 0 <= i < n.
  Proof.
    unfold range. rewrite in_map_iff. split; [intros (k & <- & I); apply in_seq in I; lia|]. intros H. exists (Z.to_nat i). split; [lia|]. apply in_seq. lia.
  Qed.

  (** The state of a round before saving. *)
  Definition drawn (l : layout) (s : state) : state :=
    let a := (t _ s / 2) mod length_of l in
    let s := match buffer layout a (framebuffers _ s) with None => keep _ a (l, a) s | Some _ => s end in
    write _ (Shown _ (l, a)) s.
  Definition saving (l : layout) (s : state) : state :=
    if waiting_to_save _ s || export_all then
      match buffers _ (range (length_of l)) (framebuffers _ s) with
      | Some ps =>
          let s := write _ (Saved _ (index _ s) ps) (set_waiting _ false s) in
          if export_all then
            let s := increment_solution _ 1 s in
            if index _ s =? 0 then set_running _ false s else s
          else s
      | None => s
      end
    else s.
  Lemma drawn_inv l s : inv s -> current _ s = Some l -> inv (drawn l s) /\ current _ (drawn l s) = Some l /\
    buffer layout ((t _ s / 2) mod length_of l) (framebuffers _ (drawn l s)) = Some (l, (t _ s / 2) mod length_of l) /\
    (forall a, buffer layout a (framebuffers _ s) <> None -> buffer layout a (framebuffers _ (drawn l s)) <> None).
  Proof.
    intros (I & A & C & F & G) E. set (a := (t _ s / 2) mod length_of l). assert (Ba : 0 <= a < length_of l) by (apply Z.mod_pos_bound; apply pos).
    assert (Il : In l all). { rewrite <- A. apply in_or_app. left. apply nth_error_In with (Z.to_nat (index _ s)). exact E. }
    unfold drawn. fold a. destruct (buffer layout a (framebuffers _ s)) as [p|] eqn:B.
    - split; [|split; [exact E|split]].
      + unfold inv, coherent. cbn. repeat split; auto; try lia. apply good_app; [exact G|]. cbn. auto.
      + cbn. destruct (F a p B) as (l' & E' & -> & _). rewrite E in E'. injection E' as <-. exact B.
      + intros b. cbn. auto.
    - split; [|split; [exact E|split]].
      + unfold inv, coherent. cbn [write keep framebuffers index solutions input input_closed log current buffer]. split; [lia|]. split; [exact A|]. split; [exact C|]. split.
        * intros b p. destruct (Z.eqb_spec b a) as [->|N]; [intros [= <-]; exists l; auto|]. intros X. destruct (F b p X) as (l' & E' & -> & Bb). exists l'. auto.
        * apply good_app; [exact G|]. cbn. auto.
      + cbn. rewrite Z.eqb_refl. reflexivity.
      + intros b X. cbn. destruct (b =? a); [discriminate|exact X].
  Qed.
  Lemma round_spec es s s1 l : handle_all _ export_all es s = Some s1 -> inv s1 -> current _ s1 = Some l ->
    round es s = Some (tick _ (saving l (drawn l s1))).
  Proof.
    intros H I E. unfold M_Viewer.round. rewrite H, E. destruct (drawn_inv l s1 I E) as (_ & _ & B & _). unfold drawn in *. cbn zeta in *. destruct (buffer layout ((t _ s1 / 2) mod length_of l) (framebuffers _ s1)) as [p|] eqn:K.
    - cbn in B. rewrite K in *. injection B as ->. reflexivity.
    - cbn in B |- *. rewrite Z.eqb_refl in *. reflexivity.
  Qed.
  Lemma saving_inv l s : inv s -> current _ s = Some l -> inv (saving l s).
  Proof.
    intros H E. unfold saving. destruct (waiting_to_save _ s || export_all); [|exact H]. destruct (buffers _ (range (length_of l)) (framebuffers _ s)) as [ps|] eqn:B; [|exact H].
    assert (W : inv (write _ (Saved _ (index _ s) ps) (set_waiting _ false s))).
    { destruct (current_some s H) as (l' & E' & N). rewrite E in E'. injection E' as <-. destruct H as (I & A & C & F & G). unfold inv, coherent. cbn. repeat split; auto; try lia. apply good_app; [exact G|]. cbn. split; [lia|]. exists l. split; [exact N|]. apply (buffers_spec l (framebuffers _ s)); [|exact B]. intros a p X. destruct (F a p X) as (l'' & E'' & -> & _). congruence. }
    destruct export_all; [|exact W]. pose proof (increment_inv 1 _ W) as W'. cbn zeta. destruct (index _ _ =? 0); [|exact W']. exact W'.
  Qed.
  Lemma round_inv es s : inv s -> exists s', round es s = Some s' /\ inv s'.
  Proof.
    intros H. destruct (handle_all_inv es s H) as (s1 & E1 & H1). destruct (current_some s1 H1) as (l & E & _). rewrite (round_spec es s s1 l E1 H1 E). eexists. split; [reflexivity|]. destruct (drawn_inv l s1 H1 E) as (D & Ed & _). exact (saving_inv l _ D Ed).
  Qed.
  Lemma run_inv h : forall s, inv s -> exists s', run h s = Some s' /\ inv s'.
  Proof.
    induction h as [|es h IH]; intros s H; [exists s; split; [reflexivity|exact H]|]. cbn. destruct (running _ s); [|exists s; split; [reflexivity|exact H]]. destruct (round_inv es s H) as (s' & -> & H'). apply IH. exact H'.
  Qed.
End Viewer.
