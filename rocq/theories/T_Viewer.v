(** Property theorems C108: the window of the renderer. *)
From Coq Require Import ZArith List Bool Lia.
From Verif Require Import M_Viewer Spec_Viewer P_Viewer P_Viewer2.
Import ListNotations.
Open Scope Z_scope.

Section Viewer.
  (** A layout has at least one picture. *)
  Variable layout : Type.
  Variable length_of : layout -> Z.
  Hypothesis pos : forall l, 0 < length_of l.
  Notation run := (run layout length_of).
  Notation round := (round layout length_of).

  Lemma video_pictures l : pictures layout length_of l = video layout length_of l.
  Proof. unfold pictures, video, range. rewrite map_map. reflexivity. Qed.
  Lemma start_inv first rest : inv layout length_of (first :: rest) (start layout first rest).
  Proof. unfold inv, coherent. cbn. repeat split; auto; try lia; intros; discriminate. Qed.
  Lemma numbered_videos_eq ls : forall i, numbered layout length_of (Z.of_nat i) ls = combine (map Z.of_nat (seq i (length ls))) (map (video layout length_of) ls).
  Proof. induction ls as [|l ls IH]; intros i; [reflexivity|]. cbn. rewrite video_pictures. f_equal. replace (Z.of_nat i + 1) with (Z.of_nat (S i)) by lia. apply IH. Qed.

  (** Whatever keys are pressed, no key or index is missing; every picture shown is
      one of a layout of the input; every video saved has the pictures of one layout,
      all of them and in order, and the number of that layout for a name. *)
  Theorem C108_history export_all first rest history : exists s, run export_all history (start layout first rest) = Some s /\
    forall o, In o (log layout s) ->
      match o with
      | Shown _ (l, a) => In l (first :: rest) /\ 0 <= a < length_of l
      | Saved _ k ps => 0 <= k /\ exists l, nth_error (first :: rest) (Z.to_nat k) = Some l /\ ps = video layout length_of l
      | Blueprint _ l => In l (first :: rest)
      end.
  Proof.
    destruct (run_inv layout length_of pos export_all (first :: rest) history _ (start_inv first rest)) as (s & E & I). exists s. split; [exact E|]. destruct I as (_ & _ & _ & _ & G). rewrite Forall_forall in G. intros o Ho. specialize (G o Ho). destruct o as [[l a]|k ps|l]; cbn [good] in G; try exact G. destruct G as (K & l & N & ->). split; [exact K|]. exists l. split; [exact N|apply video_pictures].
  Qed.
  (** Each round shows the layout that the keys have led to, at the time of the
      animation that it is, and then saves its video or nothing; the index is that of
      the layout in the input. *)
  Theorem C108_round export_all first rest history s es : run export_all history (start layout first rest) = Some s ->
    exists s1 l s', handle_all layout export_all es s = Some s1 /\ nth_error (first :: rest) (Z.to_nat (index layout s1)) = Some l /\ 0 <= index layout s1 /\
      round export_all es s = Some s' /\ t layout s' = t layout s1 + 1 /\
      exists after, log layout s' = (log layout s1 ++ Shown layout (l, (t layout s1 / 2) mod length_of l) :: after)%list /\
        (after = [] \/ (waiting_to_save layout s1 || export_all = true /\ waiting_to_save layout s' = false /\ after = [Saved layout (index layout s1) (video layout length_of l)])).
  Proof.
    intros E. destruct (run_inv layout length_of pos export_all (first :: rest) history _ (start_inv first rest)) as (s0 & E0 & I). rewrite E in E0. injection E0 as <-.
    destruct (handle_all_inv layout length_of export_all (first :: rest) es s I) as (s1 & E1 & I1). destruct (current_some layout length_of _ s1 I1) as (l & C & N).
    exists s1, l, (tick _ (saving layout length_of export_all l (drawn layout length_of l s1))). split; [exact E1|]. split; [exact N|]. split; [apply I1|]. split; [exact (round_spec layout length_of pos export_all _ es s s1 l E1 I1 C)|].
    destruct (drawn_fields layout length_of l s1) as (Dl & Dr & Di & Dt). destruct (drawn_inv layout length_of pos (first :: rest) l s1 I1 C) as (Id & Ed & _ & _).
    assert (Dw : waiting_to_save _ (drawn layout length_of l s1) = waiting_to_save _ s1) by (unfold drawn; cbn zeta; destruct (buffer layout _ _); reflexivity).
    set (d := drawn layout length_of l s1) in *. clearbody d. unfold saving. rewrite Dw.
    destruct (waiting_to_save _ s1 || export_all) eqn:W; [|split; [cbn; rewrite Dt; reflexivity|]; exists []; split; [cbn; rewrite Dl; reflexivity|left; reflexivity]].
    destruct (buffers layout (range (length_of l)) (framebuffers layout d)) as [ps|] eqn:B; [|split; [cbn; rewrite Dt; reflexivity|]; exists []; split; [cbn; rewrite Dl; reflexivity|left; reflexivity]].
    assert (Ps : ps = video layout length_of l). { rewrite <- video_pictures. apply (buffers_spec layout l (framebuffers _ d)); [|exact B]. intros a p X. destruct Id as (_ & _ & _ & F & _). destruct (F a p X) as (l' & E' & -> & _). congruence. }
    subst ps. rewrite Di. cbn zeta.
    assert (Inc : forall x, t _ (increment_solution layout 1 x) = t _ x /\ log _ (increment_solution layout 1 x) = log _ x /\ waiting_to_save _ (increment_solution layout 1 x) = waiting_to_save _ x) by (intros x; unfold increment_solution; destruct (read_lines _ _ _ _ _) as [[? ?] ?]; repeat split).
    destruct export_all.
    - set (w := write layout _ _). destruct (Inc w) as (T1 & T2 & T3). destruct (index layout (increment_solution layout 1 w) =? 0); cbn; (split; [rewrite T1; cbn; rewrite Dt; reflexivity|]); eexists; (split; [rewrite T2; cbn; rewrite Dl, <- app_assoc; reflexivity|]); right; (split; [reflexivity|]); rewrite T3; split; reflexivity.
    - cbn. split; [rewrite Dt; reflexivity|]. eexists. split; [rewrite Dl, <- app_assoc; reflexivity|]. right. split; [reflexivity|]. split; reflexivity.
  Qed.
  (** The key i leads to the next layout of the input, and from the last one to the
      first; the key k to the one before, and from the first one to the last that has
      been read. *)
  Theorem C108_keys first rest history s : run false history (start layout first rest) = Some s ->
    (exists s', handle layout false KeyI s = Some s' /\ index layout s' = if index layout s + 1 <? Z.of_nat (length (first :: rest)) then index layout s + 1 else 0) /\
    (exists s', handle layout false KeyK s = Some s' /\ solutions layout s' = solutions layout s /\
      index layout s' = if index layout s =? 0 then Z.of_nat (length (solutions layout s)) - 1 else index layout s - 1).
  Proof.
    intros E. destruct (run_inv layout length_of pos false (first :: rest) history _ (start_inv first rest)) as (s0 & E0 & I). rewrite E in E0. injection E0 as <-. split; eexists; (split; [reflexivity|]).
    - apply (increment_next layout length_of). exact I.
    - destruct (increment_prev layout length_of _ s I) as [A B]. split; [exact B|exact A].
  Qed.
  (** With --export-all the program ends by itself, whatever keys are pressed, unless
      the window is closed; then it has saved one video of each layout of the input,
      in order. *)
  Theorem C108_export_all first rest : exists n, forall history, (n <= length history)%nat -> (forall es, In es history -> ~ In Quit es) ->
    exists s, run true history (start layout first rest) = Some s /\ running layout s = false /\
      saved layout (log layout s) = numbered_videos layout length_of (first :: rest).
  Proof.
    exists (total layout length_of (first :: rest)). intros history Ln Q.
    destruct (finish layout length_of pos (first :: rest) (length (first :: rest)) 0 0 (start layout first rest) history) as (s & E & R & S).
    - lia.
    - cbn. lia.
    - unfold mid. split; [apply start_inv|]. repeat split. intros l j _ Hj. lia.
    - apply Forall_forall. intros es I. exact (Q es I).
    - exact Ln.
    - exists s. split; [exact E|]. split; [exact R|]. rewrite S. exact (numbered_videos_eq (first :: rest) 0).
  Qed.
End Viewer.

(** Layouts as lists of cells, of 16 pictures, or 32 if there is a splitter (true). *)
Definition pictures_of (l : list bool) : Z := if existsb (fun b => b) l then 32 else 16.
Example C108_some : exists s, run (list bool) pictures_of true (repeat [KeyI] 200) (start _ [true; false] [[false]]) = Some s /\ running _ s = false /\ length (saved _ (log _ s)) = 2%nat.
Proof. eexists. split; [vm_compute; reflexivity|]. split; reflexivity. Qed.
(** The key s saves what is shown when all of its pictures are there, which may be
    another layout than the one it was pressed for. *)
Example C108_saved_later : exists s, run (list bool) pictures_of false ([KeyS] :: [KeyI] :: repeat [] 40) (start _ [false] [[false; false]]) = Some s /\ saved _ (log _ s) = [(1, video (list bool) pictures_of [false; false])].
Proof. eexists. split; [vm_compute; reflexivity|]. vm_compute. reflexivity. Qed.

Print Assumptions C108_history.
Print Assumptions C108_round.
Print Assumptions C108_keys.
Print Assumptions C108_export_all.
