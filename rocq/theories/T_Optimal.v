(** Property theorems about calculate_optimal.py: C30-C37. *)
From Coq Require Import String ZArith List Bool Lia Permutation.
From Verif Require Import M_Json M_Dict P_Dict M_Network Spec_Network P_Network M_Optimal Spec_Optimal P_Optimal P_Search P_Compute.
Import ListNotations.
Local Open Scope string_scope.
Open Scope Z_scope.

(** * C30 *)
Theorem C30_factors v : 1 <= v ->
  NoDup (factors v) /\ forall a b, In (a, b) (factors v) <-> a * b = v /\ 1 <= a /\ 1 <= b.
Proof.
  intros H. split; [apply factors_nodup, H|]. intros a b. rewrite factors_in by exact H. split; [intros [E P]; repeat split; try assumption; nia|tauto].
Qed.
Example C30_twelve : factors 12 = [(3, 4); (4, 3); (2, 6); (6, 2); (1, 12); (12, 1)] /\ factors 9 = [(3, 3); (1, 9); (9, 1)].
Proof. vm_compute. auto. Qed.

(** * C31: the database *)
(** Whatever the database holds, its answers are backed by its entries. *)
Theorem C31_sound {A} (st : store A) s :
  (does_balancer_exist st s = Some true -> exists t, recorded st t true /\ within t s) /\
  (does_balancer_exist st s = Some false -> exists f, recorded st f false /\ within s f) /\
  (does_balancer_exist st s = None <->
     (forall t, recorded st t true -> ~ within t s) /\ (forall f, recorded st f false -> ~ within s f)).
Proof. split; [apply lookup_true|]. split; [apply lookup_false|apply lookup_none]. Qed.
(** For every database with a history, the answers are determined by the entries
    alone, whatever their order. *)
Theorem C31_complete {A} (st : store A) s : history st ->
  (does_balancer_exist st s = Some true <-> exists t, recorded st t true /\ within t s) /\
  (does_balancer_exist st s = Some false <-> exists f, recorded st f false /\ within s f).
Proof. intros H. destruct (history_ok st H) as [_ C]. split; [apply lookup_is_true, C|apply lookup_is_false, C]. Qed.
Theorem C31_order_irrelevant {A} (st st' : store A) s : history st -> Permutation (st_exist st) (st_exist st') ->
  does_balancer_exist st' s = does_balancer_exist st s.
Proof.
  intros H P. destruct (history_ok st H) as [_ C]. apply lookup_same.
  - intros t f Ht Hf. apply C; (eapply Permutation_in; [apply Permutation_sym, P|assumption]).
  - exact C.
  - intros x. split; intros (t & Ht & W); exists t; (split; [|exact W]); (eapply Permutation_in; [|exact Ht]); [apply Permutation_sym|]; exact P.
  - intros x. split; intros (t & Ht & W); exists t; (split; [|exact W]); (eapply Permutation_in; [|exact Ht]); [apply Permutation_sym|]; exact P.
Qed.
(** Answers grow with the room available. *)
Theorem C31_monotone {A} (st : store A) s t : history st -> within s t ->
  (does_balancer_exist st s = Some true -> does_balancer_exist st t = Some true) /\
  (does_balancer_exist st t = Some false -> does_balancer_exist st s = Some false).
Proof.
  intros H W. destruct (C31_complete st s H) as [S1 S2]. destruct (C31_complete st t H) as [T1 T2]. split.
  - intros E. apply T1. apply S1 in E. destruct E as (x & I1 & W1). exists x. split; [exact I1|]. apply (within_trans _ s); assumption.
  - intros E. apply S2. apply T2 in E. destruct E as (x & I1 & W1). exists x. split; [exact I1|]. apply (within_trans _ t); assumption.
Qed.
(** What is added is known from then on, and nothing that was known changes. *)
Theorem C31_add {A} (st : store A) s sol : history st -> does_balancer_exist st s = None ->
  does_balancer_exist (add_solution st s sol) s = Some (match sol with Some _ => true | None => false end) /\
  forall x v, does_balancer_exist st x = Some v -> does_balancer_exist (add_solution st s sol) x = Some v.
Proof.
  intros H L. destruct (history_ok st H) as [_ C]. unfold does_balancer_exist. rewrite add_exist by exact L. split.
  - rewrite app_lookup_new by assumption. reflexivity.
  - intros x v. apply app_lookup; assumption.
Qed.

Definition net2 : network := [((Some 0, Some 0), (Some 1, Some 1))].
Definition db1 : store string := add_solution (add_solution (add_solution (new_store "2x2" net2) (4, 5, 2) None) (4, 9, 3) (Some "a")) (6, 5, 2) None.
Example C31_history_met : history db1 /\ does_balancer_exist db1 (4, 4, 2) = Some false /\
  does_balancer_exist db1 (8, 9, 4) = Some true /\ does_balancer_exist db1 (8, 5, 2) = None.
Proof. split; [repeat (apply history_add; [|vm_compute; reflexivity]); constructor|vm_compute; auto]. Qed.
(** Without the history the first entry would win. *)
Example C31_needs_history :
  lookup [((4, 5, 2), true); ((4, 6, 2), false)] (4, 5, 2) <> lookup [((4, 6, 2), false); ((4, 5, 2), true)] (4, 5, 2).
Proof. vm_compute. discriminate. Qed.

(** * C32: clean *)
Theorem C32_clean {A} (st : store A) : history st ->
  (forall s, does_balancer_exist (clean st) s = does_balancer_exist st s) /\ st_solutions (clean st) = st_solutions st /\
  (forall s, recorded (clean st) s true <-> recorded st s true) /\ (forall s, recorded (clean st) s false -> recorded st s false).
Proof.
  intros H. destruct (history_ok st H) as [N C]. pose proof (clean_ok st N) as K. split; [apply cleaned_lookup; assumption|].
  split; [reflexivity|]. split; apply K.
Qed.
Lemma clean_loop_minimal e todo : forall cur, NoDup (map fst e) -> consistent e -> cleaned e cur -> NoDup (map fst todo) ->
  (forall s, In (s, false) todo -> In (s, false) cur) ->
  (forall f f', In (f, false) cur -> In (f', false) cur -> within f f' -> f <> f' -> In (f, false) todo) ->
  forall f f', In (f, false) (clean_loop todo cur) -> In (f', false) (clean_loop todo cur) -> within f f' -> f = f'.
Proof.
  induction todo as [|[s b] todo IH]; intros cur N C K Nt Sub Min.
  - cbn [clean_loop]. intros f f' H H' W. destruct (size_eqb_spec f f') as [E|E]; [exact E|]. destruct (Min f f' H H' W E).
  - pose proof (clean_loop_ok e [(s, b)] cur N) as Step. cbn [clean_loop] in Step. cbn [clean_loop].
    assert (Sub1 : forall x, In (x, false) [(s, b)] -> In (x, false) e) by (intros x [Hx|[]]; apply K, Sub; left; exact Hx).
    specialize (Step Sub1 K). inversion Nt as [|? ? Nt1 Nt2]; subst. destruct b.
    + apply (IH cur); try assumption; [intros x Hx; apply Sub; right; exact Hx|]. intros f f' H H' W Nq. destruct (Min f f' H H' W Nq) as [[=]|X]; exact X.
    + assert (Hs : In (s, false) cur) by (apply Sub; left; reflexivity).
      assert (Nk : forall x, In (x, false) todo -> x <> s).
      { intros x Hx ->. apply Nt1. change s with (fst (s, false)). apply in_map. exact Hx. }
      set (d := ddel size_eqb s cur) in *.
      assert (Dd : forall x y, In (x, y) d <-> x <> s /\ In (x, y) cur) by (intros; apply (ddel_in size_eqb size_eqb_spec), K).
      assert (Nd : NoDup (map fst d)) by (apply (ddel_nodup size_eqb size_eqb_spec), K).
      assert (Cd : consistent d).
      { intros t f Ht Hf. apply Dd in Ht. apply Dd in Hf. apply C; [apply K|apply K]; tauto. }
      assert (Old : forall f f', In (f, false) d -> In (f', false) cur -> within f f' -> f <> f' -> In (f, false) todo).
      { intros f f' H H' W Nq. apply Dd in H. destruct H as [Ns H]. destruct (Min f f' H H' W Nq) as [[= <-]|X]; [congruence|exact X]. }
      destruct (lookup d s) as [[|]|] eqn:L.
      * exfalso. apply lookup_true in L. destruct L as (t & Ht & W). apply Dd in Ht. apply (C t s); [apply K|apply K|]; tauto.
      * apply (IH d); try assumption.
        -- intros x Hx. apply Dd. split; [apply Nk, Hx|apply Sub; right; exact Hx].
        -- intros f f' H H' W Nq. apply (Old f f'); try assumption. apply Dd in H'. tauto.
      * assert (Din : forall x, In (x, false) (dset size_eqb s false d) <-> In (x, false) cur).
        { intros x. rewrite (dset_in size_eqb size_eqb_spec _ _ _ _ _ Nd), Dd. destruct (size_eqb_spec x s) as [->|Nx]; tauto. }
        apply (IH (dset size_eqb s false d)); try assumption.
        -- intros x Hx. apply Din, Sub. right. exact Hx.
        -- intros f f' H H' W Nq. rewrite Din in H'. apply Din in H. destruct (size_eqb_spec f s) as [->|Nf].
           ++ exfalso. apply lookup_none in L. apply (proj2 L f'); [apply Dd; split; [congruence|exact H']|exact W].
           ++ apply (Old f f'); try assumption. apply Dd. auto.
Qed.
(** Nothing superfluous is left: no impossible size is implied by another. *)
Theorem C32_minimal {A} (st : store A) f f' : history st ->
  recorded (clean st) f false -> recorded (clean st) f' false -> within f f' -> f = f'.
Proof.
  intros H. destruct (history_ok st H) as [N C]. unfold recorded, clean. cbn [st_exist with_exist].
  apply (clean_loop_minimal (st_exist st)); try assumption; auto.
  constructor; [assumption|tauto|auto|]. intros x Hx. exists x. split; [exact Hx|apply within_refl].
Qed.
Example C32_cleans : st_exist (clean db1) = [((4, 9, 3), true); ((6, 5, 2), false)].
Proof. vm_compute. reflexivity. Qed.

(** * C33: JSON *)
Theorem C33_round_trip {A} (st : store A) : NoDup (map fst (st_exist st)) -> NoDup (map fst (st_solutions st)) ->
  from_json (new_store (st_name st) (st_network st)) (to_json st) = Some st.
Proof. intros N1 N2. rewrite json_round by assumption. destruct st. reflexivity. Qed.
(** Saving all stores and loading them in a later run, where the directory may
    list the networks in another order and contain new ones. *)
Theorem C33_save_load {A} (stores : list (store A)) files : NoDup (map st_name stores) ->
  (forall st, In st stores -> NoDup (map fst (st_exist st)) /\ NoDup (map fst (st_solutions st))) ->
  (forall st name net, In st stores -> In (name, net) files -> name = st_name st -> net = st_network st) ->
  exists stores', load_data (save_data stores) (map (fun f => new_store (fst f) (snd f)) files) = Some stores' /\
    length stores' = length files /\
    forall i name net, nth_error files i = Some (name, net) ->
      exists st', nth_error stores' i = Some st' /\ st_name st' = name /\ st_network st' = net /\
        (forall st, In st stores -> st_name st = name -> st' = st) /\
        (~ In name (map st_name stores) -> st' = new_store name net).
Proof.
  intros N W F. unfold load_data. induction files as [|[name net] files IH].
  - exists []. repeat split; auto. intros [|i] name net [=].
  - destruct IH as (rest & E & L & R); [intros st n nt Hs Hf; apply (F st n nt Hs); right; exact Hf|].
    cbn [map omap fst snd]. rewrite (save_get stores N). change (st_name (new_store (A:=A) name net)) with name.
    destruct (find (fun st => String.eqb name (st_name st)) stores) as [st|] eqn:Fd; cbn [option_map obind].
    + apply find_some in Fd. destruct Fd as [Hs En]. apply String.eqb_eq in En. destruct (W st Hs) as [N1 N2].
      pose proof (F st name net Hs (or_introl eq_refl) En) as ->. subst name. rewrite C33_round_trip by assumption. cbn [obind]. rewrite E. cbn [obind].
      eexists. split; [reflexivity|]. split; [cbn; lia|]. intros [|i] name net H; cbn [nth_error] in *; [|apply R, H]. injection H as <- <-.
      exists st. repeat split; try reflexivity.
      * intros st2 H2 E2. clear - N Hs H2 E2. induction stores as [|x l IHl]; [destruct Hs|]. cbn [map] in N. inversion N as [|? ? Nx Nl]; subst.
        destruct Hs as [->|Hs], H2 as [->|H2]; [reflexivity| | |apply IHl; assumption].
        -- exfalso. apply Nx. rewrite <- E2. apply in_map. exact H2.
        -- exfalso. apply Nx. rewrite E2. apply in_map. exact Hs.
      * intros H. exfalso. apply H. apply in_map. exact Hs.
    + rewrite E. cbn [obind]. eexists. split; [reflexivity|]. split; [cbn; lia|]. intros [|i] nm nt H; cbn [nth_error] in *; [|apply R, H]. injection H as <- <-.
      eexists. repeat split; try reflexivity. intros st Hs En. exfalso. apply (find_none _ _ Fd) in Hs. rewrite En, String.eqb_refl in Hs. discriminate.
Qed.
Example C33_json : to_json db1 = {| js_exist := Some [("4,5,2", false); ("4,9,3", true); ("6,5,2", false)]; js_solutions := Some [("4,9,3", "a")] |}.
Proof. vm_compute. reflexivity. Qed.
(** Databases with a history meet the hypotheses. *)
Theorem C33_history {A} (st : store A) : history st -> NoDup (map fst (st_exist st)) /\ NoDup (map fst (st_solutions st)).
Proof.
  intros H. split; [apply (history_ok st H)|]. induction H as [name net|st s sol H IH L|st H IH]; [constructor| |exact IH].
  cbn. destruct sol; [apply (dset_nodup size_eqb size_eqb_spec), IH|exact IH].
Qed.

(** * C34, C35: the searches *)
(** The least height is the number of free inputs or outputs, whichever is larger. *)
Theorem C34_height net mh : min_height net = Some mh <-> exists ic n oc m, has_ends net ic n oc m /\ mh = Z.max n m.
Proof.
  unfold min_height. split.
  - destruct (get_input_output_colours net) as [[[ic n] [oc m]]|] eqn:E; cbn [obind fst snd]; [|discriminate]. intros [= <-].
    exists ic, n, oc, m. split; [apply ends_spec, E|reflexivity].
  - intros (ic & n & oc & m & H & ->). apply ends_spec in H. rewrite H. reflexivity.
Qed.
(** The loops return, and more rounds would not change the result. *)
Theorem C34_returns {A} (st : store A) u mh : min_height (st_network st) = Some mh ->
  exists r, next_size Length st u = Some r /\ forall k, length_loop (length_fuel st + k) st u mh 3 = Some r.
Proof.
  intros M. destruct (next_size_total Length st u mh M) as [r E]. exists r. split; [exact E|]. intros k. apply length_loop_more.
  unfold next_size in E. rewrite M in E. exact E.
Qed.
Theorem C35_returns {A} (st : store A) u mh : min_height (st_network st) = Some mh ->
  exists r, next_size Area st u = Some r /\ forall k, area_loop (area_fuel st mh + k) st u mh mh = Some r.
Proof.
  intros M. destruct (next_size_total Area st u mh M) as [r E]. exists r. split; [exact E|]. intros k. apply area_loop_more.
  unfold next_size in E. rewrite M in E. exact E.
Qed.
(** The size asked about is unknown, is one to be searched, and everything
    better is already ruled out. *)
Theorem C34_asks {A} o (st : store A) u s : next_size o st u = Some (Some s) ->
  does_balancer_exist st s = None /\
  exists mh w h, min_height (st_network st) = Some mh /\ s = (u, w, h) /\ searched o (st_network st) mh w h /\
    forall w' h', searched o (st_network st) mh w' h' -> cost o w' h' < cost o w h -> does_balancer_exist st (u, w', h') = Some false.
Proof.
  intros E. destruct (min_height (st_network st)) as [mh|] eqn:M; [|unfold next_size in E; rewrite M in E; discriminate].
  destruct (next_size_spec o st u mh (Some s) M E) as (w & h & Ru & -> & L & Se). split; [exact L|]. exists mh, w, h. auto.
Qed.
(** When the length search is over, the query prints a solution of the least
    height whose width cannot be reduced. *)
Theorem C34_finished {A} (st : store A) u mh : built any_answer st -> min_height (st_network st) = Some mh ->
  next_size Length st u = Some None ->
  exists u' w a, u' <= u /\ stored st (u', w, mh) a /\ query Length false u st = Some (Some a) /\
    forall w', 3 <= w' < w -> Z.of_nat (length (st_network st)) * 2 <= (w' - 2) * mh -> does_balancer_exist st (u, w', mh) = Some false.
Proof.
  intros B M E. destruct (query_best any_answer Length st u mh (built_good _ _ B) M E) as (u' & w & h & a & Hu & Ha & Q & Se & Ru).
  assert (h = mh) by apply Se. subst h. exists u', w, a. split; [exact Hu|]. split; [exact Ha|]. split.
  - unfold query. rewrite E. cbn [obind]. rewrite Q. reflexivity.
  - intros w' Hw Hn. apply Ru; [repeat split; [lia|exact Hn]|cbn; lia].
Qed.
(** When the area search is over, the query prints a solution; every size of
    smaller area, of admissible height, is ruled out. *)
Theorem C35_finished {A} (st : store A) u mh : built any_answer st -> min_height (st_network st) = Some mh ->
  next_size Area st u = Some None ->
  exists u' w h a, u' <= u /\ mh <= h <= 2 * mh /\ stored st (u', w, h) a /\ query Area false u st = Some (Some a) /\
    forall w' h', 3 <= w' -> mh <= h' <= 2 * mh -> Z.of_nat (length (st_network st)) * 2 <= (w' - 2) * h' ->
      (w' - 2) * h' < (w - 2) * h -> does_balancer_exist st (u, w', h') = Some false.
Proof.
  intros B M E. destruct (query_best any_answer Area st u mh (built_good _ _ B) M E) as (u' & w & h & a & Hu & Ha & Q & Se & Ru).
  exists u', w, h, a. split; [exact Hu|]. split; [apply Se|]. split; [exact Ha|]. split.
  - unfold query. rewrite E. cbn [obind]. rewrite Q. reflexivity.
  - intros w' h' Hw Hh Hn Hc. apply Ru; [repeat split; [lia|exact Hn|lia|lia]|exact Hc].
Qed.
(** While the search is not over nothing is printed, unless imperfect solutions
    are allowed; then it is the best one stored. *)
Theorem C35_query {A} o (st : store A) u :
  (forall s, next_size o st u = Some (Some s) -> query o false u st = Some None) /\
  (forall a, query o true u st = Some (Some a) -> exists s, stored st s a /\ fst (fst s) <= u /\
     forall s' a', stored st s' a' -> fst (fst s') <= u -> loss_lt (loss o s') (loss o s) = false) /\
  (query o true u st = Some None <-> forall s a, stored st s a -> u < fst (fst s)).
Proof.
  split; [|split].
  - intros s E. unfold query. rewrite E. reflexivity.
  - intros a. cbn [query]. unfold best_current_solution. pose proof (best_spec o (usable_solutions st u)) as B.
    destruct (best o (usable_solutions st u)) as [[s x]|]; cbn [option_map]; [|discriminate]. intros [= <-]. cbn [snd]. destruct B as [I1 B].
    apply usable_in in I1. exists s. split; [apply I1|]. split; [apply I1|]. intros s' a' H Hu. apply (B (s', a')). apply usable_in. auto.
  - cbn [query]. unfold best_current_solution. pose proof (best_spec o (usable_solutions st u)) as B.
    destruct (best o (usable_solutions st u)) as [[s x]|]; cbn [option_map]; split.
    + discriminate.
    + intros H. destruct B as [I1 _]. apply usable_in in I1. destruct I1 as [I1 Hu]. specialize (H s x I1). lia.
    + intros _ s a H. destruct (Z_lt_le_dec u (fst (fst s))) as [L|L]; [exact L|]. exfalso.
      assert (In (s, a) (usable_solutions st u)) by (apply usable_in; auto). rewrite B in H0. destruct H0.
    + reflexivity.
Qed.
(** The stores of a network whose ends cannot be found raise. *)
Theorem C34_raises {A} o (st : store A) u : min_height (st_network st) = None <-> next_size o st u = None.
Proof.
  split.
  - intros M. unfold next_size. rewrite M. reflexivity.
  - intros E. destruct (min_height (st_network st)) as [mh|] eqn:M; [|reflexivity]. destruct (next_size_total o st u mh M) as [r Er]. congruence.
Qed.

Definition step_db (o : objective) (u : Z) (st : store string) (sol : option string) : store string :=
  match next_size o st u with Some (Some s) => clean (add_solution st s sol) | _ => st end.
Definition db2 : store string :=
  step_db Area 4 (step_db Length 4 (step_db Length 4 (new_store "2x2" net2) None) (Some "wide")) (Some "tall").
Lemma step_db_built o u st sol : built any_answer st -> built any_answer (step_db o u st sol).
Proof.
  intros B. unfold step_db. destruct (next_size o st u) as [[s|]|] eqn:E; try exact B. apply (built_more any_answer st o u s sol B E). exact Logic.I.
Qed.
Example C34_finished_met : built any_answer db2 /\ min_height (st_network db2) = Some 2 /\
  next_size Length db2 4 = Some None /\ query Length false 4 db2 = Some (Some "wide") /\
  next_size Area db2 4 = Some None /\ query Area false 4 db2 = Some (Some "tall") /\ next_size Area db2 2 = Some (Some (2, 3, 3)).
Proof. split; [repeat apply step_db_built; constructor|vm_compute; auto 10]. Qed.

(** * C36: the whole computation *)
Lemma nth_error_same {X} (l : list X) : forall l', (forall i, nth_error l i = nth_error l' i) -> l = l'.
Proof.
  induction l as [|x l IH]; intros [|y l'] H; [reflexivity|discriminate (H 0%nat)|discriminate (H 0%nat)|].
  pose proof (H 0%nat) as H0. injection H0 as ->. f_equal. apply IH. intros i. apply (H (S i)).
Qed.
Section C36.
  Context {A : Type} (solves : network -> size -> A -> Prop) (lengths : Z -> Prop) (o : objective) (u : Z).
  (** The underground lengths of this search and of the earlier ones, and that a
      longer one of them makes no size impossible. *)
  Hypothesis length_u : lengths u.
  Hypothesis helps : longer_helps solves lengths.
  Variable stores : list (store A).
  (** The stores come from earlier searches with the same truthful solver, or are
      new; all their networks have ends. *)
  Hypothesis stores_ok : forall st, In st stores -> built_for lengths (truthful solves) st /\ exists mh, min_height (st_network st) = Some mh.
  Hypothesis names : NoDup (map st_name stores).

  Lemma stores_good : forall st, In st stores -> (good (truthful solves) st /\ ruled_out solves lengths st) /\ exists mh, min_height (st_network st) = Some mh.
  Proof. intros st H. destruct (stores_ok st H) as [B M]. split; [split; [apply built_good, (built_for_built lengths), B|apply (built_ruled solves lengths st helps B)]|exact M]. Qed.

  (** The computation starts, and it can always go on: every truthful answer to a
      pending question is accepted, whatever happened before. *)
  Theorem C36_progress : exists c0, start o u stores = Some c0 /\
    forall asked c i t s sol, run solves o u c0 asked c -> nth_error (cp_tasks c) i = Some t -> tk_pending t = Some s ->
      truthful solves (st_network (tk_store t)) s sol -> exists c', deliver o u c i sol = Some c'.
  Proof.
    destruct (start_ok solves lengths o u stores stores_good) as (c0 & E & Ok & _). exists c0. split; [exact E|].
    intros asked c i t s sol R Ei P T. destruct (run_keeps solves lengths o u helps length_u c0 asked c R Ok) as (Ok' & _).
    destruct (deliver_ok solves lengths o u helps length_u c i t s sol Ok' Ei P T) as (n & D & _). eauto.
  Qed.
  (** No size is asked about twice, nor one that was known at the start. *)
  Theorem C36_never_twice c0 asked c : start o u stores = Some c0 -> run solves o u c0 asked c ->
    NoDup asked /\ forall i s st, In (i, s) asked -> nth_error stores i = Some st -> does_balancer_exist st s = None.
  Proof.
    intros E R. destruct (start_ok solves lengths o u stores stores_good) as (c1 & E1 & Ok & Mp & _). assert (c1 = c0) by congruence. subst c1.
    destruct (run_fresh solves lengths o u helps length_u c0 asked c R Ok) as [N F]. split; [exact N|]. intros i s st H Ei. specialize (F i s H).
    destruct (does_balancer_exist st s) as [v|] eqn:K; [|reflexivity]. exfalso. apply F.
    rewrite <- Mp in Ei. rewrite nth_error_map in Ei. destruct (nth_error (cp_tasks c0) i) as [t|] eqn:Et; [|discriminate]. injection Ei as Est.
    exists t. split; [exact Et|]. rewrite Est, K. discriminate.
  Qed.
  (** If every network has a layout of some searched size, then the computation
      is over after a bounded number of answers, in whatever order they arrive. *)
  Theorem C36_terminates : 
    (forall st, In st stores -> exists mh w h, min_height (st_network st) = Some mh /\ searched o (st_network st) mh w h /\ feasible solves (st_network st) (u, w, h)) ->
    exists bound, forall c0 asked c, start o u stores = Some c0 -> run solves o u c0 asked c -> (length asked <= bound)%nat.
  Proof.
    intros F. destruct (start_ok solves lengths o u stores stores_good) as (c1 & E1 & Ok & Mp & _).
    assert (B : exists bounds, bounded solves o u bounds (cp_tasks c1)).
    { assert (F' : forall t, In t (cp_tasks c1) -> exists mh w h, min_height (st_network (tk_store t)) = Some mh /\
        searched o (st_network (tk_store t)) mh w h /\ feasible solves (st_network (tk_store t)) (u, w, h)).
      { intros t Ht. apply F. rewrite <- Mp. apply in_map. exact Ht. }
      clear - F'. induction (cp_tasks c1) as [|t ts IH]; [exists []; constructor|].
      destruct IH as [bs Hb]; [intros x Hx; apply F'; right; exact Hx|]. destruct (F' t (or_introl eq_refl)) as (mh & w & h & M & Se & Fe).
      exists (candidates u mh w h :: bs). constructor; [|exact Hb]. exists mh, w, h. auto. }
    destruct B as [bounds B]. exists (total bounds (cp_tasks c1)). intros c0 asked c E R. assert (c0 = c1) by congruence. subst c0.
    apply (run_bound solves lengths o u helps length_u c1 asked c bounds R Ok B).
  Qed.
  (** When all tasks have finished, every query prints an optimal layout. *)
  Theorem C36_optimal c0 asked c : start o u stores = Some c0 -> run solves o u c0 asked c ->
    (forall t, In t (cp_tasks c) -> tk_pending t = None) ->
    length (cp_tasks c) = length stores /\
    forall i t st, nth_error (cp_tasks c) i = Some t -> nth_error stores i = Some st ->
      st_name (tk_store t) = st_name st /\ st_network (tk_store t) = st_network st /\
      exists mh a, min_height (st_network st) = Some mh /\ query o false u (tk_store t) = Some (Some a) /\ optimal solves lengths o (st_network st) mh u a.
  Proof.
    intros E R Done. destruct (start_ok solves lengths o u stores stores_good) as (c1 & E1 & Ok & Mp & _). assert (c1 = c0) by congruence. subst c1.
    destruct (run_keeps solves lengths o u helps length_u c0 asked c R Ok) as (Ok' & Ns & Nm).
    assert (Len : length (cp_tasks c) = length stores).
    { rewrite <- Mp. rewrite map_length. pose proof (f_equal (@length _) Ns) as L. rewrite !map_length in L. exact L. }
    split; [exact Len|]. intros i t st Et Es.
    assert (Sn : st_network (tk_store t) = st_network st /\ st_name (tk_store t) = st_name st).
    { pose proof (f_equal (fun l => nth_error l i) Ns) as X. pose proof (f_equal (fun l => nth_error l i) Nm) as Y. cbn beta in X, Y.
      rewrite <- Mp in Es. rewrite !nth_error_map in *. rewrite Et in X, Y. destruct (nth_error (cp_tasks c0) i) as [t0|]; [|discriminate].
      cbn in Es, X, Y. injection Es as <-. injection X as ->. injection Y as ->. auto. }
    destruct Sn as [Sn Sm]. split; [exact Sm|]. split; [exact Sn|].
    pose proof (nth_error_In _ _ Et) as It. pose proof (proj1 (Forall_forall _ _) Ok' t It) as ((G & Ro) & Nx & mh & M). rewrite (Done t It) in Nx.
    destruct (query_optimal solves lengths o (tk_store t) u mh helps G Ro length_u M Nx) as (a & Q & Op). exists mh, a.
    rewrite <- Sn. split; [exact M|]. split; [|exact Op]. unfold query. rewrite Nx. cbn [obind]. rewrite Q. reflexivity.
  Qed.
  (** After every answer the result file holds everything that is known, so that
      a later run starts with it. *)
  Theorem C36_saved c0 asked c : start o u stores = Some c0 -> run solves o u c0 asked c -> asked <> [] ->
    cp_file c = Some (save_data (map tk_store (cp_tasks c))) /\
    load_data (save_data (map tk_store (cp_tasks c))) (map (fun st => new_store (st_name st) (st_network st)) stores) = Some (map tk_store (cp_tasks c)).
  Proof.
    intros E R Ne. destruct (start_ok solves lengths o u stores stores_good) as (c1 & E1 & Ok & Mp & _). assert (c1 = c0) by congruence. subst c1.
    destruct (run_keeps solves lengths o u helps length_u c0 asked c R Ok) as (Ok' & Ns & Nm). split.
    - clear E Mp Ok' Ns Nm E1. induction R as [c|c i t s sol c' asked c'' Ei P T D R IH]; [congruence|].
      destruct (deliver_keeps solves lengths o u helps length_u c i t s sol c' Ok Ei P T D) as (Okn & _ & _ & Fn).
      destruct asked as [|x asked]; [inversion R; subst; exact Fn|]. apply IH; [discriminate|exact Okn].
    - assert (Q : map (fun st => new_store (A:=A) (st_name st) (st_network st)) stores = map (fun f => new_store (fst f) (snd f)) (map (fun st => (st_name st, st_network st)) (map tk_store (cp_tasks c)))).
      { rewrite !map_map. cbn [fst snd]. rewrite <- Mp. rewrite map_map.
        assert (forall l l' : list (task A), map (fun t => st_network (tk_store t)) l = map (fun t => st_network (tk_store t)) l' ->
          map (fun t => st_name (tk_store t)) l = map (fun t => st_name (tk_store t)) l' ->
          map (fun t => new_store (A:=A) (st_name (tk_store t)) (st_network (tk_store t))) l' = map (fun t => new_store (st_name (tk_store t)) (st_network (tk_store t))) l) as X.
        { induction l as [|a l IH]; intros [|b l'] H1 H2; try discriminate; [reflexivity|]. cbn in *. injection H1 as A1 A2. injection H2 as B1 B2. rewrite A1, B1. f_equal. apply IH; assumption. }
        apply X; assumption. }
      rewrite Q. clear Q. set (sts := map tk_store (cp_tasks c)).
      assert (Nd : NoDup (map st_name sts)).
      { subst sts. rewrite map_map, Nm. rewrite <- (map_map tk_store st_name), Mp. exact names. }
      assert (W : forall st, In st sts -> NoDup (map fst (st_exist st)) /\ NoDup (map fst (st_solutions st))).
      { intros st H. apply in_map_iff in H. destruct H as (t & <- & H). pose proof (proj1 (Forall_forall _ _) Ok' t H) as ((G & _) & _). split; apply G. }
      destruct (C33_save_load sts (map (fun st => (st_name st, st_network st)) sts) Nd W) as (sts' & L & Len & Pt).
      { intros st name net Hs Hf En. apply in_map_iff in Hf. destruct Hf as (st2 & [= En2 <-] & H2).
        assert (st2 = st); [|congruence]. assert (En3 : st_name st2 = st_name st) by congruence. clear - Nd Hs H2 En3. induction sts as [|x l IHl]; [destruct Hs|]. inversion Nd as [|? ? Nx Nl]; subst.
        destruct Hs as [->|Hs], H2 as [->|H2]; [reflexivity| | |apply IHl; assumption]; exfalso; apply Nx; [rewrite <- En3|rewrite En3]; apply in_map; assumption. }
      rewrite L. f_equal. rewrite map_length in Len. apply nth_error_same. intros i.
      destruct (nth_error sts i) as [st|] eqn:Es.
      + destruct (Pt i (st_name st) (st_network st)) as (st' & E' & _ & _ & K & _); [rewrite nth_error_map, Es; reflexivity|].
        rewrite E'. f_equal. apply K; [apply (nth_error_In _ _ Es)|reflexivity].
      + apply nth_error_None. rewrite Len. apply nth_error_None, Es.
  Qed.
End C36.

(** One length: nothing is assumed about how the sizes depend on each other. *)
Corollary C36_one_length {A} (solves : network -> size -> A -> Prop) o u stores c0 asked c :
  (forall st, In st stores -> built_for (eq u) (truthful solves) st /\ exists mh, min_height (st_network st) = Some mh) ->
  start o u stores = Some c0 -> run solves o u c0 asked c -> (forall t, In t (cp_tasks c) -> tk_pending t = None) ->
  forall i t st, nth_error (cp_tasks c) i = Some t -> nth_error stores i = Some st ->
    exists mh w h a, min_height (st_network st) = Some mh /\ query o false u (tk_store t) = Some (Some a) /\
      searched o (st_network st) mh w h /\ solves (st_network st) (u, w, h) a /\
      forall w' h', searched o (st_network st) mh w' h' -> feasible solves (st_network st) (u, w', h') -> cost o w h <= cost o w' h'.
Proof.
  intros Ok E R Done i t st Et Es.
  assert (Hl : longer_helps solves (eq u)) by (intros net x x' w h <- <- _ F; exact F).
  destruct (C36_optimal solves (eq u) o u eq_refl Hl stores Ok c0 asked c E R Done) as [_ K].
  destruct (K i t st Et Es) as (_ & _ & mh & a & M & Q & (u' & w & h & Eu & _ & Se & Hs & Best)). subst u'.
  exists mh, w, h, a. split; [exact M|]. split; [exact Q|]. split; [exact Se|]. split; [exact Hs|].
  intros w' h' Se' F. apply (Best u w' h' eq_refl); [lia|exact Se'|exact F].
Qed.

(** A world where every network can be built when there are two rows and an even
    number of columns, four or more: more room does not always help. *)
Definition solves4 (net : network) (s : size) (a : string) : Prop := (let '(u, w, h) := s in 1 <= u /\ 4 <= w /\ w mod 2 = 0 /\ 2 <= h) /\ a = "layout".
Definition net3 : network := [((Some 0, Some 0), (Some 1, Some 2)); ((Some 0, Some 1), (Some 2, Some 2))].
Definition stores36 : list (store string) := [new_store "2x2" net2; new_store "3x3" net3].
Example C36_met : longer_helps solves4 (fun _ => True) /\ ~ monotone solves4 /\ NoDup (map st_name stores36) /\
  (forall st, In st stores36 -> built_for (fun _ => True) (truthful solves4) st /\ built_for (eq 4) (truthful solves4) st /\ exists mh, min_height (st_network st) = Some mh) /\
  (forall o st, In st stores36 -> exists mh w h, min_height (st_network st) = Some mh /\ searched o (st_network st) mh w h /\ feasible solves4 (st_network st) (4, w, h)).
Proof.
  split; [|split; [|split; [|split]]].
  - intros net u u' w h _ _ W (a & (Q1 & Q2 & Q3 & Q4) & E). exists a. split; [|exact E]. repeat split; try assumption. lia.
  - intros M. destruct (M net2 (1, 4, 2) (1, 5, 2)) as (a & (_ & _ & Q & _) & _); [unfold within; lia| |discriminate Q].
    exists "layout". split; [|reflexivity]. repeat split; lia.
  - cbn. repeat constructor; cbn; intuition discriminate.
  - intros st [<-|[<-|[]]]; (split; [constructor|split; [constructor|]]); [exists 2|exists 3]; vm_compute; reflexivity.
  - intros o st [<-|[<-|[]]]; [exists 2, 4, 2|exists 3, 4, 3]; (split; [vm_compute; reflexivity|]);
      (split; [destruct o; unfold searched; cbn; lia|exists "layout"; split; [repeat split; lia|reflexivity]]).
Qed.
(** A run in which the second network is answered first. *)
Example C36_run : exists c0 c, start Length 4 stores36 = Some c0 /\
  run solves4 Length 4 c0 [(1%nat, (4, 4, 3)); (0%nat, (4, 3, 2)); (0%nat, (4, 4, 2))] c /\
  map (fun t => (st_exist (tk_store t), tk_pending t)) (cp_tasks c) =
    [([((4, 4, 2), true); ((4, 3, 2), false)], None); ([((4, 4, 3), true)], None)].
Proof.
  assert (Y : forall net u h, 1 <= u -> 2 <= h -> truthful solves4 net (u, 4, h) (Some "layout"))
    by (intros net u h H1 H2; split; [repeat split; lia|reflexivity]).
  assert (N : forall net u h, truthful solves4 net (u, 3, h) None) by (intros net u h (a & (_ & Q & _) & _); lia).
  eexists. eexists. split; [vm_compute; reflexivity|]. split.
  - eapply run_step; [reflexivity|reflexivity|apply Y; lia|vm_compute; reflexivity|].
    eapply run_step; [reflexivity|reflexivity|apply N|vm_compute; reflexivity|].
    eapply run_step; [reflexivity|reflexivity|apply Y; lia|vm_compute; reflexivity|].
    apply run_done.
  - vm_compute. reflexivity.
Qed.

(** * C37: crashes while saving *)
(** save_progress should leave the old or the new text whenever it is
    interrupted.  It does not: for every old and new text that are not empty,
    there is an instant at which the file is empty. *)
Theorem C37_atomic_refuted old pieces : old <> "" -> String.concat "" pieces <> "" ->
  exists state, In state (save_states old pieces) /\ state <> old /\ state <> String.concat "" pieces.
Proof. intros H1 H2. exists "". split; [right; left; reflexivity|]. split; congruence. Qed.
Lemma written_prefix pieces : forall sofar state, In state (written sofar pieces) ->
  exists rest, state ++ rest = sofar ++ String.concat "" pieces.
Proof.
  induction pieces as [|p pieces IH]; intros sofar state H; [destruct H|].
  assert (E : String.concat "" (p :: pieces) = p ++ String.concat "" pieces).
  { cbn. destruct pieces; cbn; [|reflexivity]. clear. induction p as [|c p IH]; cbn; congruence. }
  assert (As : forall a b c : string, (a ++ b) ++ c = a ++ (b ++ c)) by (induction a as [|x a IHa]; intros; cbn; [reflexivity|rewrite IHa; reflexivity]).
  rewrite E, <- As. cbn [written] in H. destruct H as [<-|H]; [eexists; reflexivity|]. apply IH, H.
Qed.
(** What does hold: the file always has the old text or the beginning of the new
    one, and a save that is not interrupted ends with the new text. *)
Theorem C37_states old pieces state : In state (save_states old pieces) ->
  state = old \/ exists rest, state ++ rest = String.concat "" pieces.
Proof.
  intros [<-|[<-|H]]; [left; reflexivity|right; eexists; reflexivity|right]. apply (written_prefix pieces ""), H.
Qed.
Theorem C37_finished old pieces : pieces <> [] -> exists before, save_states old pieces = (before ++ [String.concat "" pieces])%list.
Proof.
  intros H. unfold save_states.
  assert (G : forall pieces sofar, pieces <> [] -> exists before, written sofar pieces = (before ++ [(sofar ++ String.concat "" pieces)%string])%list).
  { clear. assert (Nl : forall a : string, a ++ "" = a) by (induction a as [|x a IHa]; cbn; congruence).
    assert (As : forall a b c : string, (a ++ b) ++ c = a ++ (b ++ c)) by (induction a as [|x a IHa]; intros; cbn; [reflexivity|rewrite IHa; reflexivity]).
    induction pieces as [|p pieces IH]; intros sofar H; [congruence|]. destruct pieces as [|q pieces].
    - exists []. reflexivity.
    - destruct (IH (sofar ++ p) ltac:(discriminate)) as [before E]. exists ((sofar ++ p) :: before). cbn [written] in *. rewrite E. rewrite As. reflexivity. }
  destruct (G pieces "" H) as [before E]. exists (old :: "" :: before). rewrite E. reflexivity.
Qed.
Example C37_witness : save_states "{""old"": 1}" ["{"; """new"": 2"; "}"] = ["{""old"": 1}"; ""; "{"; "{""new"": 2"; "{""new"": 2}"].
Proof. reflexivity. Qed.

Print Assumptions C30_factors.
Print Assumptions C31_order_irrelevant.
Print Assumptions C32_minimal.
Print Assumptions C33_save_load.
Print Assumptions C34_finished.
Print Assumptions C35_finished.
Print Assumptions C36_progress.
Print Assumptions C36_never_twice.
Print Assumptions C36_terminates.
Print Assumptions C36_optimal.
Print Assumptions C36_one_length.
Print Assumptions C36_saved.
Print Assumptions C37_atomic_refuted.
