(** C110, C111: what the search for optimal balancers finds. *)
From Coq Require Import String ZArith List Bool Lia.
From Verif Require Import P_Network P_Network2 P_Benes P_Nonneg P_Similar T_Network.
From Verif Require Import Spec_Cnf Spec_Tile Spec_Layout Spec_Pattern Spec_Main M_Json M_Tile M_Util M_Card M_Network Spec_Network M_Template M_Grid M_Oracle M_Balancer M_Optimise M_Solve M_Main M_Optimal M_Find
  P_Cnf P_Util P_Util3 P_Card P_Tile P_Layout T_Tile P_List P_Template P_Walk P_Grid P_GridSound P_GridComplete P_Transport T_Grid T_Enumerate P_GridOk P_Gen P_Balancer
  Spec_Balancer P_Trace P_Realise P_Ends T_Balancer P_Lossless T_Lossless Spec_Edge P_Edge T_Edge P_Connect P_Main P_Pow2Total P_MainTotal Spec_Optimal Spec_Find P_OptOk P_Allocate P_Find P_Find2 P_Find3.
From Verif Require P_Cut2 T_Mirror P_NetTotal T_Template P_Colours4 P_Dpll P_Optimal P_Compute T_Optimal T_Main.
Import ListNotations.
Open Scope Z_scope.

(** ** C110 *)
Theorem C110_exactly E net u w h g cs top T : honest E -> nonneg net -> complete net -> 1 <= u ->
  search_clauses E net (u, w, h) = Some (g, cs, top) ->
  ((exists a, sat a cs = true /\ reads g a T) <-> wanted net (u, w, h) T).
Proof.
  intros HE Hn Cm Hu H. destruct (search_ends E net u w h g cs top H) as (ic & n & oc & m & Ends). rewrite (wanted_asks net u w h T ic n oc m Ends).
  exact (search_exactly E net u w h g cs top T ic n oc m HE Hn Cm Hu Ends H).
Qed.
(** For every size that a search may ask about the answer is true: a layout is one
    of those wanted, and there is none if the answer is that there is none.  In
    particular there is an answer. *)
Theorem C110_answers E solver o net mh u w h : honest E -> answers E -> P_Cut2.answers_atleast E -> full_answers solver ->
  nonneg net -> complete net -> min_height net = Some mh -> 1 <= u -> searched o net mh w h ->
  exists r, solve_balancer E solver net (u, w, h) = Some r /\ truthful shows_wanted net (u, w, h) r.
Proof.
  intros HE An AnL Fa Hn Cm M Hu (W3 & Room & Hh). unfold min_height in M.
  destruct (get_input_output_colours net) as [[[ic n] [oc m]]|] eqn:Ends; [|discriminate]. cbn [obind fst snd] in M. injection M as M.
  assert (mh <= h) by (destruct o; lia). pose proof (proj1 (ends_spec _ _ _ _ _) Ends) as ((Pn & Pm) & _).
  destruct (search_starts E net u w h ic n oc m HE An AnL Hn Hu Ends) as (g & cs & top & Hs); try nia.
  - intros [[a b] [c d]] Hnd. destruct (Cm _ Hnd) as (N1 & N2 & N3 & N4). cbn in *. destruct a, b, c, d; try contradiction. cbn. lia.
  - exact (solve_some E solver net u w h g cs top HE Hn Cm Hu ltac:(lia) Fa Hs).
Qed.
Corollary C110_true E solver o net mh u w h r : honest E -> answers E -> P_Cut2.answers_atleast E -> full_answers solver ->
  nonneg net -> complete net -> min_height net = Some mh -> 1 <= u -> searched o net mh w h ->
  solve_balancer E solver net (u, w, h) = Some r -> truthful shows_wanted net (u, w, h) r.
Proof.
  intros HE An AnL Fa Hn Cm M Hu Se Er. destruct (C110_answers E solver o net mh u w h HE An AnL Fa Hn Cm M Hu Se) as (r' & E1 & T). congruence.
Qed.
(** More room may make a size impossible: a single splitter between the inputs and
    the outputs fits three columns, and no other number of columns. *)
Lemma wanted_one_splitter net u w h T ic n oc m nd : get_input_output_colours net = Some ((ic, n), (oc, m)) ->
  In nd (elements (deduplicate_network net)) -> all_of ic (fst nd) = true -> all_of oc (snd nd) = true ->
  belts_of ic (map snd (elements (deduplicate_network net))) = 0 -> belts_of oc (map fst (elements (deduplicate_network net))) = 0 ->
  wanted net (u, w, h) T -> w = 3.
Proof.
  intros Ee Hin A1 A2 B1 B2 (ic' & n' & oc' & m' & P & wire & Ee' & _ & HR & (E1 & E2) & _).
  rewrite Ee in Ee'. injection Ee' as <- <- <- <-. unfold at_edge in E1, E2. rewrite B1 in E1. rewrite B2 in E2. cbn [Z.eqb] in E1, E2.
  apply In_nth_error in Hin. destruct Hin as [j Hj]. destruct HR as (Sl & _).
  destruct (nth_error (pl_splitters P) j) as [s|] eqn:Es.
  - destruct (E1 j nd s Hj Es A1) as [X1 _]. destruct (E2 j nd s Hj Es A2) as [X2 _]. lia.
  - apply nth_error_None in Es. assert (j < List.length (elements (deduplicate_network net)))%nat by (apply nth_error_Some; congruence). lia.
Qed.

(** A single row has no room for a splitter. *)
Lemma one_row net u w T : complete net -> ~ wanted net (u, w, 1) T.
Proof.
  intros Cm (ic & n & oc & m & P & wire & Ends & _ & HR & _). assert (Ends' : get_input_output_colours (elements (deduplicate_network net)) = Some ((ic, n), (oc, m))) by (rewrite deduplicate_ends; exact Ends).
  pose proof (ends_nonempty _ _ _ _ _ Ends') as Ne. destruct (elements (deduplicate_network net)) as [|nd nds] eqn:En; [contradiction|].
  pose proof (dedup_complete net Cm) as Cd. rewrite En in Cd.
  destruct HR as (Sl & _ & Sp & _ & _ & _ & _ & _ & _ & _ & _ & (_ & _ & Wr) & Lines). destruct (pl_splitters P) as [|s ss] eqn:Es; [discriminate|].
  destruct (Wr (FromSplitter 0 false)) as (k & Hk & Wk); [cbn; apply (Cd nd (or_introl eq_refl))|].
  destruct (Lines k Hk) as (st & f & St & _ & (q & r & B & _)). rewrite Wk in St. cbn [start_of] in St. rewrite Es in St. cbn [nth_error option_map] in St. injection St as <-. cbn [begins] in B.
  destruct B as (Ip & d & hd & Tp & Nb & _). set (p := half s (if pl_out P 0 then true else false)) in *. assert (Hs : p = fst s \/ p = snd s) by (unfold p, half; destruct (pl_out P 0); auto). clearbody p.
  destruct (Sp s (or_introl eq_refl)) as (I1 & I2 & d' & T1 & T2 & Na).
  assert (d = d') by (destruct Hs; subst p; congruence). subst d'. destruct Ip as [_ Ip], I1 as [_ I1], p as [x y], (fst s) as [x1 y1]. cbn in Ip, I1.
  assert (X : forall x0 y0 d0 q0, 0 <= y0 < 1 -> step_y d0 <> 0 -> neighbour (Spec_Interchange.rectangle w 1) (x0, y0) d0 = Some q0 -> False).
  { intros x0 y0 d0 q0 Hy Hd Hn. unfold neighbour, ahead, place in Hn. destruct (insideb _ _) eqn:I; [|discriminate]. unfold insideb in I. cbn [fst snd Spec_Interchange.rectangle aw ah wrapx wrapy] in I.
    rewrite !andb_true_iff, !Z.leb_le, !Z.ltb_lt in I. destruct d0; cbn in Hd, I; lia. }
  destruct d; [apply (X _ _ _ _ I1) in Na|apply (X _ _ _ _ Ip) in Nb|apply (X _ _ _ _ I1) in Na|apply (X _ _ _ _ Ip) in Nb]; try assumption; cbn; discriminate.
Qed.

(** ** C111 *)
(** A network as create_network.py writes them: no negative colours, four belts at
    every splitter, and inputs and outputs. *)
Definition searchable (net : network) : Prop := nonneg net /\ complete net /\ exists mh, min_height net = Some mh.
Section Search.
  Variables (E : card_encoder) (solver : cnf -> option (list lit)) (o : objective) (u : Z) (stores : list (store (list (list tile)))).
  Hypotheses (HE : honest E) (An : answers E) (AnL : P_Cut2.answers_atleast E) (Fa : full_answers solver) (Hu : 1 <= u).
  Definition answered (net : network) (s : size) (sol : option (list (list tile))) : Prop := solve_balancer E solver net s = Some sol.
  Hypothesis ready : forall st, In st stores -> searchable (st_network st) /\ built_for (eq u) answered st.

  Lemma answered_truthful o' (st : store (list (list tile))) s sol : searchable (st_network st) -> next_size o' st u = Some (Some s) -> answered (st_network st) s sol ->
    truthful shows_wanted (st_network st) s sol.
  Proof.
    intros (Hn & Cm & _) N A. destruct (T_Optimal.C34_asks o' st u s N) as (_ & mh & w & h & M & -> & Se & _).
    exact (C110_true E solver o' _ mh u w h sol HE An AnL Fa Hn Cm M Hu Se A).
  Qed.
  Lemma built_truthful (st : store (list (list tile))) : searchable (st_network st) -> built_for (eq u) answered st -> built_for (eq u) (truthful shows_wanted) st.
  Proof.
    intros S0 B. induction B as [name net|st o' u' s sol B IH Eu N A]; [apply built_for_new|]. subst u'. cbn in S0.
    specialize (IH S0). apply (built_for_more (eq u) (truthful shows_wanted) st o' u s sol IH eq_refl N). exact (answered_truthful o' st s sol S0 N A).
  Qed.
  Lemma stores_ok st : In st stores -> built_for (eq u) (truthful shows_wanted) st /\ exists mh, min_height (st_network st) = Some mh.
  Proof. intros H. destruct (ready st H) as [S0 B]. split; [apply built_truthful; assumption|apply S0]. Qed.
  Lemma one_length : longer_helps shows_wanted (eq u).
  Proof. intros net x x' w h <- <- _ F. exact F. Qed.
  Definition all_searchable (c : computation (list (list tile))) : Prop := forall t, In t (cp_tasks c) -> searchable (st_network (tk_store t)).
  Lemma searches_run c asked c' : searches E solver o u c asked c' -> P_Compute.comp_ok shows_wanted (eq u) o u c -> all_searchable c -> run shows_wanted o u c asked c' /\ all_searchable c'.
  Proof.
    induction 1 as [c|c i t s sol c' asked c'' Ei P A D R IH]; intros Ok Al; [split; [apply run_done|exact Al]|].
    assert (It : In t (cp_tasks c)) by (eapply nth_error_In; exact Ei).
    assert (T : truthful shows_wanted (st_network (tk_store t)) s sol).
    { apply (answered_truthful o); [apply Al; exact It| |exact A]. unfold P_Compute.comp_ok in Ok. rewrite Forall_forall in Ok. destruct (Ok t It) as (_ & N & _). rewrite N, P. reflexivity. }
    destruct (P_Compute.deliver_keeps shows_wanted (eq u) o u one_length eq_refl c i t s sol c' Ok Ei P T D) as (Ok' & Nets & _).
    destruct IH as [IH Al']; [exact Ok'| |].
    { intros t' It'. apply (in_map (fun t => st_network (tk_store t))) in It'. rewrite Nets in It'. apply in_map_iff in It'. destruct It' as (t0 & E0 & I0). rewrite <- E0. apply Al. exact I0. }
    split; [|exact Al']. exact (run_step _ o u c i t s sol c' asked c'' Ei P T D IH).
  Qed.

  Lemma searches_ok c0 asked c : M_Optimal.start o u stores = Some c0 -> searches E solver o u c0 asked c -> run shows_wanted o u c0 asked c /\ all_searchable c.
  Proof.
    intros S0 R. destruct (P_Compute.start_ok shows_wanted (eq u) o u stores (T_Optimal.stores_good shows_wanted (eq u) one_length stores stores_ok)) as (c1 & E1 & Ok & Mp & _).
    assert (c1 = c0) by congruence. subst c1. apply searches_run; [exact R|exact Ok|]. intros t Ht. apply (in_map tk_store) in Ht. rewrite Mp in Ht. apply (ready _ Ht).
  Qed.
  (** The search starts, and can always go on: whatever happened before, every
      question a task waits for has an answer, and the answer is accepted. *)
  Theorem C111_progress : exists c0, M_Optimal.start o u stores = Some c0 /\
    forall asked c i t s, searches E solver o u c0 asked c -> nth_error (cp_tasks c) i = Some t -> tk_pending t = Some s ->
      exists sol c', solve_balancer E solver (st_network (tk_store t)) s = Some sol /\ deliver o u c i sol = Some c'.
  Proof.
    destruct (P_Compute.start_ok shows_wanted (eq u) o u stores (T_Optimal.stores_good shows_wanted (eq u) one_length stores stores_ok)) as (c1 & E1 & Ok & Mp & _).
    exists c1. split; [exact E1|]. intros asked c i t s R Ei P. destruct (searches_ok c1 asked c E1 R) as [R' Al].
    destruct (P_Compute.run_keeps shows_wanted (eq u) o u one_length eq_refl c1 asked c R' Ok) as (Ok' & _). unfold P_Compute.comp_ok in Ok'. rewrite Forall_forall in Ok'.
    assert (It : In t (cp_tasks c)) by (eapply nth_error_In; exact Ei). destruct (Ok' t It) as (_ & N & _). rewrite P in N.
    destruct (T_Optimal.C34_asks o _ u s N) as (_ & mh & w & h & M & -> & Se & _). destruct (Al t It) as (Hn & Cm & _).
    destruct (C110_answers E solver o _ mh u w h HE An AnL Fa Hn Cm M Hu Se) as (sol & A & T). exists sol.
    destruct (P_Compute.deliver_ok shows_wanted (eq u) o u one_length eq_refl c i t (u, w, h) sol) as (n & D & _); [apply Forall_forall; exact Ok'|exact Ei|exact P|exact T|].
    eexists. split; [exact A|exact D].
  Qed.
  (** If every network has a layout that is wanted, of a size that is searched, then
      the search is over after a bounded number of answers, in whatever order they
      arrive. *)
  Theorem C111_terminates :
    (forall st, In st stores -> exists mh w h T, min_height (st_network st) = Some mh /\ searched o (st_network st) mh w h /\ wanted (st_network st) (u, w, h) T) ->
    exists bound, forall c0 asked c, M_Optimal.start o u stores = Some c0 -> searches E solver o u c0 asked c -> (List.length asked <= bound)%nat.
  Proof.
    intros F. destruct (T_Optimal.C36_terminates shows_wanted (eq u) o u eq_refl one_length stores stores_ok) as [bound B].
    { intros st H. destruct (F st H) as (mh & w & h & T & M & Se & W). exists mh, w, h. split; [exact M|]. split; [exact Se|]. exists (Spec_Main.written T w h), T. auto. }
    exists bound. intros c0 asked c S0 R. apply (B c0 asked c S0). apply (searches_ok c0 asked c S0 R).
  Qed.
  (** When it is over, the query prints for every network a layout that is wanted,
      of a size that was searched, and no smaller size has one. *)
  Theorem C111_optimal c0 asked c : M_Optimal.start o u stores = Some c0 -> searches E solver o u c0 asked c ->
    (forall t, In t (cp_tasks c) -> tk_pending t = None) ->
    forall i t st, nth_error (cp_tasks c) i = Some t -> nth_error stores i = Some st ->
      exists mh w h T, min_height (st_network st) = Some mh /\ query o false u (tk_store t) = Some (Some (Spec_Main.written T w h)) /\
        searched o (st_network st) mh w h /\ wanted (st_network st) (u, w, h) T /\
        forall w' h' T', searched o (st_network st) mh w' h' -> wanted (st_network st) (u, w', h') T' -> cost o w h <= cost o w' h'.
  Proof.
    intros S0 R Done i t st Et Es. destruct (searches_ok c0 asked c S0 R) as [R' _].
    destruct (T_Optimal.C36_one_length shows_wanted o u stores c0 asked c stores_ok S0 R' Done i t st Et Es) as (mh & w & h & a & M & Q & Se & (T & -> & W) & Best). cbn [fst snd] in Q, Best.
    exists mh, w, h, T. split; [exact M|]. split; [exact Q|]. split; [exact Se|]. split; [exact W|].
    intros w' h' T' Se' W'. apply Best; [exact Se'|]. exists (Spec_Main.written T' w' h'), T'. auto.
  Qed.
  (** The search for the shortest balancer looks at one height only.  There it may
      find nothing for ever: a single row has no room for a splitter. *)
  Theorem C111_ends_refuted st c0 asked c : stores = [st] -> o = Length -> min_height (st_network st) = Some 1 ->
    M_Optimal.start o u stores = Some c0 -> searches E solver o u c0 asked c ->
    exists t s sol c', cp_tasks c = [t] /\ tk_pending t = Some s /\ solve_balancer E solver (st_network (tk_store t)) s = Some sol /\ deliver o u c 0 sol = Some c'.
  Proof.
    intros Es Eo M1 S0 R.
    destruct (P_Compute.start_ok shows_wanted (eq u) o u stores (T_Optimal.stores_good shows_wanted (eq u) one_length stores stores_ok)) as (c1 & E1 & Ok & Mp & _).
    assert (c1 = c0) by congruence. subst c1. destruct (P_Compute.run_keeps shows_wanted (eq u) o u one_length eq_refl c0 asked c (proj1 (searches_ok c0 asked c S0 R)) Ok) as (_ & Nets & _).
    assert (Len : List.length (cp_tasks c) = 1%nat).
    { pose proof (f_equal (@List.length _) Nets) as L. pose proof (f_equal (@List.length _) Mp) as L2. rewrite !map_length in *. rewrite Es in L2. cbn in L2. congruence. }
    destruct (cp_tasks c) as [|t [|t2 ts]] eqn:Ts; try discriminate.
    destruct (tk_pending t) as [s|] eqn:Pt.
    - destruct C111_progress as (c2 & E2 & Pr). assert (c2 = c0) by congruence. subst c2. destruct (Pr asked c 0%nat t s R) as (sol & c' & A & D); [rewrite Ts; reflexivity|exact Pt|].
      exists t, s, sol, c'. auto.
    - exfalso. destruct (C111_optimal c0 asked c S0 R) with (i := 0%nat) (t := t) (st := st) as (mh & w & h & T & M & _ & Se & W & _).
      + intros x Hx. rewrite Ts in Hx. destruct Hx as [<-|[]]. exact Pt.
      + rewrite Ts. reflexivity.
      + rewrite Es. reflexivity.
      + assert (mh = 1) by congruence. subst mh o. destruct Se as (_ & _ & ->). destruct (ready st) as [(_ & Cm & _) _]; [rewrite Es; left; reflexivity|].
        exact (one_row (st_network st) u w T Cm W).
  Qed.
End Search.

(** ** Examples *)
(** A solver that answers in full: the search of P_Dpll, with all other variables
    false. *)
Definition full_solver (cs : cnf) : option (list lit) :=
  match P_Dpll.dpll (S (P_Dpll.weight cs)) cs with
  | None => None
  | Some m =>
      let top := fold_right Z.max 0 (flat_map (map Z.abs) cs) in
      Some (m ++ map Z.opp (filter (fun v => negb (existsb (fun l => Z.abs l =? v) m)) (map Z.of_nat (seq 1 (Z.to_nat top)))))%list
  end.
Lemma max_bound (l : list Z) x : In x l -> x <= fold_right Z.max 0 l.
Proof. induction l as [|y l IH]; intros []; cbn [fold_right]; [subst; lia|]. specialize (IH H). lia. Qed.
Lemma full_solver_ok : full_answers full_solver.
Proof.
  intros cs Nz. unfold full_solver. pose proof (P_Dpll.dpll_spec (S (P_Dpll.weight cs)) cs ltac:(lia) Nz) as D. destruct (P_Dpll.dpll (S (P_Dpll.weight cs)) cs) as [m|]; [|exact D]. destruct D as (D1 & D2 & D3).
  set (top := fold_right Z.max 0 (flat_map (map Z.abs) cs)).
  set (rest := filter (fun v => negb (existsb (fun l => Z.abs l =? v) m)) (map Z.of_nat (seq 1 (Z.to_nat top)))).
  assert (Rp : forall v, In v rest -> 0 < v /\ ~ In v (map Z.abs m)).
  { intros v H. apply filter_In in H. destruct H as [H1 H2]. apply in_map_iff in H1. destruct H1 as (k & <- & Hk). apply in_seq in Hk. split; [lia|].
    intros I. apply in_map_iff in I. destruct I as (x & Ex & Ix). rewrite (proj2 (existsb_exists _ _)) in H2; [discriminate|]. exists x. split; [exact Ix|]. apply Z.eqb_eq. exact Ex. }
  assert (Ab : map Z.abs (m ++ map Z.opp rest) = (map Z.abs m ++ rest)%list).
  { rewrite map_app, map_map. rewrite (map_ext_in _ (fun v => v) rest) by (intros v Hv; apply Rp in Hv; lia). rewrite map_id. reflexivity. }
  assert (Nm : Forall nonzero (m ++ map Z.opp rest)).
  { apply Forall_app. split; apply Forall_forall; [intros x Hx; apply D2; exact Hx|]. intros x Hx. apply in_map_iff in Hx. destruct Hx as (v & <- & Hv). apply Rp in Hv. unfold nonzero. lia. }
  assert (ND : NoDup (map Z.abs (m ++ map Z.opp rest))).
  { rewrite Ab. assert (Nr : NoDup rest) by (apply NoDup_filter, FinFun.Injective_map_NoDup; [intros a b; lia|apply seq_NoDup]).
    assert (Dj : forall v, In v (map Z.abs m) -> ~ In v rest) by (intros v H1 H2; apply Rp in H2; tauto). revert D1 Dj. generalize (map Z.abs m). induction l as [|x l IH]; intros Dl Dj; [exact Nr|].
    inversion Dl; subst. cbn. constructor; [rewrite in_app_iff; intros [H'|H']; [contradiction|]; apply (Dj x (or_introl eq_refl) H')|]. apply IH; [assumption|intros v Hv; apply Dj; right; exact Hv]. }
  split; [exact Nm|]. split; [exact ND|]. split.
  - intros c l v Hc Hl Hv. rewrite Ab, in_app_iff. destruct (existsb (fun x => Z.abs x =? v) m) eqn:Ex.
    + left. apply existsb_exists in Ex. destruct Ex as (x & Ix & Ev). apply Z.eqb_eq in Ev. subst v. apply in_map. exact Ix.
    + right. apply filter_In. rewrite Ex. split; [|reflexivity]. apply in_map_iff. exists (Z.to_nat v). split; [lia|]. apply in_seq.
      assert (v <= top) by (transitivity (Z.abs l); [lia|]; apply max_bound; apply in_flat_map; exists c; split; [exact Hc|apply in_map; exact Hl]). lia.
  - apply sat_forall. intros c Hc. destruct (D3 c Hc) as (l & Ic & Im). unfold satc. apply existsb_exists. exists l. split; [exact Ic|]. destruct (D2 l Im) as [Nl _].
    set (m' := (m ++ map Z.opp rest)%list) in *. assert (Im' : In l m') by (apply in_app_iff; auto). unfold evl. destruct (Z.ltb_spec 0 l) as [P|P].
    + apply existsb_exists. exists l. split; [exact Im'|apply Z.eqb_refl].
    + apply negb_true_iff. destruct (existsb (Z.eqb (- l)) m') eqn:Ee; [|reflexivity]. exfalso. apply existsb_exists in Ee. destruct Ee as (x & Ix & Ex). apply Z.eqb_eq in Ex. subst x. revert ND Im' Ix. generalize m'. clear -P Nl.
      induction m' as [|y m' IH]; intros D I1 I2; [destruct I1|]. cbn in D. inversion D as [|? ? D1 D2]; subst. destruct I1 as [->|I1], I2 as [E'|I2]; [lia| | |exact (IH D2 I1 I2)].
      * apply D1. replace (Z.abs l) with (Z.abs (- l)) by lia. apply in_map. exact I2.
      * subst y. apply D1. replace (Z.abs (- l)) with (Z.abs l) by lia. apply in_map. exact I1.
Qed.

(** A splitter, and two splitters in a row. *)
Definition pair_net : network := [((Some 0, Some 0), (Some 1, Some 2)); ((Some 1, Some 2), (Some 3, Some 3))].
Lemma pair_nonneg : nonneg pair_net.
Proof. intros x Hx. cbn in Hx. intuition; match goal with H : Some _ = Some _ |- _ => injection H as <-; lia end. Qed.
Lemma pair_complete : complete pair_net.
Proof. intros nd [<-|[<-|[]]]; repeat split; discriminate. Qed.
Definition demo_stores : list (store (list (list tile))) := [new_store "2x2" demo_net; new_store "2-2" pair_net].
Lemma demo_ready u : forall st, In st demo_stores -> searchable (st_network st) /\ built_for (eq u) (answered naive_encoder full_solver) st.
Proof.
  intros st [<-|[<-|[]]]; (split; [|apply built_for_new]); cbn [st_network new_store].
  - split; [exact T_Main.demo_nonneg|]. split; [exact T_Main.demo_complete|]. exists 2. reflexivity.
  - split; [exact pair_nonneg|]. split; [exact pair_complete|]. exists 2. reflexivity.
Qed.
Definition one_splitter : list (list tile) := [[Belt RIGHT RIGHT; Splitter RIGHT false; Belt RIGHT RIGHT]; [Belt RIGHT RIGHT; Splitter RIGHT true; Belt RIGHT RIGHT]].
Definition two_splitters : list (list tile) := [[Belt RIGHT RIGHT; Splitter RIGHT false; Splitter RIGHT false; Belt RIGHT RIGHT]; [Belt RIGHT RIGHT; Splitter RIGHT true; Splitter RIGHT true; Belt RIGHT RIGHT]].
Lemma one_found : solve_balancer naive_encoder full_solver demo_net (4, 3, 2) = Some (Some one_splitter).
Proof. vm_compute. reflexivity. Qed.
Lemma two_found : solve_balancer naive_encoder full_solver pair_net (4, 4, 2) = Some (Some two_splitters).
Proof. vm_compute. reflexivity. Qed.
Example C110_demo : truthful shows_wanted demo_net (4, 3, 2) (Some one_splitter).
Proof.
  apply (C110_true naive_encoder full_solver Length demo_net 2 4 3 2); try exact one_found; try reflexivity; try lia.
  - exact naive_honest. - exact naive_answers. - exact P_Cut2.naive_answers_atleast. - exact full_solver_ok. - exact T_Main.demo_nonneg. - exact T_Main.demo_complete.
  - repeat split; cbn; lia.
Qed.
(** So more room does not always help. *)
Theorem C110_more_room_refuted : ~ monotone shows_wanted.
Proof.
  intros M. destruct (M demo_net (4, 3, 2) (4, 4, 2)) as (rows & T & _ & W); [cbn; lia|eexists; exact C110_demo|].
  pose proof (wanted_one_splitter demo_net 4 4 2 T 0 2 1 2 ((Some 0, Some 0), (Some 1, Some 1)) eq_refl (or_introl eq_refl) eq_refl eq_refl eq_refl eq_refl W) as X. discriminate.
Qed.
(** The two searches ask one question each, here the second first; then they are
    over, and the queries print the layouts. *)
Example C111_demo : exists c0 c t1 t2, M_Optimal.start Length 4 demo_stores = Some c0 /\
  searches naive_encoder full_solver Length 4 c0 [(1%nat, (4, 4, 2)); (0%nat, (4, 3, 2))] c /\ cp_tasks c = [t1; t2] /\ tk_pending t1 = None /\ tk_pending t2 = None /\
  query Length false 4 (tk_store t1) = Some (Some one_splitter) /\ query Length false 4 (tk_store t2) = Some (Some two_splitters).
Proof.
  do 4 eexists. split; [vm_compute; reflexivity|]. split; [eapply searches_step; [reflexivity|reflexivity|exact two_found|vm_compute; reflexivity|]; eapply searches_step; [reflexivity|reflexivity|exact one_found|vm_compute; reflexivity|apply searches_done]|].
  split; [reflexivity|]. repeat split; vm_compute; reflexivity.
Qed.
Example C111_demo_optimal : forall w' h' T', searched Length pair_net 2 w' h' -> wanted pair_net (4, w', h') T' -> 4 <= w'.
Proof.
  destruct C111_demo as (c0 & c & t1 & t2 & S0 & R & Ts & P1 & P2 & Q1 & Q2).
  destruct (C111_optimal naive_encoder full_solver Length 4 demo_stores naive_honest naive_answers P_Cut2.naive_answers_atleast full_solver_ok ltac:(lia) (demo_ready 4) c0 _ c S0 R) with (i := 1%nat) (t := t2) (st := new_store (A := list (list tile)) "2-2" pair_net) as (mh & w & h & T & M & Q & Se & W & Best).
  - rewrite Ts. intros t [<-|[<-|[]]]; assumption.
  - rewrite Ts. reflexivity.
  - reflexivity.
  - cbn [st_network new_store] in *. injection M as <-. rewrite Q2 in Q. intros w' h' T' Se' W'. specialize (Best w' h' T' Se' W'). cbn [cost] in Best. destruct Se as (W3 & Room & _), Se' as (W3' & Room' & Hh). cbn in Room, Room', Hh. subst h'. lia.
Qed.
(** The hypothesis of the bound is met. *)
Example C111_demo_bounded : exists bound, forall c0 asked c, M_Optimal.start Length 4 demo_stores = Some c0 -> searches naive_encoder full_solver Length 4 c0 asked c -> (List.length asked <= bound)%nat.
Proof.
  apply (C111_terminates naive_encoder full_solver Length 4 demo_stores naive_honest naive_answers P_Cut2.naive_answers_atleast full_solver_ok ltac:(lia) (demo_ready 4)).
  intros st [<-|[<-|[]]]; cbn [st_network new_store].
  - destruct C110_demo as (T & _ & W). exists 2, 3, 2, T. split; [reflexivity|]. split; [repeat split; cbn; lia|exact W].
  - assert (X : truthful shows_wanted pair_net (4, 4, 2) (Some two_splitters)).
    { apply (C110_true naive_encoder full_solver Length pair_net 2 4 4 2); try exact two_found; try reflexivity; try lia.
      - exact naive_honest. - exact naive_answers. - exact P_Cut2.naive_answers_atleast. - exact full_solver_ok. - exact pair_nonneg. - exact pair_complete.
      - repeat split; cbn; lia. }
    destruct X as (T & _ & W). exists 2, 4, 2, T. split; [reflexivity|]. split; [repeat split; cbn; lia|exact W].
Qed.
(** One input, one output, and a belt back. *)
Definition loop_net : network := [((Some 0, Some 1), (Some 1, Some 2))].
Example C111_ends_demo : searchable loop_net /\ min_height loop_net = Some 1 /\
  exists c0, M_Optimal.start Length 4 [new_store (A := list (list tile)) "1x1" loop_net] = Some c0 /\
    forall asked c, searches naive_encoder full_solver Length 4 c0 asked c -> exists t s, cp_tasks c = [t] /\ tk_pending t = Some s.
Proof.
  assert (Sa : searchable loop_net).
  { split; [|split; [|exists 1; reflexivity]].
    - intros x Hx. cbn in Hx. intuition; match goal with H : Some _ = Some _ |- _ => injection H as <-; lia end.
    - intros nd [<-|[]]. repeat split; discriminate. }
  split; [exact Sa|]. split; [reflexivity|]. eexists. split; [vm_compute; reflexivity|]. intros asked c R.
  destruct (C111_ends_refuted naive_encoder full_solver Length 4 [new_store "1x1" loop_net] naive_honest naive_answers P_Cut2.naive_answers_atleast full_solver_ok ltac:(lia)) with (st := new_store (A := list (list tile)) "1x1" loop_net) (6 := R) as (t & s & _ & _ & H1 & H2 & _); try reflexivity; [|eauto].
  intros st [<-|[]]. split; [exact Sa|apply built_for_new].
Qed.

Print Assumptions C111_ends_refuted.
Print Assumptions C110_exactly.
Print Assumptions C110_answers.
Print Assumptions C110_true.
Print Assumptions C110_more_room_refuted.
Print Assumptions C111_progress.
Print Assumptions C111_terminates.
Print Assumptions C111_optimal.
