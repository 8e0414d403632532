(** C112: what the drawing of a network shows. *)
From Coq Require Import ZArith List Bool Lia Permutation.
From Verif Require Import P_Network P_Network2 P_Benes T_Network.
From Verif Require Import M_Json M_Network Spec_Network M_Balancer Spec_Plot M_Plot.
Import ListNotations.
Open Scope Z_scope.

(** ** Places *)
Lemma indexed_in {X} (l : list X) i x : In (i, x) (indexed l) <-> nth_error l i = Some x.
Proof.
  unfold indexed. change (nth_error l i = Some x) with ((fun k => nth_error l k = Some x) i).
  assert (K : forall s, In (i, x) (combine (seq s (List.length l)) l) <-> (s <= i)%nat /\ nth_error l (i - s) = Some x).
  { induction l as [|y l IH]; intros s; cbn [List.length seq combine In].
    - split; [intros []|intros [_ H]; destruct (i - s)%nat; discriminate].
    - rewrite IH. split.
      + intros [[= <- <-]|[H1 H2]]; [split; [lia|]; rewrite PeanoNat.Nat.sub_diag; reflexivity|]. split; [lia|]. replace (i - s)%nat with (Datatypes.S (i - Datatypes.S s)) by lia. exact H2.
      + intros [H1 H2]. destruct (PeanoNat.Nat.eq_dec i s) as [->|N]; [left; rewrite PeanoNat.Nat.sub_diag in H2; cbn in H2; congruence|]. right. split; [lia|].
        replace (i - s)%nat with (Datatypes.S (i - Datatypes.S s)) in H2 by lia. exact H2. }
  rewrite K. rewrite PeanoNat.Nat.sub_0_r. split; [tauto|]. intros H. split; [lia|exact H].
Qed.
Lemma mentioned net c b i : In (c, (b, i)) (all_mentions net) <-> (if b then takes_in net i c else makes net i c).
Proof.
  unfold all_mentions. rewrite in_flat_map. split.
  - intros ((c0 & p) & Hm & H). cbn [fst snd] in H. destruct c0 as [c0|]; [|destruct H]. destruct H as [[= -> ->]|[]]. apply in_flat_map in Hm. destruct Hm as ((k & nd) & Hk & Hm). apply indexed_in in Hk.
    cbn [mentions] in Hm. apply in_app_iff in Hm. destruct Hm as [Hm|Hm]; apply in_map_iff in Hm; destruct Hm as (x & [= -> <- <-] & Hx); destruct Hx as [Hx|[Hx|[]]]; exists nd; auto.
  - intros H. exists (Some c, (b, i)). split; [|left; reflexivity]. apply in_flat_map.
    assert (X : exists nd, nth_error net i = Some nd /\ In (Some c) (side_list (if b then fst nd else snd nd))).
    { destruct b; destruct H as (nd & En & H); exists nd; (split; [exact En|]); cbn; tauto. }
    destruct X as (nd & En & X). exists (i, nd). split; [apply indexed_in; exact En|]. cbn [mentions]. apply in_app_iff.
    destruct b; [left|right]; apply in_map_iff; exists (Some c); auto.
Qed.
Lemma places_in net c b i : In (b, i) (places net c) <-> (if b then takes_in net i c else makes net i c).
Proof.
  unfold places. rewrite nodup_In, in_map_iff, <- mentioned. split.
  - intros ((c0 & p) & E & H). cbn in E. subst p. apply filter_In in H. destruct H as [H1 H2]. apply Z.eqb_eq in H2. cbn in H2. subst c0. exact H1.
  - intros H. exists (c, (b, i)). split; [reflexivity|]. apply filter_In. split; [exact H|apply Z.eqb_refl].
Qed.
Lemma colours_in net c : In c (plot_colours net) <-> exists i, makes net i c \/ takes_in net i c.
Proof.
  unfold plot_colours. rewrite nodup_In, in_map_iff. split.
  - intros ((c0 & b & i) & E & H). cbn in E. subst c0. apply mentioned in H. exists i. destruct b; auto.
  - intros (i & [H|H]); [exists (c, (false, i))|exists (c, (true, i))]; (split; [reflexivity|]); apply mentioned; exact H.
Qed.
Lemma side_filter net c b i : In i (map snd (filter (fun p => Bool.eqb (fst p) b) (places net c))) <-> (if b then takes_in net i c else makes net i c).
Proof.
  rewrite in_map_iff. rewrite <- places_in. split.
  - intros ((b0 & i0) & E & H). cbn in E. subst i0. apply filter_In in H. destruct H as [H1 H2]. apply eqb_prop in H2. cbn in H2. subst b0. exact H1.
  - intros H. exists (b, i). split; [reflexivity|]. apply filter_In. split; [exact H|apply eqb_reflx].
Qed.
Lemma side_nodup net c b : NoDup (map snd (filter (fun p => Bool.eqb (fst p) b) (places net c))).
Proof.
  assert (N : NoDup (filter (fun p => Bool.eqb (fst p) b) (places net c))) by apply NoDup_filter, NoDup_nodup.
  assert (F : forall p, In p (filter (fun p => Bool.eqb (fst p) b) (places net c)) -> fst p = b) by (intros p H; apply filter_In in H; apply eqb_prop, H).
  revert N F. generalize (filter (fun p => Bool.eqb (fst p) b) (places net c)). induction l as [|p l IH]; intros N F; [constructor|]. inversion N as [|? ? N1 N2]; subst. cbn [map]. constructor.
  - intros H. apply in_map_iff in H. destruct H as (q & Eq & Hq). apply N1. pose proof (F p (or_introl eq_refl)) as F1. pose proof (F q (or_intror Hq)) as F2. destruct p, q. cbn in *. subst. exact Hq.
  - apply IH; [exact N2|]. intros q Hq. apply F. right. exact Hq.
Qed.
Lemma single l (i : nat) : NoDup l -> (forall k, In k l <-> k = i) -> l = [i].
Proof.
  intros N H. destruct l as [|x [|y l]].
  - destruct (proj2 (H i) eq_refl).
  - f_equal. apply H. left. reflexivity.
  - exfalso. inversion N as [|? ? N1 _]; subst. apply N1. assert (x = i) by (apply H; left; reflexivity). assert (y = i) by (apply H; right; left; reflexivity). subst. left. reflexivity.
Qed.

(** ** C112 *)
Section Plot.
  Variable order : list (bool * nat) -> list (bool * nat).
  Hypothesis permutes : forall l, Permutation (order l) l.

  (** The arrows of a colour. *)
  Lemma arrows_private net c i j : (forall k, makes net k c <-> k = i) -> (forall k, takes_in net k c <-> k = j) ->
    colour_arrows order c (places net c) = [ {| ar_from := Node i; ar_to := Node j; ar_label := Some c; ar_head := true |} ].
  Proof.
    intros Hi Hj. unfold colour_arrows.
    assert (E1 : map snd (filter (fun p => Bool.eqb (fst p) input_side) (places net c)) = [i]) by (apply single; [apply side_nodup|]; intros k; rewrite side_filter; apply Hi).
    assert (E2 : map snd (filter (fun p => Bool.eqb (fst p) output_side) (places net c)) = [j]) by (apply single; [apply side_nodup|]; intros k; rewrite side_filter; apply Hj).
    destruct (filter (fun p => Bool.eqb (fst p) input_side) (places net c)) as [|[? a] [|? ?]]; try discriminate. destruct (filter (fun p => Bool.eqb (fst p) output_side) (places net c)) as [|[? bb] [|? ?]]; try discriminate.
    cbn in E1, E2. congruence.
  Qed.
  Lemma arrows_shared net c e : ~ private net c -> (In e (colour_arrows order c (places net c)) <->
    ar_label e = None /\ ((exists i, makes net i c /\ ar_from e = Node i /\ ar_to e = Meet c /\ (ar_head e = true <-> forall k, ~ takes_in net k c)) \/
    (exists j, takes_in net j c /\ ar_from e = Meet c /\ ar_to e = Node j /\ ar_head e = true))).
  Proof.
    intros NP. unfold colour_arrows.
    set (takers := filter (fun p => Bool.eqb (fst p) output_side) (places net c)). set (makers := filter (fun p => Bool.eqb (fst p) input_side) (places net c)).
    set (rest := map _ (order (places net c))).
    assert (E : match makers with [(_, a)] => match takers with [(_, b)] => [ {| ar_from := Node a; ar_to := Node b; ar_label := Some c; ar_head := true |} ] | _ => rest end | _ => rest end = rest).
    { destruct makers as [|[? a] [|? ?]] eqn:Em; try reflexivity. destruct takers as [|[? b1] [|? ?]] eqn:Et; try reflexivity. exfalso. apply NP. exists a, b1. split; intros k.
      - pose proof (side_filter net c false k) as X. fold input_side in X. fold makers in X. rewrite Em in X. cbn in X. rewrite <- X. intuition congruence.
      - pose proof (side_filter net c true k) as X. fold output_side in X. fold takers in X. rewrite Et in X. cbn in X. rewrite <- X. intuition congruence. }
    rewrite E. clear E. assert (Tk : Nat.eqb (length takers) 0 = true <-> forall k, ~ takes_in net k c).
    { rewrite PeanoNat.Nat.eqb_eq. split.
      - intros L k H. apply (side_filter net c true k) in H. fold output_side in H. fold takers in H. destruct takers; [destruct H|discriminate].
      - intros H. destruct takers as [|[b' k] tk] eqn:Et; [reflexivity|]. exfalso. apply (H k). apply (side_filter net c true k). fold output_side. fold takers. rewrite Et. left. reflexivity. }
    unfold rest. rewrite in_map_iff. split.
    - intros ((b & i) & <- & H). apply (Permutation_in _ (permutes _)) in H. apply places_in in H. destruct b; cbn [Bool.eqb input_side ar_label]; (split; [reflexivity|]).
      + right. exists i. auto.
      + left. exists i. auto.
    - intros (L & [(i & H & F & T & Hd)|(j & H & F & T & Hd)]).
      + exists (false, i). split; [|apply (Permutation_in _ (Permutation_sym (permutes _))); apply places_in; exact H]. destruct e as [f t l h]. cbn [Bool.eqb input_side ar_label ar_from ar_to ar_head] in *. subst. f_equal. apply eq_true_iff_eq. rewrite Tk, Hd. reflexivity.
      + exists (true, j). split; [|apply (Permutation_in _ (Permutation_sym (permutes _))); apply places_in; exact H]. destruct e as [f t l h]. cbn [Bool.eqb input_side ar_label ar_from ar_to ar_head] in *. subst. reflexivity.
  Qed.
  Lemma private_dec net c : private net c \/ ~ private net c.
  Proof.
    assert (D : forall b, {k | forall i, (if b : bool then takes_in net i c else makes net i c) <-> i = k} + {forall k, ~ forall i, (if b : bool then takes_in net i c else makes net i c) <-> i = k}).
    { intros b. pose proof (side_filter net c b) as X. pose proof (side_nodup net c b) as N. destruct (map snd (filter (fun p => Bool.eqb (fst p) b) (places net c))) as [|x [|y l]].
      - right. intros k H. apply (X k). apply H. reflexivity.
      - left. exists x. intros i. rewrite <- X. cbn. intuition congruence.
      - right. intros k H. inversion N as [|? ? N1 _]; subst. apply N1. left. transitivity k; [apply H, X; right; left; reflexivity|]. symmetry. apply H, X. left. reflexivity. }
    destruct (D false) as [[i Hi]|N]; [|right; intros (i & j & Hi & _); exact (N i Hi)]. destruct (D true) as [[j Hj]|N]; [|right; intros (i' & j & _ & Hj); exact (N j Hj)]. left. exists i, j. auto.
  Qed.
  (** All the arrows. *)
  Theorem C112_arrows net ic n oc m G e : get_input_output_colours net = Some ((ic, n), (oc, m)) -> plot order net = Some G ->
    (In e G <->
      (e = {| ar_from := Start; ar_to := Meet ic; ar_label := None; ar_head := true |}) \/
      (e = {| ar_from := Meet oc; ar_to := End; ar_label := None; ar_head := true |}) \/
      exists c,
        (private net c /\ exists i j, makes net i c /\ takes_in net j c /\ e = {| ar_from := Node i; ar_to := Node j; ar_label := Some c; ar_head := true |}) \/
        (~ private net c /\ ar_label e = None /\
          ((exists i, makes net i c /\ ar_from e = Node i /\ ar_to e = Meet c /\ (ar_head e = true <-> forall k, ~ takes_in net k c)) \/
           (exists j, takes_in net j c /\ ar_from e = Meet c /\ ar_to e = Node j /\ ar_head e = true)))).
  Proof.
    intros Ends Hp. unfold plot in Hp. rewrite Ends in Hp. cbn [obind fst snd] in Hp. injection Hp as <-. cbn [app In]. rewrite in_flat_map.
    assert (K : (exists x, In x (plot_colours net) /\ In e (colour_arrows order x (places net x))) <-> exists c,
        (private net c /\ exists i j, makes net i c /\ takes_in net j c /\ e = {| ar_from := Node i; ar_to := Node j; ar_label := Some c; ar_head := true |}) \/
        (~ private net c /\ ar_label e = None /\
          ((exists i, makes net i c /\ ar_from e = Node i /\ ar_to e = Meet c /\ (ar_head e = true <-> forall k, ~ takes_in net k c)) \/
           (exists j, takes_in net j c /\ ar_from e = Meet c /\ ar_to e = Node j /\ ar_head e = true)))).
    { split.
      - intros (c & _ & H). exists c. destruct (private_dec net c) as [Pr|NP].
        + left. split; [exact Pr|]. destruct Pr as (i & j & Hi & Hj). rewrite (arrows_private net c i j Hi Hj) in H. destruct H as [<-|[]]. exists i, j. split; [apply Hi; reflexivity|]. split; [apply Hj; reflexivity|reflexivity].
        + right. split; [exact NP|]. apply arrows_shared; assumption.
      - intros (c & [(Pr & i & j & Hi & Hj & ->)|(NP & H)]); exists c.
        + split; [apply colours_in; eauto|]. destruct Pr as (i' & j' & Hi' & Hj'). rewrite (arrows_private net c i' j' Hi' Hj'). apply Hi' in Hi. apply Hj' in Hj. subst. left. reflexivity.
        + split; [|apply arrows_shared; assumption]. apply colours_in. destruct H as (_ & [(i & H & _)|(j & H & _)]); eauto. }
    rewrite K. intuition.
  Qed.
  (** The drawing shows that a belt of some colour leads from one splitter to another
      exactly if the one makes that colour and the other takes it. *)
  Theorem C112_belts net G i j c : plot order net = Some G -> (shows_belt G i j c <-> makes net i c /\ takes_in net j c).
  Proof.
    intros Hp. destruct (get_input_output_colours net) as [[[ic n] [oc m]]|] eqn:Ends; [|unfold plot in Hp; rewrite Ends in Hp; discriminate].
    assert (A := fun e => C112_arrows net ic n oc m G e Ends Hp). split.
    - intros [(e & He & F & T & L & _)|((e1 & H1 & F1 & T1) & (e2 & H2 & F2 & T2 & _))].
      + apply A in He. destruct He as [->|[->|(c' & [(_ & i' & j' & Hi & Hj & ->)|(_ & L' & _)])]]; try discriminate; [|congruence]. cbn in F, T, L. injection F as ->. injection T as ->. injection L as ->. auto.
      + split.
        * apply A in H1. destruct H1 as [->|[->|(c' & [(_ & i' & j' & Hi & Hj & ->)|(_ & _ & [(i' & Hi & F & T & _)|(j' & Hj & F & T & _)])])]]; try discriminate; cbn in *; try congruence.
        * apply A in H2. destruct H2 as [->|[->|(c' & [(_ & i' & j' & Hi & Hj & ->)|(_ & _ & [(i' & Hi & F & T & _)|(j' & Hj & F & T & _)])])]]; try discriminate; cbn in *; try congruence.
    - intros [Hi Hj]. destruct (private_dec net c) as [Pr|NP].
      + left. eexists. split; [apply A; right; right; exists c; left; split; [exact Pr|]; exists i, j; split; [exact Hi|]; split; [exact Hj|reflexivity]|]. auto.
      + right. split.
        * exists {| ar_from := Node i; ar_to := Meet c; ar_label := None; ar_head := false |}. split; [|auto]. apply A. right. right. exists c. right. split; [exact NP|]. split; [reflexivity|]. left. exists i. cbn. repeat split; auto; [discriminate|]. intros K. exfalso. exact (K j Hj).
        * exists {| ar_from := Meet c; ar_to := Node j; ar_label := None; ar_head := true |}. split; [|auto]. apply A. right. right. exists c. right. split; [exact NP|]. split; [reflexivity|]. right. exists j. auto.
  Qed.
  (** It shows where the inputs go, unless the colour of the inputs is made and taken
      by one splitter each; then it shows no splitter that the inputs lead to. *)
  Theorem C112_inputs net ic n oc m G j c : get_input_output_colours net = Some ((ic, n), (oc, m)) -> plot order net = Some G ->
    (shows_input G j c <-> c = ic /\ ~ private net ic /\ takes_in net j c).
  Proof.
    intros Ends Hp. assert (A := fun e => C112_arrows net ic n oc m G e Ends Hp). split.
    - intros ((e1 & H1 & F1 & T1) & (e2 & H2 & F2 & T2)).
      apply A in H1. destruct H1 as [->|[->|(c' & [(_ & i' & j' & Hi & Hj & ->)|(_ & _ & [(i' & Hi & F & T & _)|(j' & Hj & F & T & _)])])]]; try discriminate; cbn in *; try congruence. injection T1 as <-.
      apply A in H2. destruct H2 as [->|[->|(c' & [(_ & i' & j' & Hi & Hj & ->)|(NP & _ & [(i' & Hi & F & T & _)|(j' & Hj & F & T & _)])])]]; try discriminate; cbn in *; try congruence.
      rewrite F in F2. injection F2 as ->. rewrite T in T2. injection T2 as ->. auto.
    - intros (-> & NP & Hj). split.
      + eexists. split; [apply A; left; reflexivity|auto].
      + exists {| ar_from := Meet ic; ar_to := Node j; ar_label := None; ar_head := true |}. split; [|auto]. apply A. right. right. exists ic. right. split; [exact NP|]. split; [reflexivity|]. right. exists j. auto.
  Qed.
  Theorem C112_outputs net ic n oc m G i c : get_input_output_colours net = Some ((ic, n), (oc, m)) -> plot order net = Some G ->
    (shows_output G i c <-> c = oc /\ ~ private net oc /\ makes net i c).
  Proof.
    intros Ends Hp. assert (A := fun e => C112_arrows net ic n oc m G e Ends Hp). split.
    - intros ((e2 & H2 & F2 & T2) & (e1 & H1 & F1 & T1)).
      apply A in H1. destruct H1 as [->|[->|(c' & [(_ & i' & j' & Hi & Hj & ->)|(_ & _ & [(i' & Hi & F & T & _)|(j' & Hj & F & T & _)])])]]; try discriminate; cbn in *; try congruence. injection F1 as <-.
      apply A in H2. destruct H2 as [->|[->|(c' & [(_ & i' & j' & Hi & Hj & ->)|(NP & _ & [(i' & Hi & F & T & _)|(j' & Hj & F & T & _)])])]]; try discriminate; cbn in *; try congruence.
      rewrite F in F2. injection F2 as ->. rewrite T in T2. injection T2 as ->. auto.
    - intros (-> & NP & Hi). split.
      + assert (D : (forall k, ~ takes_in net k oc) \/ ~ (forall k, ~ takes_in net k oc)).
        { destruct (map snd (filter (fun p => Bool.eqb (fst p) true) (places net oc))) as [|x l] eqn:E.
          - left. intros k H. apply (side_filter net oc true k) in H. rewrite E in H. destruct H.
          - right. intros H. apply (H x). apply (side_filter net oc true x). rewrite E. left. reflexivity. }
        destruct D as [D|D]; [exists {| ar_from := Node i; ar_to := Meet oc; ar_label := None; ar_head := true |}|exists {| ar_from := Node i; ar_to := Meet oc; ar_label := None; ar_head := false |}];
          (split; [|auto]); apply A; right; right; exists oc; right; (split; [exact NP|]); (split; [reflexivity|]); left; exists i; cbn; repeat split; auto; try discriminate; intros K; contradiction.
      + eexists. split; [apply A; right; left; reflexivity|auto].
  Qed.
  (** It is drawn exactly if the network has ends. *)
  Theorem C112_raises net : plot order net = None <-> ~ exists ic n oc m, has_ends net ic n oc m.
  Proof.
    unfold plot. destruct (get_input_output_colours net) as [[[ic n] [oc m]]|] eqn:E; cbn [obind].
    - split; [discriminate|]. intros H. exfalso. apply H. exists ic, n, oc, m. apply ends_spec. exact E.
    - split; [|reflexivity]. intros _ (ic & n & oc & m & H). apply ends_spec in H. congruence.
  Qed.
End Plot.
(** How many belts a splitter has of a colour is not shown: different networks,
    with different numbers of inputs and outputs, give the same drawing. *)
Theorem C112_numbers_refuted : exists net net' G, plot (fun l => l) net = Some G /\ plot (fun l => l) net' = Some G /\
  get_input_output_colours net = Some ((0, 2), (1, 2)) /\ get_input_output_colours net' = Some ((0, 1), (1, 2)).
Proof. exists [((Some 0, Some 0), (Some 1, Some 1))], [((Some 0, None), (Some 1, Some 1))]. eexists. split; [vm_compute; reflexivity|]. repeat split; vm_compute; reflexivity. Qed.
(** The inputs of a network whose inputs share their colour with one belt that is led
    back are shown to go nowhere. *)
Theorem C112_inputs_refuted : exists net G, get_input_output_colours net = Some ((0, 1), (1, 1)) /\ plot (fun l => l) net = Some G /\ (takes_in net 0 0) /\ forall j c, ~ shows_input G j c.
Proof.
  set (net := [((Some 0, Some 0), (Some 0, Some 1))]). exists net. eexists. split; [vm_compute; reflexivity|]. split; [vm_compute; reflexivity|].
  split; [exists ((Some 0, Some 0), (Some 0, Some 1)); cbn; auto|]. intros j c H.
  apply (C112_inputs (fun l => l) (fun l => Permutation_refl l) net 0 1 1 1 _ j c eq_refl eq_refl) in H. destruct H as (_ & NP & _). apply NP. exists 0%nat, 0%nat.
  split; intros k; (split; [intros (nd & E & H)|intros ->]).
  - destruct k as [|[|k]]; [reflexivity|discriminate|discriminate].
  - eexists. split; [reflexivity|]. cbn. auto.
  - destruct k as [|[|k]]; [reflexivity|discriminate|discriminate].
  - eexists. split; [reflexivity|]. cbn. auto.
Qed.

(** Two splitters with a belt of one colour between them and another colour that
    both of them make. *)
Definition drawn_net : network := [((Some 0, Some 0), (Some 1, Some 2)); ((Some 0, Some 1), (Some 2, Some 2))].
Example C112_demo : exists G, plot (@rev _) drawn_net = Some G /\ shows_belt G 0 1 1 /\ ~ shows_belt G 1 0 1 /\ shows_input G 1 0 /\ shows_output G 0 2 /\ ~ shows_output G 0 1.
Proof.
  assert (Hp : forall l : list (bool * nat), Permutation (rev l) l) by (intros l; apply Permutation_sym, Permutation_rev).
  eexists. split; [vm_compute; reflexivity|].
  assert (NP : forall c, c <> 1 -> ~ private drawn_net c).
  { intros c Hc (i & j & Hi & Hj). destruct (proj2 (Hi i) eq_refl) as (nd & E & M). destruct (proj2 (Hj j) eq_refl) as (nd' & E' & M').
    destruct i as [|[|[|i]]]; try (cbn in E; discriminate); destruct j as [|[|[|j]]]; try (cbn in E'; discriminate); cbn in E, E'; injection E as <-; injection E' as <-; cbn in M, M'; intuition congruence. }
  split; [|split; [|split; [|split]]].
  - apply (C112_belts (@rev _) Hp drawn_net); [reflexivity|]. split; eexists; (split; [reflexivity|cbn; auto]).
  - intros H. apply (C112_belts (@rev _) Hp drawn_net) in H; [|reflexivity]. destruct H as [(nd & E & M) _]. cbn in E. injection E as <-. cbn in M. intuition discriminate.
  - apply (C112_inputs (@rev _) Hp drawn_net 0 3 2 3); [reflexivity|reflexivity|]. split; [reflexivity|]. split; [apply NP; lia|]. eexists. split; [reflexivity|cbn; auto].
  - apply (C112_outputs (@rev _) Hp drawn_net 0 3 2 3); [reflexivity|reflexivity|]. split; [reflexivity|]. split; [apply NP; lia|]. eexists. split; [reflexivity|cbn; auto].
  - intros H. apply (C112_outputs (@rev _) Hp drawn_net 0 3 2 3) in H; [|reflexivity|reflexivity]. destruct H as [? _]. discriminate.
Qed.

Print Assumptions C112_arrows.
Print Assumptions C112_belts.
Print Assumptions C112_inputs.
Print Assumptions C112_outputs.
Print Assumptions C112_raises.
Print Assumptions C112_numbers_refuted.
Print Assumptions C112_inputs_refuted.
