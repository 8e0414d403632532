(** solve_balancer never raises for the sizes the search asks about. *)
From Coq Require Import String ZArith List Bool Lia Permutation.
From Verif Require Import P_Network P_Network2 P_Benes P_Nonneg P_Similar T_Network.
From Verif Require Import Spec_Cnf Spec_Tile Spec_Layout Spec_Pattern Spec_Main M_Json M_Tile M_Util M_Card M_Network Spec_Network M_Template M_Grid M_Oracle M_Balancer M_Optimise M_Solve M_Main M_Optimal M_Find
  P_Cnf P_Util P_Util3 P_Card P_Tile P_Layout T_Tile P_List P_Template P_Walk P_Grid P_GridSound P_GridComplete P_Transport T_Grid T_Enumerate P_GridOk P_Gen P_Balancer
  Spec_Balancer P_Trace P_Realise P_Ends T_Balancer P_Lossless T_Lossless Spec_Edge P_Edge T_Edge P_Connect P_Main P_Pow2Total P_MainTotal Spec_Optimal Spec_Find P_OptOk P_Allocate P_Find.
From Verif Require P_Cut2 T_Mirror P_NetTotal T_Template P_Colours4.
Import ListNotations.
Open Scope Z_scope.

(** ** How many splitters have both belts of a colour *)
Lemma sum_start l : forall z, fold_left Z.add l z = z + fold_left Z.add l 0.
Proof. induction l as [|x l IH]; intros z; cbn [fold_left]; [lia|]. rewrite (IH (z + x)), (IH (0 + x)). lia. Qed.
Lemma indexed_filter {X} (q : X -> bool) l : map snd (filter (fun ie => q (snd ie)) (indexed l)) = filter q l.
Proof.
  unfold indexed. generalize 0%nat. induction l as [|x l IH]; intros k; [reflexivity|]. cbn [List.length seq combine filter snd]. destruct (q x); cbn [map snd]; rewrite IH; reflexivity.
Qed.
Definition slots (sd : splitter -> side) (l : network) : list M_Network.colour := flat_map (fun n => side_list (sd n)) l.
Lemma recirculate_app c l1 l2 : recirculate c (l1 ++ l2) = recirculate c l1 + recirculate c l2.
Proof. unfold recirculate. rewrite filter_app, app_length. lia. Qed.
Lemma recirculate_nonneg c l : 0 <= recirculate c l.
Proof. unfold recirculate. lia. Qed.
Lemma slots_app sd l1 l2 : slots sd (l1 ++ l2) = (slots sd l1 ++ slots sd l2)%list.
Proof. unfold slots. apply flat_map_app. Qed.
Lemma slots_repeat sd c nd k : recirculate c (slots sd (repeat nd k)) = Z.of_nat k * recirculate c (side_list (sd nd)).
Proof. induction k as [|k IH]; [reflexivity|]. cbn [repeat]. change (nd :: repeat nd k) with ([nd] ++ repeat nd k)%list. rewrite slots_app, recirculate_app, IH. unfold slots at 1. cbn [flat_map]. rewrite app_nil_r. lia. Qed.
Lemma both_two c s : both c s = true -> recirculate c (side_list s) = 2.
Proof. destruct s as [a b]. unfold both, recirculate, side_list. cbn [fst snd filter]. rewrite andb_true_iff. intros [-> ->]. reflexivity. Qed.
Lemma twice sd c (net : counter) : (forall nd k, In (nd, k) net -> 0 <= k) ->
  2 * fold_left Z.add (map snd (filter (fun e => both c (sd (fst e))) net)) 0 <= recirculate c (slots sd (elements net)).
Proof.
  induction net as [|[nd k] net IH]; intros H; [cbn; lia|]. unfold elements. cbn [flat_map fst snd filter]. fold (elements net). rewrite slots_app, recirculate_app, slots_repeat.
  specialize (IH (fun nd0 k0 Hin => H nd0 k0 (or_intror Hin))). pose proof (H nd k (or_introl eq_refl)) as Hk. rewrite Z2Nat.id by lia. destruct (both c (sd nd)) eqn:B.
  - cbn [map snd fold_left]. rewrite sum_start, (both_two _ _ B). lia.
  - pose proof (recirculate_nonneg c (side_list (sd nd))). nia.
Qed.
Lemma each_sum (l : list (splitter * Z)) nd k : (forall nd k, In (nd, k) l -> 0 <= k) -> In (nd, k) l -> k <= fold_left Z.add (map snd l) 0.
Proof.
  induction l as [|[nd0 k0] l IH]; intros H Hin; [destruct Hin|]. cbn [map fold_left snd]. rewrite sum_start.
  assert (N : 0 <= fold_left Z.add (map snd l) 0).
  { clear - H. assert (G : forall nd k, In (nd, k) l -> 0 <= k) by (intros; apply (H nd); right; assumption). clear H. induction l as [|[a b] l IH]; [cbn; lia|]. cbn [map fold_left snd]. rewrite sum_start. specialize (G a b (or_introl eq_refl)) as Gb. specialize (IH (fun x y Hxy => G x y (or_intror Hxy))). lia. }
  destruct Hin as [E|Hin]; [injection E as -> ->; lia|]. specialize (IH (fun x y Hxy => H x y (or_intror Hxy)) Hin). pose proof (H nd0 k0 (or_introl eq_refl)). lia.
Qed.

Section Fits.
  Variables (net : counter) (w h : Z) (ul : option Z) (t : Z).
  Hypothesis Hw : 2 <= w.
  Hypothesis Hh : 0 < h.
  Variable E : card_encoder.
  Hypothesis Ans : answers E.
  Hypothesis AnsL : P_Cut2.answers_atleast E.
  Hypothesis Kn : forall nd k, In (nd, k) net -> 0 <= k.
  Notation g := (balancer_grid net w h ul t).

  Lemma edge_fits x (sd : splitter -> side) c rec : 0 <= x < w -> 0 <= rec -> recirculate c (slots sd (elements net)) - rec <= h ->
    always (edge_splitters E g x (filter (fun ie => both c (sd (fst (snd ie)))) (indexed net)) rec).
  Proof.
    intros Hx Hr Hc top. pose proof (twice sd c net Kn) as Tw. pose proof (indexed_filter (fun e : splitter * Z => both c (sd (fst e))) net) as Ef. set (bound := filter (fun ie => both c (sd (fst (snd ie)))) (indexed net)) in *.
    assert (Es : fold_left Z.add (map (fun ie : nat * (splitter * Z) => snd (snd ie)) bound) 0 = fold_left Z.add (map snd (filter (fun e => both c (sd (fst e))) net)) 0) by (rewrite <- Ef, map_map; reflexivity).
    assert (Kb : forall i nd k, In (i, (nd, k)) bound -> 0 <= k <= fold_left Z.add (map snd (filter (fun e => both c (sd (fst e))) net)) 0).
    { intros i nd k Hi. assert (In (nd, k) (filter (fun e => both c (sd (fst e))) net)) as I by (rewrite <- Ef; apply in_map_iff; exists (i, (nd, k)); auto).
      split; [apply (Kn nd); apply filter_In in I; apply I|]. apply (each_sum _ nd); [|exact I]. intros nd0 k0 H0. apply (Kn nd0). apply filter_In in H0. apply H0. }
    unfold edge_splitters. change (height (geo g)) with h.
    assert (Gu : in_grid g x 0 = true) by (unfold in_grid; cbn [geo g balancer_grid width height]; rewrite !andb_true_iff, !Z.leb_le, !Z.ltb_lt; lia). rewrite Gu.
    assert (Hn : forall (F : Z -> lit), map F (range h) <> [] /\ Z.of_nat (List.length (map F (range h))) = h).
    { intros F. rewrite map_length, range_length by lia. split; [|reflexivity]. intros X. apply (f_equal (@List.length _)) in X. rewrite map_length in X. cbn in X. pose proof (range_length h ltac:(lia)). lia. }
    destruct (Z.eqb_spec rec 0) as [->|Nr].
    - destruct bound as [|b0 bound'] eqn:Eb; [cbn; eauto|]. rewrite <- Eb in *. apply always_seq. intros f Hf. apply in_flat_map in Hf. destruct Hf as ([i [nd k]] & Hi & Hf). cbn [fst snd] in Hf.
      destruct (Kb i nd k Hi) as [K1 K2]. destruct Hf as [<-|[<-|[]]]; [|apply always_pure; eauto].
      intros tp. destruct (Hn (fun y => node g (x, y) i)) as [N1 N2]. apply Ans; [exact N1|]. rewrite N2. lia.
    - rewrite Es. set (total := fold_left Z.add (map snd (filter (fun e => both c (sd (fst e))) net)) 0) in *. destruct (Z.ltb_spec 0 (total - rec)) as [Hl|Hl]; [|cbn; eauto]. apply AnsL. split; [lia|].
      assert (Ll : forall r b, Z.of_nat (List.length (flat_map (fun y => map (fun ie : nat * (splitter * Z) => node g (x, y) (fst ie)) b) r)) = Z.of_nat (List.length r) * Z.of_nat (List.length b)).
      { intros r b. induction r as [|y r IH]; [reflexivity|]. cbn [flat_map List.length]. rewrite app_length, map_length, !Nat2Z.inj_add, IH, Nat2Z.inj_succ. ring. }
      rewrite Ll, range_length by lia. assert (Lb : 1 <= Z.of_nat (List.length bound)).
      { destruct bound; [|cbn; lia]. cbn in Es. lia. } nia.
  Qed.
  Lemma edges_fit ic n oc m : get_input_output_colours (elements net) = Some ((ic, n), (oc, m)) -> n <= h -> m <= h -> always (enforce_edge_splitters E g net).
  Proof.
    intros Ends Hn Hm top. unfold enforce_edge_splitters. rewrite Ends. cbn [obind]. change (width (geo g)) with w. apply ends_spec in Ends. destruct Ends as (_ & E1 & E2 & _).
    match goal with |- exists cs top', seq_gen ?l _ = _ => assert (X : always (seq_gen l)); [|apply X] end.
    apply always_seq. intros f [<-|[<-|[]]].
    - apply (edge_fits 1 fst ic); [lia|apply recirculate_nonneg|]. change (recirculate ic (slots fst (elements net))) with (consumed (elements net) ic). change (recirculate ic (output_slots (elements net))) with (produced (elements net) ic). lia.
    - apply (edge_fits (w - 2) snd oc); [lia|apply recirculate_nonneg|]. change (recirculate oc (slots snd (elements net))) with (produced (elements net) oc). change (recirculate oc (input_slots (elements net))) with (consumed (elements net) oc). lia.
  Qed.
End Fits.

Theorem search_starts E net u w h ic n oc m : honest E -> answers E -> P_Cut2.answers_atleast E -> nonneg net -> 1 <= u ->
  get_input_output_colours net = Some ((ic, n), (oc, m)) -> (forall nd, In nd net -> (belts_missing nd <= 1)%nat) ->
  2 <= w -> 2 * Z.of_nat (List.length net) <= w * h -> n <= h -> m <= h ->
  exists g cs top, search_clauses E net (u, w, h) = Some (g, cs, top).
Proof.
  intros HE An AnL Hn Hu Ends C4 W2 R1 Nh Mh. unfold search_clauses.
  set (net' := deduplicate_network net). assert (Ends' : get_input_output_colours (elements net') = Some ((ic, n), (oc, m))) by (unfold net'; rewrite deduplicate_ends; exact Ends).
  assert (Nn : nonneg_colours net') by (apply dedup_nonneg; exact Hn). pose proof (proj1 (ends_spec _ _ _ _ _) Ends) as ((Pn & Pm) & _).
  assert (Hul0 : match Some u with Some l => 0 <= l | None => True end) by lia.
  assert (Et : exists t, list_max (all_colours net') = Some t).
  { destruct (ends_colours net' ic n oc m Ends') as [X _]. destruct (all_colours net'); [destruct X|cbn; eauto]. } destruct Et as [t Et].
  assert (Ne : (1 <= List.length net)%nat). { pose proof (ends_nonempty _ _ _ _ _ Ends). destruct net; [contradiction|cbn; lia]. }
  assert (Cts : forall nd k, In (nd, k) net' -> 0 <= k <= w * h /\ (count_missing nd <= 1)%nat).
  { intros nd k Hin. destruct (dedup_counts net nd k Hin) as [X (nd0 & I0 & S0)]. split; [lia|]. rewrite <- (missing_same _ _ S0). apply C4. exact I0. }
  assert (Rm : 1 <= fold_left Z.add (map snd net') 0 <= w * h / 2) by (unfold net'; rewrite dedup_total; split; [lia|apply Z.div_le_lower_bound; lia]).
  destruct (balancer_some net' w h (Some u) t ltac:(lia) ltac:(lia) Hul0 Nn Et E An ic n oc m Ends' Cts Rm ltac:(nia) ltac:(nia)) as (cs & top & C). rewrite C. cbn [obind].
  set (g := balancer_grid net' w h (Some u) t) in *.
  assert (W : wf_grid g) by (apply g_wf; auto; lia).
  destruct (create_balancer_spec E net' w h (Some u) g cs top HE Nn Hul0 C) as (_ & _ & _ & _ & _ & _ & _ & Hs & _).
  assert (Gl : glen g = main_length (search_options u)) by (unfold main_length; cbn; destruct (Z.eqb_spec u (-1)); [lia|reflexivity]).
  pose proof (wishes_some (search_options u) g W Gl (or_intror Hu) ltac:(discriminate) Logic.I) as Ws.
  assert (X : always (seq_gen (search_calls E g net'))).
  { apply always_seq. intros f Hf. unfold search_calls in Hf. cbn [In] in Hf. destruct Hf as [<-|[<-|[<-|[<-|[<-|[<-|[]]]]]]].
    - apply always_pure. eauto.
    - apply (proj2 (proj1 (ends_call_some (search_options u) g net' ic n oc m W Ends'))). split; assumption.
    - apply always_pure. apply Ws. cbn. tauto.
    - apply always_pure. eauto.
    - apply (edges_fit net' w h (Some u) t ltac:(lia) ltac:(lia) E An AnL (fun nd k H => proj1 (proj1 (Cts nd k H))) ic n oc m Ends' Nh Mh).
    - apply always_pure. apply Ws. cbn. tauto. }
  destruct (X top) as (cs' & top' & ->). cbn [obind]. eauto.
Qed.
