(** Networks that differ only in the order of their splitters and of the belts
    on each side; deduplicate_network gives such a network. *)
From Coq Require Import ZArith QArith List Bool Lia Permutation.
From Verif Require Import P_Network P_Network2 P_Dict.
From Verif Require Import M_Dict M_Network Spec_Network M_Balancer.
Import ListNotations.
Local Open Scope nat_scope.

Definition similar (net net' : network) : Prop :=
  exists phi psi : nat -> nat, (forall i, psi (phi i) = i) /\ (forall j, phi (psi j) = j) /\
    forall i, match nth_error net i, nth_error net' (phi i) with
              | Some a, Some b => same_node a b
              | None, None => True
              | _, _ => False
              end.

Lemma same_belts_trans s t u : same_belts s t -> same_belts t u -> same_belts s u.
Proof. unfold same_belts. destruct s, t, u; cbn. intros [[= -> ->]|[= -> ->]] [[= -> ->]|[= -> ->]]; auto. Qed.
Lemma same_node_trans s t u : same_node s t -> same_node t u -> same_node s u.
Proof. intros [H1 H2] [H3 H4]. split; eapply same_belts_trans; eauto. Qed.
Lemma same_node_refl s : same_node s s.
Proof. split; left; reflexivity. Qed.

Lemma similar_refl net : similar net net.
Proof. exists (fun i => i), (fun i => i). repeat split; auto. intros i. destruct (nth_error net i); [apply same_node_refl|exact I]. Qed.
Lemma similar_trans a b c : similar a b -> similar b c -> similar a c.
Proof.
  intros (p & q & H1 & H2 & H3) (p' & q' & H1' & H2' & H3'). exists (fun i => p' (p i)), (fun j => q (q' j)). repeat split.
  - intros i. rewrite H1', H1. reflexivity.
  - intros j. rewrite H2, H2'. reflexivity.
  - intros i. specialize (H3 i). specialize (H3' (p i)). destruct (nth_error a i), (nth_error b (p i)), (nth_error c (p' (p i))); try contradiction; auto.
    eapply same_node_trans; eauto.
Qed.
Lemma similar_nodes net net' : Forall2 same_node net net' -> similar net net'.
Proof.
  intros H. exists (fun i => i), (fun i => i). repeat split; auto. induction H as [|x y l k Hxy _ IH]; intros [|i]; cbn; auto. apply IH.
Qed.
Lemma similar_perm net net' : Permutation net net' -> similar net net'.
Proof.
  induction 1 as [|x l k _ IH|x y l|l k r _ IH1 _ IH2].
  - apply similar_refl.
  - destruct IH as (p & q & H1 & H2 & H3).
    exists (fun i => match i with O => O | S j => S (p j) end), (fun i => match i with O => O | S j => S (q j) end). repeat split.
    + intros [|i]; [reflexivity|]. rewrite H1. reflexivity.
    + intros [|i]; [reflexivity|]. rewrite H2. reflexivity.
    + intros [|i]; cbn; [apply same_node_refl|]. apply H3.
  - exists (fun i => match i with O => 1 | S O => O | j => j end), (fun i => match i with O => 1 | S O => O | j => j end). repeat split.
    + intros [|[|i]]; reflexivity.
    + intros [|[|i]]; reflexivity.
    + intros [|[|i]]; cbn; try apply same_node_refl. destruct (nth_error l i); [apply same_node_refl|exact I].
  - eapply similar_trans; eauto.
Qed.

(** ** Balancing does not depend on the order *)
Lemma same_belts_flip s t : same_belts s t -> exists f, forall b, pick t (xorb b f) = pick s b.
Proof. destruct s as [x y]. intros [-> | ->]; [exists false|exists true]; intros []; reflexivity. Qed.


Lemma similar_flips net net' phi : (forall i, match nth_error net i, nth_error net' (phi i) with
              | Some a, Some b => same_node a b | None, None => True | _, _ => False end) ->
  exists fi fo : nat -> bool, forall i,
    match nth_error net i, nth_error net' (phi i) with
    | Some a, Some b => (forall c, pick (fst b) (xorb c (fi i)) = pick (fst a) c) /\ (forall c, pick (snd b) (xorb c (fo i)) = pick (snd a) c)
    | None, None => True | _, _ => False end.
Proof.
  intros H.
  set (flip := fun s t : side => if side_eqb s t then false else true).
  assert (F : forall s t, same_belts s t -> forall c, pick t (xorb c (flip s t)) = pick s c).
  { intros s t E c. unfold flip. destruct (side_eqb_spec s t) as [->|N]; [rewrite xorb_false_r; reflexivity|].
    destruct E as [-> | ->]; [contradiction|]. destruct s, c; reflexivity. }
  exists (fun i => match nth_error net i, nth_error net' (phi i) with Some a, Some b => flip (fst a) (fst b) | _, _ => false end),
         (fun i => match nth_error net i, nth_error net' (phi i) with Some a, Some b => flip (snd a) (snd b) | _, _ => false end).
  intros i. specialize (H i). destruct (nth_error net i) as [a|], (nth_error net' (phi i)) as [b|]; auto.
  destruct H as [H1 H2]. split; intros c; apply F; assumption.
Qed.

Lemma balances_similar net net' ic n oc m : similar net net' -> balances net ic n oc m -> balances net' ic n oc m.
Proof.
  intros (phi & psi & Hpq & Hqp & H) Bal w' flow' (W1 & W2 & W3) St j Hj.
  destruct (similar_flips net net' phi H) as (fi & fo & F). clear H.
  set (snk := fun k => match k with ToOutput j => ToOutput j | ToSplitter i b => ToSplitter (phi i) (xorb b (fi i)) end).
  set (src := fun s => match s with FromInput j => FromInput j | FromSplitter i b => FromSplitter (phi i) (xorb b (fo i)) end).
  set (crs := fun s => match s with FromInput j => FromInput j | FromSplitter i b => FromSplitter (psi i) (xorb b (fo (psi i))) end).
  assert (SC : forall s, src (crs s) = s).
  { intros [i|i b]; cbn; [reflexivity|]. rewrite Hqp. f_equal. rewrite xorb_assoc, xorb_nilpotent, xorb_false_r. reflexivity. }
  assert (CS : forall s, crs (src s) = s).
  { intros [i|i b]; cbn; [reflexivity|]. rewrite Hpq. f_equal. rewrite xorb_assoc, xorb_nilpotent, xorb_false_r. reflexivity. }
  assert (KS : forall k, sink_colour net' oc m (snk k) = sink_colour net oc m k).
  { intros [i|i b]; cbn; [reflexivity|]. specialize (F i). destruct (nth_error net i), (nth_error net' (phi i)); try contradiction; [apply F|reflexivity]. }
  assert (KC : forall s, source_colour net' ic n (src s) = source_colour net ic n s).
  { intros [i|i b]; cbn; [reflexivity|]. specialize (F i). destruct (nth_error net i), (nth_error net' (phi i)); try contradiction; [apply F|reflexivity]. }
  assert (Kinj : forall k k', snk k = snk k' -> k = k').
  { intros [i|i b] [i'|i' b']; cbn; intros [=]; [congruence|]. assert (i = i') by (rewrite <- (Hpq i), <- (Hpq i'); congruence). subst i'. f_equal.
    destruct b, b', (fi i); cbn in *; congruence. }
  assert (Ksur : forall k, exists k', snk k' = k).
  { intros [i|i b]; [exists (ToOutput i); reflexivity|]. exists (ToSplitter (psi i) (xorb b (fi (psi i)))). cbn. rewrite Hqp. f_equal.
    rewrite xorb_assoc, xorb_nilpotent, xorb_false_r. reflexivity. }
  set (w := fun k => crs (w' (snk k))). set (flow := fun s => flow' (src s)).
  assert (Ww : wiring net ic n oc m w).
  { split; [|split].
    - intros k c Hk. unfold w. rewrite <- KC, SC. apply W1. rewrite KS. exact Hk.
    - intros k k' Nk Nk' E. apply Kinj. apply W2; rewrite ?KS; try assumption. unfold w in E. rewrite <- (SC (w' (snk k))), <- (SC (w' (snk k'))). congruence.
    - intros s Ns. destruct (W3 (src s)) as (k & Nk & Ek); [rewrite KC; exact Ns|]. destruct (Ksur k) as [k' <-]. exists k'. split; [rewrite <- KS; exact Nk|].
      unfold w. rewrite Ek. apply CS. }
  assert (Ar : forall i b, (arriving net oc m w flow i b == arriving net' oc m w' flow' (phi i) (xorb b (fi i)))%Q).
  { intros i b. unfold arriving. pose proof (KS (ToSplitter i b)) as E. cbn [snk] in E. rewrite E. destruct (sink_colour net oc m (ToSplitter i b)); [|reflexivity].
    unfold flow, w. rewrite SC. reflexivity. }
  assert (Out : forall i, outputs_of net ic n i = outputs_of net' ic n (phi i)).
  { intros i. unfold outputs_of. pose proof (KC (FromSplitter i false)) as E1. pose proof (KC (FromSplitter i true)) as E2. cbn [src] in E1, E2. rewrite <- E1, <- E2.
    destruct (fo i); cbn [xorb]; [apply Z.add_comm|reflexivity]. }
  assert (Sw : steady net ic n oc m w flow).
  { intros i b Nb. rewrite Out, !Ar. unfold flow. cbn [src]. pose proof (KC (FromSplitter i b)) as E. cbn [src] in E.
    rewrite (St (phi i) (xorb b (fo i))) by congruence. destruct (fi i); cbn [xorb]; [apply Qplus_comm|reflexivity]. }
  pose proof (Bal w flow Ww Sw j Hj) as Q. unfold flow, w in Q. rewrite SC in Q. cbn [snk] in Q. rewrite Q. unfold total_input. reflexivity.
Qed.

(** ** deduplicate_network *)
Lemma elements_cons s k d : elements ((s, k) :: d) = (repeat s (Z.to_nat k) ++ elements d)%list.
Proof. reflexivity. Qed.
Definition counts_ok (d : counter) : Prop := forall s k, In (s, k) d -> (0 <= k)%Z.
Lemma elements_count_one d x : counts_ok d -> Permutation (elements (count_one d x)) (x :: elements d) /\ counts_ok (count_one d x).
Proof.
  unfold count_one. induction d as [|[s k] d IH]; intros H.
  - cbn. split; [reflexivity|]. intros s k [[= <- <-]|[]]. lia.
  - cbn [dget dset]. destruct (splitter_eqb_spec x s) as [->|N].
    + assert (Hk : (0 <= k)%Z) by (eapply H; left; reflexivity). rewrite !elements_cons. split.
      * replace (Z.to_nat (k + 1)) with (S (Z.to_nat k)) by lia. reflexivity.
      * intros s' k' [[= <- <-]|Hin]; [lia|]. eapply H. right. exact Hin.
    + destruct IH as [I1 I2]; [intros s' k' Hin; eapply H; right; exact Hin|]. rewrite !elements_cons. split.
      * rewrite I1. symmetry. apply Permutation_middle.
      * intros s' k' [[= <- <-]|Hin]; [eapply H; left; reflexivity|eapply I2; exact Hin].
Qed.
Lemma elements_fold l : forall d, counts_ok d -> Permutation (elements (fold_left count_one l d)) (l ++ elements d).
Proof.
  induction l as [|x l IH]; intros d H; [reflexivity|]. cbn [fold_left app]. destruct (elements_count_one d x H) as [P1 P2].
  rewrite (IH _ P2), P1. symmetry. apply Permutation_middle.
Qed.
Lemma deduplicate_elements net : Permutation (elements (deduplicate_network net)) (map sort_sides net).
Proof. unfold deduplicate_network. rewrite elements_fold; [|intros s k []]. cbn. rewrite app_nil_r. reflexivity. Qed.
Lemma sort_side_belts s : same_belts s (sort_side s).
Proof. unfold sort_side, same_belts. destruct (colour_le (fst s) (snd s)); auto. Qed.
Lemma sort_sides_nodes net : Forall2 same_node net (map sort_sides net).
Proof. induction net as [|x l IH]; constructor; [|exact IH]. split; apply sort_side_belts. Qed.
Lemma deduplicate_similar net : similar net (elements (deduplicate_network net)).
Proof. eapply similar_trans; [apply similar_nodes, sort_sides_nodes|]. apply similar_perm. symmetry. apply deduplicate_elements. Qed.

Lemma deduplicate_counts net c : consumed (elements (deduplicate_network net)) c = consumed net c /\ produced (elements (deduplicate_network net)) c = produced net c.
Proof.
  assert (X : forall f, (forall nd, Permutation (f (sort_sides nd)) (f nd)) ->
    occurs c (flat_map f (elements (deduplicate_network net))) = occurs c (flat_map f net)).
  { intros f Hf. apply occurs_perm. rewrite (Permutation_flat_map f (deduplicate_elements net)). clear - Hf.
    induction net as [|x l IH]; [reflexivity|]. cbn [map flat_map]. apply Permutation_app; [apply Hf|exact IH]. }
  unfold consumed, produced. split; apply X; intros [[a b] [u v]]; unfold sort_sides, sort_side; cbn [fst snd].
  - destruct (colour_le a b); cbn [fst snd]; [reflexivity|apply perm_swap].
  - destruct (colour_le u v); cbn [fst snd]; [reflexivity|apply perm_swap].
Qed.
Lemma deduplicate_ends net : get_input_output_colours (elements (deduplicate_network net)) = get_input_output_colours net.
Proof.
  assert (X : forall ic n oc m, get_input_output_colours (elements (deduplicate_network net)) = Some ((ic, n), (oc, m)) <-> get_input_output_colours net = Some ((ic, n), (oc, m))).
  { intros. rewrite !ends_spec. unfold has_ends. rewrite !(proj1 (deduplicate_counts net _)), !(proj2 (deduplicate_counts net _)).
    split; intros (H1 & H2 & H3 & H4); (split; [exact H1|]); (split; [exact H2|]); (split; [exact H3|]); intros c N1 N2; specialize (H4 c N1 N2).
    - rewrite (proj1 (deduplicate_counts net c)), (proj2 (deduplicate_counts net c)) in H4. exact H4.
    - rewrite (proj1 (deduplicate_counts net c)), (proj2 (deduplicate_counts net c)). exact H4. }
  destruct (get_input_output_colours (elements (deduplicate_network net))) as [[[ic n] [oc m]]|].
  - symmetry. apply X. reflexivity.
  - destruct (get_input_output_colours net) as [[[ic n] [oc m]]|]; [|reflexivity]. apply X. reflexivity.
Qed.
