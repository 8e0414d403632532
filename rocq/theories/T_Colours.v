(** C100, C101: the cost of the colours of a network, optimise_colours and
    calculate_network_size. *)
From Coq Require Import ZArith List Bool Lia Permutation.
From Verif Require Import P_Dict P_Benes P_Network P_Network2.
From Verif Require Import Spec_Cnf M_Json M_Dict M_Util P_Cnf P_Util P_Util3 M_Network Spec_Network Spec_Colours M_Colours P_Colours P_Colours2 P_Colours3 P_Colours4 P_Dpll.
Import ListNotations.
Open Scope Z_scope.

Lemma colours_unique net n : has_colours net n -> n = len (set_union (input_set net) (output_set net)).
Proof.
  intros (l & D & I & <-). unfold len. f_equal. apply Permutation_length. apply NoDup_Permutation; [exact D|apply all_nodup|]. intros c. rewrite I. symmetry. apply all_in.
Qed.
Lemma apart_iff ps : apart ps = true <-> forall a b, In (a, b) ps -> a <> b.
Proof.
  unfold apart. rewrite forallb_forall. split.
  - intros H a b I E. apply H in I. cbn in I. subst b. rewrite Z.eqb_refl in I. discriminate.
  - intros H [a b] I. cbn. destruct (Z.eqb_spec a b) as [E|E]; [exfalso; exact (H a b I E)|reflexivity].
Qed.

(** calculate_cost: the number of digits in which the counted pairs differ; it
    raises exactly when a counted pair is of one colour. *)
Theorem C100_calculate_cost net : (forall c, has_colour net c -> 0 <= c) ->
  ((forall a b, In (a, b) (counted_pairs net) -> a <> b) -> calculate_cost net = Some (total_cost net)) /\
  ((exists a, In (a, a) (counted_pairs net)) -> calculate_cost net = None).
Proof.
  intros Hnn. rewrite (cost_spec net Hnn). split.
  - intros H. rewrite (proj2 (apart_iff _) H). reflexivity.
  - intros (a & Ia). destruct (apart (counted_pairs net)) eqn:E; [|reflexivity]. exfalso. exact (proj1 (apart_iff _) E a a Ia eq_refl).
Qed.

(** optimise_colours gives the colours other numbers, different ones different
    numbers, only if that is cheaper, and no numbering from 0 on is cheaper than
    what it returns. *)
Theorem C100_optimise_colours_best solver order net n net' :
  truthful solver -> (forall l, Permutation (order l) l) -> (forall c, has_colour net c -> 0 <= c) -> has_colours net n ->
  optimise_colours solver order net = Some net' ->
  (exists f, net' = recolour f net /\ keeps_apart net f /\ (net' = net \/ (numbers_to net n f /\ total_cost net' < total_cost net))) /\
  forall g, numbers_to net n g -> total_cost net' <= total_cost (recolour g net).
Proof.
  intros Hs Ho Hnn Hn R. apply colours_unique in Hn. subst n.
  destruct (apart (counted_pairs net)) eqn:Hap; [|unfold optimise_colours in R; rewrite (cost_spec net Hnn), Hap in R; discriminate].
  destruct (Z_lt_le_dec (Z.log2_up (len (set_union (input_set net) (output_set net))) * len (counted_pairs net)) 2) as [S|B]; [rewrite (result_small solver order net Ho Hnn S) in R; discriminate|].
  assert (Hne : counted_pairs net <> []) by (intros E; rewrite E in B; unfold len in B; cbn in B; lia).
  destruct (Z_le_gt_dec (total_cost net) (2 ^ Z.log2_up (Z.log2_up (len (set_union (input_set net) (output_set net))) * len (counted_pairs net) + 1))) as [F|F];
    [|rewrite (result_large solver order net Hs Ho Hnn Hap Hne B) in R by lia; discriminate].
  destruct (result_spec solver order net Hs Ho Hnn Hap Hne B F) as [R1 R2].
  destruct (Z.eq_dec (len (counted_pairs net)) 1) as [K|K].
  - destruct (Z.eq_dec (total_cost net) 1) as [E|E].
    + destruct R2 as (f & E' & K' & C & M); [auto|]. rewrite E' in R. injection R as <-. split; [|exact M]. exists f. split; [reflexivity|]. split; [exact K'|]. destruct C as [C|C]; [left|right; exact C]. rewrite <- (recolour_id net) at 2. unfold recolour. apply map_ext. intros [[[a|] [b|]] [[c|] [d|]]]; cbn; rewrite ?C; reflexivity.
    + rewrite R1 in R; [discriminate|exact K|]. pose proof (start_k net Hnn Hap). lia.
  - destruct R2 as (f & E' & K' & C & M); [auto|]. rewrite E' in R. injection R as <-. split; [|exact M]. exists f. split; [reflexivity|]. split; [exact K'|]. destruct C as [C|C]; [left|right; exact C]. rewrite <- (recolour_id net) at 2. unfold recolour. apply map_ext. intros [[[a|] [b|]] [[c|] [d|]]]; cbn; rewrite ?C; reflexivity.
Qed.

(** It returns exactly when all counted pairs are of two colours, at least two
    digits are counted, the cost to begin with fits into the counter, and a
    single counted pair differs in one digit already. *)
Theorem C100_optimise_colours_returns solver order net n :
  truthful solver -> (forall l, Permutation (order l) l) -> (forall c, has_colour net c -> 0 <= c) -> has_colours net n ->
  (exists net', optimise_colours solver order net = Some net') <->
  ((forall a b, In (a, b) (counted_pairs net) -> a <> b) /\
   let digits := Z.log2_up n * len (counted_pairs net) in
   2 <= digits /\ total_cost net <= 2 ^ Z.log2_up (digits + 1) /\ (len (counted_pairs net) = 1 -> total_cost net = 1)).
Proof.
  intros Hs Ho Hnn Hn. apply colours_unique in Hn. subst n. cbn zeta. rewrite <- apart_iff.
  destruct (apart (counted_pairs net)) eqn:Hap; [|split; [intros (x & R); unfold optimise_colours in R; rewrite (cost_spec net Hnn), Hap in R; discriminate|intros [H _]; discriminate]].
  destruct (Z_lt_le_dec (Z.log2_up (len (set_union (input_set net) (output_set net))) * len (counted_pairs net)) 2) as [S|B]; [split; [intros (x & R); rewrite (result_small solver order net Ho Hnn S) in R; discriminate|lia]|].
  assert (Hne : counted_pairs net <> []) by (intros E; rewrite E in B; unfold len in B; cbn in B; lia).
  destruct (Z_le_gt_dec (total_cost net) (2 ^ Z.log2_up (Z.log2_up (len (set_union (input_set net) (output_set net))) * len (counted_pairs net) + 1))) as [F|F];
    [|split; [intros (x & R); rewrite (result_large solver order net Hs Ho Hnn Hap Hne B) in R by lia; discriminate|lia]].
  destruct (result_spec solver order net Hs Ho Hnn Hap Hne B F) as [R1 R2]. split.
  - intros (x & R). split; [reflexivity|]. split; [exact B|]. split; [exact F|]. intros K. pose proof (start_k net Hnn Hap). destruct (Z.eq_dec (total_cost net) 1) as [E|E]; [exact E|]. rewrite R1 in R by lia. discriminate.
  - intros (_ & _ & _ & H). destruct R2 as (f & E & _); [destruct (Z.eq_dec (len (counted_pairs net)) 1); auto|]. exists (recolour f net). exact E.
Qed.

(** For networks whose colours are the numbers from 0 on, as fix_colours leaves
    them, the cost always fits. *)
Theorem C100_optimise_colours_compact solver order net n :
  truthful solver -> (forall l, Permutation (order l) l) -> has_colours net n -> numbers_to net n (fun c => c) ->
  (forall a b, In (a, b) (counted_pairs net) -> a <> b) -> 2 <= len (counted_pairs net) ->
  exists net', optimise_colours solver order net = Some net'.
Proof.
  intros Hs Ho Hn [_ Hb] Hap K. apply (C100_optimise_colours_returns solver order net n Hs Ho); [intros c Hc; apply Hb; exact Hc|exact Hn|]. split; [exact Hap|]. cbn zeta.
  pose proof (colours_unique net n Hn) as En. assert (Hne : counted_pairs net <> []) by (intros E; rewrite E in K; unfold len in K; cbn in K; lia).
  assert (L : 0 < Z.log2_up n) by (rewrite En; apply (L_pos (fun l => l) net (proj2 (apart_iff _) Hap) Hne)).
  assert (F : n <= 2 ^ Z.log2_up n) by (rewrite En; apply (N_fits (fun l => l) net (proj2 (apart_iff _) Hap) Hne)).
  split; [nia|]. split; [|lia].
  assert (C : total_cost net <= Z.log2_up n * len (counted_pairs net)).
  { change (total_cost net) with (sum_by (fun c => c) (counted_pairs net)). replace (Z.log2_up n) with (Z.of_nat (Z.to_nat (Z.log2_up n))) by lia. apply sum_atmost. intros [a b] I. cbn [fst snd]. rewrite Z2Nat.id by lia.
    destruct (pair_facts net (proj2 (apart_iff _) Hap) a b I) as (Ha & Hb' & _). apply Hb in Ha. apply Hb in Hb'. lia. }
  pose proof (Z.log2_up_spec (Z.log2_up n * len (counted_pairs net) + 1) ltac:(nia)). lia.
Qed.

(** A network with one counted pair of two colours that differ in two digits:
    the loop ends with the answer of cost one, the assertion expects two. *)
Definition one_side : network := [((Some 0, None), (Some 1, Some 2)); ((Some 1, None), (Some 3, None))].
Lemma one_side_all c : has_colour one_side c <-> In c [0; 1; 2; 3].
Proof. rewrite <- all_in. replace (set_union (input_set one_side) (output_set one_side)) with [0; 1; 2; 3] by (vm_compute; reflexivity). reflexivity. Qed.
Lemma one_side_colours : has_colours one_side 4.
Proof. exists [0; 1; 2; 3]. split; [repeat constructor; cbn; intuition discriminate|]. split; [|reflexivity]. intros c. symmetry. apply one_side_all. Qed.
Theorem C100_optimise_colours_refuted :
  exists net n, has_colours net n /\ numbers_to net n (fun c => c) /\ (forall a b, In (a, b) (counted_pairs net) -> a <> b) /\
  forall solver order, truthful solver -> (forall l, Permutation (order l) l) -> optimise_colours solver order net = None.
Proof.
  assert (B : forall c, has_colour one_side c -> 0 <= c < 4).
  { intros c Hc. apply one_side_all in Hc. destruct Hc as [<-|[<-|[<-|[<-|[]]]]]; lia. }
  exists one_side, 4. split; [exact one_side_colours|]. split; [split; [intros c d _ _ E; exact E|exact B]|]. split; [intros a b [E|[]]; injection E as <- <-; lia|].
  intros solver order Hs Ho. destruct (optimise_colours solver order one_side) as [x|] eqn:E; [|reflexivity]. exfalso.
  destruct (proj1 (C100_optimise_colours_returns solver order one_side 4 Hs Ho (fun c Hc => proj1 (B c Hc)) one_side_colours)) as (_ & _ & _ & H); [exists x; exact E|]. specialize (H eq_refl). vm_compute in H. discriminate.
Qed.

(** Two splitters joined by the belts 1 and 2: their numbers differ in two digits,
    those of the returned network in one. *)
Definition two_splitters : network := [((Some 0, None), (Some 1, Some 2)); ((Some 1, Some 2), (Some 3, None))].
Example C100_example : exists net', optimise_colours dpll_solver (fun l => l) two_splitters = Some net' /\ total_cost two_splitters = 4 /\ total_cost net' = 2.
Proof. eexists. split; [vm_compute; reflexivity|]. split; vm_compute; reflexivity. Qed.
Example C100_example_solver : truthful dpll_solver.
Proof. exact dpll_truthful. Qed.

(** calculate_network_size counts the colours that only enter and those that
    only leave. *)
Theorem C101_calculate_network_size net :
  exists entering leaving,
    calculate_network_size net = (len entering, len leaving) /\
    NoDup entering /\ (forall c, In c entering <-> 0 < consumed net c /\ produced net c = 0) /\
    NoDup leaving /\ (forall c, In c leaving <-> 0 < produced net c /\ consumed net c = 0).
Proof.
  exists (set_minus (input_set net) (output_set net)), (set_minus (output_set net) (input_set net)). split; [reflexivity|].
  assert (P : forall c, 0 <= produced net c) by (intros; apply occurs_nonneg). assert (Q : forall c, 0 <= consumed net c) by (intros; apply occurs_nonneg).
  split; [apply NoDup_filter, set_nodup|]. split; [intros c; rewrite minus_in, input_set_in, output_set_in; specialize (P c); lia|].
  split; [apply NoDup_filter, set_nodup|]. intros c; rewrite minus_in, input_set_in, output_set_in; specialize (Q c); lia.
Qed.
Example C101_example : calculate_network_size [((Some 0, Some 1), (Some 2, Some 3)); ((Some 2, Some 4), (Some 5, None))] = (3, 2).
Proof. reflexivity. Qed.

Print Assumptions C100_calculate_cost.
Print Assumptions C100_optimise_colours_best.
Print Assumptions C100_optimise_colours_returns.
Print Assumptions C100_optimise_colours_compact.
Print Assumptions C100_optimise_colours_refuted.
Print Assumptions C101_calculate_network_size.
