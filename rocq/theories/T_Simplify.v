(** C102: simplify keeps what a network does. *)
From Coq Require Import ZArith QArith List Bool Lia Permutation.
From Verif Require Import M_Network M_Simplify Spec_Simplify P_Simplify P_Simplify3 P_Simplify4 P_Simplify5.
Import ListNotations.
Local Open Scope Z_scope.

(** The network that simplify returns does the same as the one it is given, and
    nothing is left in it to simplify. *)
Theorem C102_simplify order allow net net' :
  (forall l, Permutation (order l) l) -> single_belts net -> proper net -> simplify order allow net = Returns net' ->
  does_the_same net net' /\ irreducible net' /\ (allow = true -> no_bottleneck_left net') /\
  single_belts net' /\ proper net' /\ (length net' <= length net)%nat.
Proof.
  intros Ho S P H. apply single_anet in S. apply proper_anet in P.
  destruct (rounds_reach order Ho allow (anet net) _ _ _ S (reach_refl _) H) as (R & L & F & K).
  pose proof (reach_single _ _ R S) as S'. destruct (reach_strong _ _ R P) as (P' & n & A1 & A2 & A3 & A4 & A5 & A6 & A7).
  destruct (rounds_left order allow net' S' F K) as [I J].
  split; [|split; [exact I|]; split; [exact J|]; split; [apply single_anet; exact S'|]; split; [apply proper_anet; exact P'|exact L]].
  exists n. split; [|split; [|split; [|split; [|split; [|split]]]]].
  - intros c Hc. rewrite enters_anet, leaves_anet, absent_anet. apply A1. apply enters_anet. exact Hc.
  - intros c Hc. rewrite leaves_anet, absent_anet. destruct (A2 c) as [_ [X|[X (d & D1 & D2)]]]; [apply leaves_anet; exact Hc|left; exact X|right]. split; [exact X|]. exists d. rewrite enters_anet. auto.
  - intros c d Hc Hd. apply A3; apply enters_anet; assumption.
  - intros d Hd. destruct (A4 d) as (c & C1 & C2); [apply enters_anet; exact Hd|]. exists c. rewrite enters_anet. auto.
  - intros c Hc. apply leaves_anet, A5, leaves_anet. exact Hc.
  - intros F0 HF. destruct (A6 F0) as (F' & G & E); [apply flow_anet; exact HF|]. exists F'. split; [apply flow_anet; exact G|]. split; intros c Hc.
    + apply E. left. apply enters_anet. exact Hc.
    + rewrite <- (E c) by (right; apply leaves_anet; exact Hc). destruct (A2 c) as [X _]; [apply leaves_anet; exact Hc|]. rewrite X. reflexivity.
  - intros F0 HF. destruct (A7 F0) as (F' & G & E); [apply flow_anet; exact HF|]. exists F'. split; [apply flow_anet; exact G|]. split; intros c Hc.
    + apply E. left. apply enters_anet. exact Hc.
    + rewrite (E c) by (right; apply leaves_anet; exact Hc). destruct (A2 c) as [X _]; [apply leaves_anet; exact Hc|]. rewrite X. reflexivity.
Qed.

(** With splitters that have no input or no output: what can flow through the
    network still can, and the ends that are left carry the same. *)
Theorem C102_flows_kept order allow net net' :
  (forall l, Permutation (order l) l) -> single_belts net -> simplify order allow net = Returns net' ->
  single_belts net' /\ irreducible net' /\
  exists name : Z -> Z, forall F, (forall c, (0 <= F c)%Q) -> flow net F ->
    exists F', (forall c, (0 <= F' c)%Q) /\ flow net' F' /\ forall c, enters net c \/ leaves net c -> (F' (name c) == F c)%Q.
Proof.
  intros Ho S H. apply single_anet in S.
  destruct (rounds_reach order Ho allow (anet net) _ _ _ S (reach_refl _) H) as (R & L & F & K). pose proof (reach_single _ _ R S) as S'.
  split; [apply single_anet; exact S'|]. split; [apply (rounds_left order allow net' S' F K)|]. destruct (reach_weak _ _ R) as (n & _ & W). exists n. intros F0 P0 H0. destruct (W F0 P0) as (F' & P' & H' & E); [apply flow_anet; exact H0|]. exists F'. split; [exact P'|]. split; [apply flow_anet; exact H'|].
  intros c Hc. apply E. unfold inner. rewrite enters_anet, leaves_anet in Hc. destruct Hc as [[X Y]|[X Y]]; tauto.
Qed.

(** simplify ends on every network. *)
Theorem C102_ends order allow net : simplify order allow net <> Continues.
Proof. apply rounds_end. lia. Qed.

(** It raises nothing on networks without gaps, and leaves none. *)
Theorem C102_returns order allow net :
  (forall l, Permutation (order l) l) -> single_belts net -> no_gaps net -> exists net', simplify order allow net = Returns net' /\ no_gaps net'.
Proof. intros Ho S G. apply single_anet in S. apply rounds_full; [exact Ho|exact G|exact S|lia]. Qed.

(** A splitter with one output before one with one input makes it raise. *)
Definition bottleneck : network := [((Some 0, Some 1), (Some 2, None)); ((Some 2, None), (Some 3, Some 4))].
Theorem C102_returns_refuted : single_belts bottleneck /\ proper bottleneck /\ forall order allow, simplify order allow bottleneck = Raises.
Proof.
  split; [|split].
  - split; cbn; repeat constructor; cbn; intuition discriminate.
  - intros nd [<-|[<-|[]]]; cbn; split; discriminate.
  - intros order [|]; reflexivity.
Qed.
(** A colour on two belts makes it raise as well, although no belt is missing. *)
Theorem C102_shared_refuted : forall order allow, no_gaps [((Some 0, Some 0), (Some 1, Some 1)); ((Some 1, Some 1), (Some 2, Some 2))] /\
  simplify order allow [((Some 0, Some 0), (Some 1, Some 1)); ((Some 1, Some 1), (Some 2, Some 2))] = Raises.
Proof. intros order allow. split; [intros nd [<-|[<-|[]]]; cbn; auto|destruct allow; reflexivity]. Qed.

(** ** Examples *)
Definition row : network := [((Some 0, Some 1), (Some 2, Some 3)); ((Some 3, Some 2), (Some 4, Some 5)); ((None, Some 4), (Some 6, None)); ((Some 5, Some 6), (Some 7, Some 8))].
Example row_applies : single_belts row /\ proper row /\ simplify (fun l => l) false row = Returns [((Some 0, Some 1), (Some 7, Some 8))].
Proof.
  split; [split; cbn; repeat constructor; cbn; intuition discriminate|]. split; [|reflexivity]. intros nd [<-|[<-|[<-|[<-|[]]]]]; cbn; split; discriminate.
Qed.
Definition funnel : network :=
  [((Some 0, Some 1), (Some 10, Some 11)); ((Some 2, Some 3), (Some 12, Some 13)); ((Some 10, Some 12), (Some 20, None)); ((Some 13, Some 11), (None, Some 21))].
Example funnel_applies : single_belts funnel /\ proper funnel /\
  simplify (fun l => l) true funnel = Returns [((Some 0, Some 1), (Some 10, None)); ((Some 2, Some 3), (Some 12, None)); ((Some 10, Some 12), (Some 20, Some 21))] /\
  simplify (fun l => l) false funnel = Returns funnel.
Proof.
  split; [split; cbn; repeat constructor; cbn; intuition discriminate|]. split; [|split; reflexivity]. intros nd [<-|[<-|[<-|[<-|[]]]]]; cbn; split; discriminate.
Qed.
Definition fan : network :=
  [((Some 0, None), (Some 10, Some 11)); ((None, Some 1), (Some 13, Some 12)); ((Some 10, Some 12), (Some 20, Some 21)); ((Some 13, Some 11), (Some 22, Some 23))].
Example fan_applies : single_belts fan /\ proper fan /\
  simplify (fun l => l) true fan = Returns [((Some 0, Some 1), (Some 10, Some 11)); ((Some 10, None), (Some 20, Some 21)); ((None, Some 11), (Some 22, Some 23))].
Proof.
  split; [split; cbn; repeat constructor; cbn; intuition discriminate|]. split; [|reflexivity]. intros nd [<-|[<-|[<-|[<-|[]]]]]; cbn; split; discriminate.
Qed.
Definition dead_end : network := [((Some 0, Some 1), (Some 2, Some 3)); ((None, None), (Some 4, Some 5)); ((Some 3, Some 4), (Some 6, Some 7))].
Example dead_end_applies : single_belts dead_end /\ simplify (fun l => l) false dead_end = Returns [((Some 0, Some 1), (Some 2, Some 3)); ((Some 3, None), (Some 6, Some 7))].
Proof. split; [split; cbn; repeat constructor; cbn; intuition discriminate|reflexivity]. Qed.
Definition four : network := [((Some 0, Some 1), (Some 4, Some 5)); ((Some 2, Some 3), (Some 6, Some 7)); ((Some 4, Some 6), (Some 8, Some 9)); ((Some 5, Some 7), (Some 10, Some 11))].
Example four_applies : single_belts four /\ no_gaps four.
Proof. split; [split; cbn; repeat constructor; cbn; intuition discriminate|]. intros nd [<-|[<-|[<-|[<-|[]]]]]; cbn; auto. Qed.

Print Assumptions C102_simplify.
Print Assumptions C102_flows_kept.
Print Assumptions C102_ends.
Print Assumptions C102_returns.
Print Assumptions C102_returns_refuted.
Print Assumptions C102_shared_refuted.
