(** Proofs about simplify: the loop. *)
From Verif Require Import P_Dict P_Benes P_Network P_Network2.
From Coq Require Import ZArith QArith List Bool Lia Permutation Lqa.
From Verif Require Import M_Json M_Dict M_Network M_Simplify Spec_Simplify P_Simplify P_Simplify2 P_Simplify3 P_Simplify4.
Import ListNotations.
Local Open Scope Z_scope.

(** ** Sequences of steps *)
Inductive reach (N0 : list node) : list node -> Prop :=
| reach_refl : reach N0 N0
| reach_step N N' : reach N0 N -> step N N' -> reach N0 N'.

Definition strong_rel (N0 N : list node) (n : Z -> Z) : Prop :=
  (forall c, aenters N0 c -> aenters N (n c) \/ (aleaves N0 (n c) /\ aabsent N (n c))) /\
  (forall c, aleaves N0 c -> n c = c /\ (aleaves N c \/ (aabsent N c /\ exists d, aenters N0 d /\ n d = c))) /\
  (forall c d, aenters N0 c -> aenters N0 d -> n c = n d -> c = d) /\
  (forall d, aenters N d -> exists c, aenters N0 c /\ n c = d) /\
  (forall c, aleaves N c -> aleaves N0 c) /\
  (forall F, aflow N0 F -> exists F', aflow N F' /\ forall c, aenters N0 c \/ aleaves N0 c -> (F' (n c) == F c)%Q) /\
  (forall F', aflow N F' -> exists F, aflow N0 F /\ forall c, aenters N0 c \/ aleaves N0 c -> (F c == F' (n c))%Q).

Lemma strong_start N : strong_rel N N (fun c => c).
Proof.
  unfold strong_rel. split; [auto|]. split; [auto|]. split; [auto|]. split; [intros d H; exists d; auto|]. split; [auto|]. split; intros F H; exists F; (split; [exact H|]); intros; reflexivity.
Qed.
Lemma strong_next N0 N N' n r : strong_rel N0 N n -> strong_step N N' r -> strong_rel N0 N' (fun c => r (n c)).
Proof.
  intros (A1 & A2 & A3 & A4 & A5 & A6 & A7) ((B1 & B2 & B3 & B4 & B5 & B6 & B7) & C1 & C2 & _).
  assert (NI : forall c, aenters N0 c \/ aleaves N0 c -> ~ inner N (n c)).
  { intros c [H|H]; unfold inner.
    - destruct (A1 c H) as [[X Y]|[_ [X Y]]]; tauto.
    - destruct (A2 c H) as [-> [[X Y]|[[X Y] _]]]; tauto. }
  assert (NO : forall c, aenters N0 c -> ~ In (n c) (Outs N)) by (intros c H; destruct (A1 c H) as [[X Y]|[_ [X Y]]]; tauto).
  unfold strong_rel. split; [|split; [|split; [|split; [|split; [|split]]]]].
  - intros c H. destruct (A1 c H) as [X|[X Y]].
    + destruct (B2 _ X) as [Z|[Z W]]; [left; exact Z|right; split; [apply A5; exact Z|exact W]].
    + right. rewrite (B1 (n c)) by apply Y. split; [exact X|apply B4; exact Y].
  - intros c H. destruct (A2 c H) as [E K]. rewrite E. assert (Nc : ~ In c (Ins N)) by (destruct K as [K|[K _]]; apply K). rewrite (B1 c Nc). split; [reflexivity|].
    destruct K as [K|[K (d & D1 & D2)]].
    + destruct (B3 c K) as [X|[X (d & D1 & D2)]]; [left; exact X|right]. split; [exact X|]. destruct (A4 d D1) as (d0 & D3 & D4). exists d0. split; [exact D3|]. rewrite D4. exact D2.
    + right. split; [apply B4; exact K|]. exists d. split; [exact D1|]. rewrite D2. apply B1. exact Nc.
  - intros c d Hc Hd E. apply A3; [exact Hc|exact Hd|]. apply B5; [apply NO; exact Hc|apply NO; exact Hd|exact E].
  - intros d H. destruct (B7 d H) as (e & E1 & E2). destruct (A4 e E1) as (c & C3 & C4). exists c. split; [exact C3|]. rewrite C4. exact E2.
  - intros c H. apply A5, B6. exact H.
  - intros F H. destruct (A6 F H) as (F1 & H1 & K1). destruct (C1 F1 H1) as (F2 & H2 & K2). exists F2. split; [exact H2|]. intros c Hc. rewrite (K2 (n c)) by (apply NI; exact Hc). apply K1. exact Hc.
  - intros F H. destruct (C2 F H) as (F1 & H1 & K1). destruct (A7 F1 H1) as (F2 & H2 & K2). exists F2. split; [exact H2|]. intros c Hc. rewrite (K2 c Hc). apply K1. apply NI. exact Hc.
Qed.
Lemma reach_strong N0 N : reach N0 N -> aproper N0 -> aproper N /\ exists n, strong_rel N0 N n.
Proof.
  induction 1 as [|N N' R IH (r & W & S)]; intros P; [split; [exact P|]; exists (fun c => c); apply strong_start|]. destruct (IH P) as (P' & n & T). specialize (S P'). split; [apply S|]. exists (fun c => r (n c)). exact (strong_next _ _ _ _ _ T S).
Qed.
Definition weak_rel (N0 N : list node) (n : Z -> Z) : Prop :=
  (forall c, ~ inner N0 c -> ~ inner N (n c)) /\
  (forall F, (forall c, (0 <= F c)%Q) -> aflow N0 F -> exists F', (forall c, (0 <= F' c)%Q) /\ aflow N F' /\ forall c, ~ inner N0 c -> (F' (n c) == F c)%Q).
Lemma reach_weak N0 N : reach N0 N -> exists n, weak_rel N0 N n.
Proof.
  induction 1 as [|N N' R (n & T1 & T2) (r & (W1 & W2 & W3 & _) & _)].
  - exists (fun c => c). split; [auto|]. intros F P H. exists F. split; [exact P|]. split; [exact H|]. intros; reflexivity.
  - exists (fun c => r (n c)). split; [intros c H; apply W3, T1; exact H|]. intros F P H. destruct (T2 F P H) as (F1 & P1 & H1 & K1). destruct (W2 F1 P1 H1) as (F2 & P2 & H2 & K2). exists F2. split; [exact P2|]. split; [exact H2|]. intros c Hc. rewrite (K2 (n c)) by (apply T1; exact Hc). apply K1. exact Hc.
Qed.
Lemma reach_single N0 N : reach N0 N -> asingle N0 -> asingle N.
Proof. induction 1 as [|N N' R IH (r & (_ & _ & _ & W) & _)]; auto. Qed.

(** ** The rounds *)
Section Rounds.
  Variable order : list Z -> list Z.
  Hypothesis Hord : forall l, Permutation (order l) l.
  Variable allow : bool.
  Lemma scan_skip net pairs : scan_pairs order allow net pairs = Skip -> forall a b, In (a, b) pairs -> try_pair order allow net a b = Skip.
  Proof.
    induction pairs as [|[a b] r IH]; intros H x y I; [destruct I|]. cbn in H. destruct (try_pair order allow net a b) eqn:E; try discriminate. destruct I as [I|I]; [injection I as <- <-; exact E|apply IH; assumption].
  Qed.
  Lemma scan_becomes net net' pairs : scan_pairs order allow net pairs = Becomes net' -> exists a b, In (a, b) pairs /\ try_pair order allow net a b = Becomes net'.
  Proof.
    induction pairs as [|[a b] r IH]; intros H; [discriminate|]. cbn in H. destruct (try_pair order allow net a b) eqn:E; try discriminate.
    - destruct (IH H) as (x & y & I & K). exists x, y. split; [right; exact I|exact K].
    - injection H as <-. exists a, b. split; [left; reflexivity|exact E].
  Qed.
  Lemma scan_fails net pairs : scan_pairs order allow net pairs = Fails -> exists a b, In (a, b) pairs /\ try_pair order allow net a b = Fails.
  Proof.
    induction pairs as [|[a b] r IH]; intros H; [discriminate|]. cbn in H. destruct (try_pair order allow net a b) eqn:E; try discriminate.
    - destruct (IH H) as (x & y & I & K). exists x, y. split; [right; exact I|exact K].
    - exists a, b. split; [left; reflexivity|exact E].
  Qed.
  Lemma try_differ net a b net' : try_pair order allow net a b = Becomes net' -> a <> b.
  Proof. unfold try_pair. destruct (splitter_eqb_spec a b); [discriminate|auto]. Qed.
  Lemma remove_first_length nd net : In nd net -> length net = S (length (remove_first nd net)).
  Proof. intros I. rewrite (Permutation_length (remove_first_perm nd net I)) at 1. reflexivity. Qed.
  Lemma erase_length X net : length (erase X net) = length net.
  Proof. apply map_length. Qed.
  Lemma drop_length net nd : In nd net -> spare nd = true -> length net = S (length (drop_node net nd)).
  Proof.
    intros I Sp. rewrite (remove_first_length nd net I). unfold drop_node, spare in *. destruct (all_none (fst nd)) eqn:E1; [rewrite erase_length; reflexivity|]. destruct (all_none (snd nd)) eqn:E2; [rewrite erase_length; reflexivity|]. cbn in Sp. apply andb_true_iff in Sp. destruct (lone_belts _ (proj1 Sp) E1) as (i & -> & _). unfold remap_to. rewrite map_length. reflexivity.
  Qed.
  Lemma replace_first_length nd b net : length (replace_first nd b net) = length net.
  Proof. induction net as [|n r IH]; [reflexivity|]. cbn. destruct (splitter_eqb n nd); cbn; congruence. Qed.
  Lemma pair_length net a b net' : In a net -> try_pair order allow net a b = Becomes net' -> length net = S (length net').
  Proof.
    intros I H. rewrite (remove_first_length a net I). unfold try_pair in H. destruct (splitter_eqb a b); [discriminate|].
    destruct (set_eqb _ (side_set (fst b))); [destruct (_ || _); [discriminate|]; injection H as <-; rewrite replace_first_length; reflexivity|].
    match type of H with (if ?c then _ else _) = _ => destruct c end; [injection H as <-; rewrite erase_length, replace_first_length; reflexivity|].
    match type of H with (if ?c then _ else _) = _ => destruct c end; [injection H as <-; rewrite erase_length, replace_first_length; reflexivity|discriminate].
  Qed.
  Lemma in_prod_self (net : network) a b : In (a, b) (list_prod net net) <-> In a net /\ In b net.
  Proof. apply in_prod_iff. Qed.
  Lemma rounds_end fuel : forall net, (length net < fuel)%nat -> simplify_rounds order fuel allow net <> Continues.
  Proof.
    induction fuel as [|f IH]; intros net L; [lia|]. cbn [simplify_rounds]. unfold drop_step. destruct (find spare net) as [nd|] eqn:E; cbn [option_map].
    - apply find_some in E. destruct E as [I Sp]. apply IH. pose proof (drop_length net nd I Sp). lia.
    - destruct (scan_pairs order allow net (list_prod net net)) as [| |net'] eqn:K; try discriminate. apply scan_becomes in K. destruct K as (a & b & I & K). apply in_prod_self in I. apply IH. pose proof (pair_length _ _ _ _ (proj1 I) K). lia.
  Qed.
  Lemma rounds_reach N0 fuel : forall net net', asingle N0 -> reach N0 (anet net) -> simplify_rounds order fuel allow net = Returns net' ->
    reach N0 (anet net') /\ (length net' <= length net)%nat /\ find spare net' = None /\ scan_pairs order allow net' (list_prod net' net') = Skip.
  Proof.
    induction fuel as [|f IH]; intros net net' S R H; [discriminate|]. cbn [simplify_rounds] in H. unfold drop_step in H. pose proof (reach_single _ _ R S) as Sg. destruct (find spare net) as [nd|] eqn:E; cbn [option_map] in H.
    - apply find_some in E. destruct E as [I Sp]. destruct (IH _ _ S (reach_step _ _ _ R (drop_is_step net nd Sg I Sp)) H) as (X1 & X2 & X3). split; [exact X1|]. split; [|exact X3]. pose proof (drop_length net nd I Sp). lia.
    - destruct (scan_pairs order allow net (list_prod net net)) as [| |net1] eqn:K; try discriminate.
      + injection H as <-. auto.
      + apply scan_becomes in K. destruct K as (a & b & I & K). apply in_prod_self in I.
        destruct (IH _ _ S (reach_step _ _ _ R (pair_is_step order Hord allow net a b Sg (proj1 I) (proj2 I) (try_differ _ _ _ _ K) net1 K)) H) as (X1 & X2 & X3). split; [exact X1|]. split; [|exact X3]. pose proof (pair_length _ _ _ _ (proj1 I) K). lia.
  Qed.

  (** ** What is left *)
  Lemma no_spare net : find spare net = None -> forall nd, In nd net -> ins nd <> [] /\ outs nd <> [] /\ ~ (length (ins nd) = 1%nat /\ length (outs nd) = 1%nat).
  Proof.
    intros H nd I. pose proof (find_none _ _ H nd I) as K. unfold spare in K. apply orb_false_iff in K. destruct K as [K K3]. apply orb_false_iff in K. destruct K as [K1 K2].
    split; [|split].
    - intros E. apply all_none_belts in E. congruence.
    - intros E. apply all_none_belts in E. congruence.
    - intros [E1 E2]. rewrite (proj2 (any_none_belts (fst nd))), (proj2 (any_none_belts (snd nd))) in K3; [discriminate| |]; unfold ins, outs in *; lia.
  Qed.
  Lemma skip_differ net a b : a <> b -> try_pair order allow net a b = Skip -> ~ (forall c, In c (outs a) <-> In c (ins b)).
  Proof.
    intros D H E. unfold try_pair in H. destruct (splitter_eqb_spec a b); [contradiction|]. rewrite (proj2 (set_eqb_spec (side_set (snd a)) (side_set (fst b)))) in H.
    - destruct (_ || _); discriminate.
    - intros c. rewrite !side_set_in. apply E.
  Qed.
  Lemma nodup_flat_index {A} (f : A -> list Z) l : NoDup (flat_map f l) -> forall j k x y c, nth_error l j = Some x -> nth_error l k = Some y -> In c (f x) -> In c (f y) -> j = k.
  Proof.
    induction l as [|z l IH]; intros N j k x y c Hj Hk Ix Iy; [destruct j; discriminate|]. cbn in N. apply nodup_parts in N. destruct N as (_ & N & D).
    assert (Q : forall i w, nth_error l i = Some w -> In c (f w) -> ~ In c (f z)) by (intros i w Hi Iw Iz; apply (D c Iz); apply in_flat_map; exists w; split; [eapply nth_error_In; exact Hi|exact Iw]).
    destruct j as [|j], k as [|k]; cbn in Hj, Hk; [reflexivity| | |].
    - injection Hj as <-. exfalso. exact (Q _ _ Hk Iy Ix).
    - injection Hk as <-. exfalso. exact (Q _ _ Hj Ix Iy).
    - f_equal. exact (IH N j k x y c Hj Hk Ix Iy).
  Qed.
  Lemma last_index_some sel c net : forall i found, In c (flat_map (fun nd => belts (sel nd)) net) ->
    exists k nd, last_index sel c i net found = i + Z.of_nat k /\ nth_error net k = Some nd /\ In c (belts (sel nd)).
  Proof.
    induction net as [|n r IH]; intros i found I; [destruct I|]. cbn [last_index]. rewrite belts_present. cbn in I. apply in_app_iff in I.
    destruct (in_dec Z.eq_dec c (flat_map (fun nd => belts (sel nd)) r)) as [J|J].
    - destruct (IH (i + 1) (if mem c (belts (sel n)) then i else found) J) as (k & nd & -> & H & K). exists (S k), nd. split; [lia|]. split; assumption.
    - destruct I as [I|I]; [|contradiction]. rewrite (proj2 (mem_in c _) I). destruct (last_index_found sel c r (i + 1) i) as [->|(k & nd & -> & H & K)]; [exists O, n; split; [lia|]; split; [reflexivity|exact I]|]. exfalso. apply J. apply in_flat_map. exists nd. split; [eapply nth_error_In; exact H|exact K].
  Qed.
  Lemma same_end sel net nd c d : NoDup (flat_map (fun nd => belts (sel nd)) net) -> In nd net -> In c (belts (sel nd)) -> In d (belts (sel nd)) ->
    last_index sel c 0 net (-1) = last_index sel d 0 net (-1) /\ last_index sel c 0 net (-1) <> -1.
  Proof.
    intros N I Hc Hd. destruct (In_nth_error _ _ I) as (j & Hj).
    assert (Q : forall e, In e (belts (sel nd)) -> last_index sel e 0 net (-1) = Z.of_nat j).
    { intros e He. destruct (last_index_some sel e net 0 (-1)) as (k & md & -> & H & K); [apply in_flat_map; exists nd; auto|]. rewrite (nodup_flat_index _ _ N k j md nd e H Hj K He). lia. }
    rewrite (Q c Hc), (Q d Hd). split; [reflexivity|lia].
  Qed.
  Lemma ends_found sel net (la lb : list Z) s t x1 x2 y1 y2 : NoDup (flat_map (fun nd => belts (sel nd)) net) -> In s net -> In t net ->
    In x1 (belts (sel s)) -> In y1 (belts (sel s)) -> In x2 (belts (sel t)) -> In y2 (belts (sel t)) -> Permutation la [x1; x2] -> Permutation lb [y1; y2] ->
    let f := fun c => last_index sel c 0 net (-1) in
    negb (mem (-1) (map f la)) = true /\ set_eqb (map f la) (map f lb) = true.
  Proof.
    intros N Is It H1 H2 H3 H4 Pa Pb f. destruct (same_end sel net s x1 y1 N Is H1 H2) as [E1 M1]. destruct (same_end sel net t x2 y2 N It H3 H4) as [E2 M2]. fold (f x1) (f y1) in E1. fold (f x2) (f y2) in E2. fold (f x1) in M1. fold (f x2) in M2.
    assert (Qa : forall z, In z (map f la) <-> z = f x1 \/ z = f x2). { intros z. split; intros Hz; [apply (Permutation_in _ (Permutation_map f Pa)) in Hz; cbn in Hz; intuition congruence|apply (Permutation_in _ (Permutation_sym (Permutation_map f Pa))); cbn; intuition congruence]. }
    assert (Qb : forall z, In z (map f lb) <-> z = f y1 \/ z = f y2). { intros z. split; intros Hz; [apply (Permutation_in _ (Permutation_map f Pb)) in Hz; cbn in Hz; intuition congruence|apply (Permutation_in _ (Permutation_sym (Permutation_map f Pb))); cbn; intuition congruence]. }
    split.
    - apply negb_true_iff. destruct (mem (-1) (map f la)) eqn:E; [|reflexivity]. apply mem_in, Qa in E. intuition congruence.
    - apply set_eqb_spec. intros z. rewrite Qa, Qb, E1, E2. reflexivity.
  Qed.
  Lemma nodup_apart {A} (f : A -> list Z) l s t c : NoDup (flat_map f l) -> In s l -> In t l -> s <> t -> In c (f s) -> In c (f t) -> False.
  Proof.
    intros N Is It D Hs Ht. destruct (In_nth_error _ _ Is) as (j & Hj). destruct (In_nth_error _ _ It) as (k & Hk). pose proof (nodup_flat_index f l N j k s t c Hj Hk Hs Ht). subst k. congruence.
  Qed.
  Lemma skip_bottleneck net a b : allow = true -> asingle (anet net) -> In a net -> In b net -> a <> b -> try_pair order allow net a b = Skip -> ~ joins net a b /\ ~ forks net a b.
  Proof.
    intros Al Sg Ia Ib D H. apply single_anet in Sg. destruct Sg as [S1 S2]. pose proof (nodup_flat ins net a S1 Ia) as Na. pose proof (nodup_flat outs net a S2 Ia) as Ma. pose proof (nodup_flat ins net b S1 Ib) as Nb. pose proof (nodup_flat outs net b S2 Ib) as Mb.
    unfold try_pair in H. destruct (splitter_eqb_spec a b); [contradiction|]. unfold ins, outs in Na, Ma, Nb, Mb. rewrite !side_set_belts in H by assumption. fold (ins a) (outs a) (ins b) (outs b) in H.
    destruct (set_eqb (outs a) (ins b)) eqn:E; [destruct (_ || _); discriminate|]. clear E. rewrite Al in H. cbn [andb] in H.
    split; intros (L1 & L2 & s & t & x1 & x2 & y1 & y2 & Is & It & Dst & X1 & X2 & Y1 & Y2 & Z1 & Z2 & Z3 & Z4).
    - assert (Dx : x1 <> x2) by (intros ->; exact (nodup_apart outs net s t x2 S2 Is It Dst Z1 Z3)). assert (Dy : y1 <> y2) by (intros ->; exact (nodup_apart outs net s t y2 S2 Is It Dst Z2 Z4)).
      pose proof (two_belts (fst a) x1 x2 X1 X2 Dx) as Pa. pose proof (two_belts (fst b) y1 y2 Y1 Y2 Dy) as Pb. fold (ins a) in Pa. fold (ins b) in Pb.
      destruct (ends_found snd net (ins a) (ins b) s t x1 x2 y1 y2 S2 Is It Z1 Z2 Z3 Z4 Pa Pb) as [K1 K2]. fold (source_of net) in K1, K2.
      rewrite L1, L2, (Permutation_length Pa), (Permutation_length Pb) in H. cbn [length Nat.eqb andb] in H.
      change (fun c => last_index snd c 0 net (-1)) with (source_of net) in K1, K2. rewrite K1, K2 in H. discriminate.
    - assert (Dx : x1 <> x2) by (intros ->; exact (nodup_apart ins net s t x2 S1 Is It Dst Z1 Z3)). assert (Dy : y1 <> y2) by (intros ->; exact (nodup_apart ins net s t y2 S1 Is It Dst Z2 Z4)).
      pose proof (two_belts (snd a) x1 x2 X1 X2 Dx) as Pa. pose proof (two_belts (snd b) y1 y2 Y1 Y2 Dy) as Pb. fold (outs a) in Pa. fold (outs b) in Pb.
      destruct (ends_found fst net (outs a) (outs b) s t x1 x2 y1 y2 S1 Is It Z1 Z2 Z3 Z4 Pa Pb) as [K1 K2].
      rewrite L1, L2, (Permutation_length Pa), (Permutation_length Pb) in H. cbn [length Nat.eqb andb] in H.
      change (fun c => last_index fst c 0 net (-1)) with (drain_of net) in K1, K2. rewrite K1, K2 in H.
      discriminate H.
  Qed.
  Lemma rounds_left net : asingle (anet net) -> find spare net = None -> scan_pairs order allow net (list_prod net net) = Skip -> irreducible net /\ (allow = true -> no_bottleneck_left net).
  Proof.
    intros Sg F K. split; [split; [exact (no_spare net F)|]|].
    - intros a b Ia Ib D. apply (skip_differ net); [exact D|]. apply (scan_skip _ _ K). apply in_prod_self. auto.
    - intros Al a b Ia Ib D. apply (skip_bottleneck net a b Al Sg Ia Ib D). apply (scan_skip _ _ K). apply in_prod_self. auto.
  Qed.

  (** ** Networks without gaps *)
  Lemma full_not_spare net nd : no_gaps net -> In nd net -> spare nd = false.
  Proof.
    intros G I. destruct (G nd I) as [A B]. unfold ins, outs in *. destruct nd as [[[a|] [b|]] [[c|] [d|]]]; cbn in *; try discriminate; reflexivity.
  Qed.
  Lemma full_pair net a b : no_gaps net -> asingle (anet net) -> In a net -> In b net ->
    try_pair order allow net a b = Skip \/ exists net', try_pair order allow net a b = Becomes net' /\ no_gaps net'.
  Proof.
    intros G Sg Ia Ib. apply single_anet in Sg. destruct Sg as [S1 S2]. pose proof (nodup_flat ins net a S1 Ia) as Na. pose proof (nodup_flat outs net a S2 Ia) as Ma. pose proof (nodup_flat ins net b S1 Ib) as Nb. pose proof (nodup_flat outs net b S2 Ib) as Mb.
    unfold try_pair. destruct (splitter_eqb_spec a b) as [|D]; [left; reflexivity|]. unfold ins, outs in Na, Ma, Nb, Mb. rewrite !side_set_belts by assumption. fold (ins a) (outs a) (ins b) (outs b).
    destruct (G a Ia) as [A1 A2]. destruct (G b Ib) as [B1 B2]. rewrite A1, A2, B1, B2. cbn [Nat.eqb orb andb]. rewrite !andb_false_r. cbn [andb].
    destruct (set_eqb (outs a) (ins b)); [right|left; reflexivity]. eexists. split; [reflexivity|].
    intros nd I. apply (Permutation_in _ (new_perm net a b Ia Ib D (fst a, snd b))) in I. destruct I as [<-|I]; [split; assumption|]. apply G.
    apply (Permutation_in _ (Permutation_sym (net_perm net a b Ia Ib D))). right. right. exact I.
  Qed.
  Lemma rounds_full fuel : forall net, no_gaps net -> asingle (anet net) -> (length net < fuel)%nat -> exists net', simplify_rounds order fuel allow net = Returns net' /\ no_gaps net'.
  Proof.
    induction fuel as [|f IH]; intros net G Sg L; [lia|]. cbn [simplify_rounds]. unfold drop_step. destruct (find spare net) as [nd|] eqn:E; cbn [option_map].
    - apply find_some in E. destruct E as [I Sp]. rewrite (full_not_spare net nd G I) in Sp. discriminate.
    - destruct (scan_pairs order allow net (list_prod net net)) as [| |net1] eqn:K.
      + exists net. auto.
      + exfalso. apply scan_fails in K. destruct K as (a & b & I & K). apply in_prod_self in I. destruct (full_pair net a b G Sg (proj1 I) (proj2 I)) as [X|(n & X & _)]; congruence.
      + apply scan_becomes in K. destruct K as (a & b & I & K). apply in_prod_self in I. destruct (full_pair net a b G Sg (proj1 I) (proj2 I)) as [X|(n & X & G')]; [congruence|]. rewrite K in X. injection X as <-.
        destruct (pair_is_step order Hord allow net a b Sg (proj1 I) (proj2 I) (try_differ _ _ _ _ K) net1 K) as (r & (_ & _ & _ & W) & _).
        apply IH; [exact G'|exact (W Sg)|]. pose proof (pair_length _ _ _ _ (proj1 I) K). lia.
  Qed.
End Rounds.
