(** Proofs about simplify: each round of the model is a step. *)
From Verif Require Import P_Dict P_Benes P_Network P_Network2.
From Coq Require Import ZArith QArith List Bool Lia Permutation Lqa.
From Verif Require Import M_Json M_Dict M_Network M_Simplify Spec_Simplify P_Simplify P_Simplify2.
Import ListNotations.
Local Open Scope Z_scope.

Definition anode (nd : splitter) : node := (ins nd, outs nd).
Definition anet (net : network) : list node := map anode net.
Lemma Ins_anet net : Ins (anet net) = flat_map ins net.
Proof. unfold Ins, anet. rewrite flat_map_concat_map, map_map, <- flat_map_concat_map. reflexivity. Qed.
Lemma Outs_anet net : Outs (anet net) = flat_map outs net.
Proof. unfold Outs, anet. rewrite flat_map_concat_map, map_map, <- flat_map_concat_map. reflexivity. Qed.
Lemma single_anet net : single_belts net <-> asingle (anet net).
Proof. unfold single_belts, asingle. rewrite Ins_anet, Outs_anet. tauto. Qed.
Lemma proper_anet net : proper net <-> aproper (anet net).
Proof.
  split.
  - intros H n I. apply in_map_iff in I. destruct I as (nd & <- & I). apply H. exact I.
  - intros H nd I. apply (H (anode nd)). apply in_map. exact I.
Qed.
Lemma flow_anet net F : flow net F <-> aflow (anet net) F.
Proof.
  split.
  - intros H n I. apply in_map_iff in I. destruct I as (nd & <- & I). apply H. exact I.
  - intros H nd I. apply (H (anode nd)). apply in_map. exact I.
Qed.
Lemma enters_anet net c : enters net c <-> aenters (anet net) c.
Proof. unfold enters, aenters. rewrite Ins_anet, Outs_anet. tauto. Qed.
Lemma leaves_anet net c : leaves net c <-> aleaves (anet net) c.
Proof. unfold leaves, aleaves. rewrite Ins_anet, Outs_anet. tauto. Qed.
Lemma absent_anet net c : absent net c <-> aabsent (anet net) c.
Proof. unfold absent, aabsent. rewrite Ins_anet, Outs_anet. tauto. Qed.

Lemma belts_present s : present (side_list s) = belts s.
Proof. destruct s as [[a|] [b|]]; reflexivity. Qed.
Lemma belts_map (f : colour -> colour) s : f None = None ->
  belts (f (fst s), f (snd s)) = flat_map (fun x => match f (Some x) with Some y => [y] | None => [] end) (belts s).
Proof. intros H. destruct s as [[a|] [b|]]; cbn; rewrite ?H; try destruct (f (Some a)); try destruct (f (Some b)); reflexivity. Qed.
Lemma dget_erased X x : dget Z.eqb x (map (fun c => (c, @None Z)) X) = if existsb (Z.eqb x) X then Some None else None.
Proof. induction X as [|y X IH]; [reflexivity|]. cbn. destruct (Z.eqb_spec y x), (Z.eqb_spec x y); try congruence; cbn; auto. Qed.
Lemma erase_side X s : belts (map_to (map (fun c => (c, None)) X) (fst s), map_to (map (fun c => (c, None)) X) (snd s)) = filter (fun c => negb (existsb (Z.eqb c) X)) (belts s).
Proof.
  rewrite (belts_map (map_to (map (fun c => (c, None)) X))) by reflexivity. induction (belts s) as [|c l IH]; [reflexivity|]. cbn [flat_map filter]. rewrite IH. cbn [map_to]. rewrite dget_erased. destruct (existsb (Z.eqb c) X); reflexivity.
Qed.
Lemma erase_anet X net : anet (erase X net) = map (eraseN X) (anet net).
Proof.
  unfold anet, erase, remap_to. rewrite !map_map. apply map_ext. intros nd. unfold anode, eraseN, ins, outs, map_splitter. cbn [fst snd]. rewrite !erase_side. reflexivity.
Qed.
Lemma rename_side i o s : belts (map_to [(i, Some o)] (fst s), map_to [(i, Some o)] (snd s)) = map (swap i o) (belts s).
Proof.
  rewrite (belts_map (map_to [(i, Some o)])) by reflexivity. induction (belts s) as [|c l IH]; [reflexivity|]. cbn [flat_map map]. rewrite IH. unfold swap, map_to. cbn. destruct (Z.eqb_spec i c), (Z.eqb_spec c i); try congruence; reflexivity.
Qed.
Lemma rename_anet i o net : anet (remap_to net [(i, Some o)]) = map (renameN i o) (anet net).
Proof.
  unfold anet, remap_to. rewrite !map_map. apply map_ext. intros nd. unfold anode, renameN, ins, outs, map_splitter. cbn [fst snd]. rewrite !rename_side. reflexivity.
Qed.
Lemma remove_first_perm nd net : In nd net -> Permutation net (nd :: remove_first nd net).
Proof.
  induction net as [|n r IH]; intros H; [destruct H|]. cbn. destruct (splitter_eqb_spec n nd) as [->|D]; [apply Permutation_refl|]. destruct H as [H|H]; [contradiction|]. rewrite (IH H) at 1. apply perm_swap.
Qed.
Lemma replace_first_perm nd b net : In nd net -> Permutation (replace_first nd b net) (b :: remove_first nd net).
Proof.
  induction net as [|n r IH]; intros H; [destruct H|]. cbn. destruct (splitter_eqb_spec n nd) as [->|D]; [apply Permutation_refl|]. destruct H as [H|H]; [contradiction|]. rewrite (IH H). apply perm_swap.
Qed.
Lemma remove_first_in nd x net : In nd net -> In x net -> x <> nd -> In x (remove_first nd net).
Proof. intros H I D. apply (Permutation_in _ (remove_first_perm nd net H)) in I. destruct I as [I|I]; [congruence|exact I]. Qed.
Lemma anet_perm net net' : Permutation net net' -> Permutation (anet net) (anet net').
Proof. apply Permutation_map. Qed.
Lemma filter_perm {A} (f : A -> bool) l m : Permutation l m -> Permutation (filter f l) (filter f m).
Proof. induction 1 as [|x l m P IH|x y l|l m k P IH P' IH']; cbn; [constructor|destruct (f x); auto|destruct (f x), (f y); auto; constructor|eapply perm_trans; eassumption]. Qed.
Lemma filter_keep X l : (forall c, In c l -> ~ In c X) -> filter (fun c => negb (existsb (Z.eqb c) X)) l = l.
Proof. induction l as [|c l IH]; intros H; [reflexivity|]. cbn. rewrite (proj2 (keep_in X c)) by (apply H; left; reflexivity). rewrite IH by (intros; apply H; right; assumption). reflexivity. Qed.
Lemma filter_drop X c l : In c X -> filter (fun c => negb (existsb (Z.eqb c) X)) (c :: l) = filter (fun c => negb (existsb (Z.eqb c) X)) l.
Proof. intros H. cbn. destruct (existsb (Z.eqb c) X) eqn:E; [reflexivity|]. assert (K : negb (existsb (Z.eqb c) X) = true) by (rewrite E; reflexivity). apply keep_in in K. contradiction. Qed.
Lemma eraseN_perm X N M : Permutation N M -> Permutation (map (eraseN X) N) (map (eraseN X) M).
Proof. apply Permutation_map. Qed.

(** A step of either kind. *)
Definition step (N N' : list node) : Prop := exists r, weak_step N N' r /\ (aproper N -> strong_step N N' r).
Lemma step_equiv N N' M M' : equiv N M -> equiv N' M' -> step M M' -> step N N'.
Proof.
  intros E E' (r & W & S). exists r. split; [exact (weak_equiv _ _ _ _ _ E E' W)|]. intros P. apply (strong_equiv _ _ _ _ _ E E'). apply S. apply (equiv_proper _ _ E). exact P.
Qed.

(** ** Spare splitters *)
Lemma all_none_belts s : all_none s = true <-> belts s = [].
Proof. destruct s as [[a|] [b|]]; cbn; split; intros H; try discriminate; reflexivity. Qed.
Lemma any_none_belts s : any_none s = true <-> (length (belts s) <= 1)%nat.
Proof. destruct s as [[a|] [b|]]; cbn; split; intros H; try discriminate; try reflexivity; lia. Qed.
Lemma lone_belts s : any_none s = true -> all_none s = false -> exists x, lone s = Some x /\ belts s = [x].
Proof. destruct s as [[a|] [b|]]; cbn; intros H K; try discriminate; eexists; split; reflexivity. Qed.
Lemma drop_is_step net nd : asingle (anet net) -> In nd net -> spare nd = true -> step (anet net) (anet (drop_node net nd)).
Proof.
  intros S I Sp. unfold spare in Sp. unfold drop_node. pose proof (anet_perm _ _ (remove_first_perm nd net I)) as P. cbn [anet map] in P. fold (anet (remove_first nd net)) in P.
  destruct (all_none (fst nd)) eqn:E1; [|destruct (all_none (snd nd)) eqn:E2].
  - rewrite belts_present, erase_anet. apply all_none_belts in E1. unfold anode, ins in P. rewrite E1 in P.
    apply (step_equiv _ _ _ _ (equiv_perm _ _ P) (equiv_refl _)). exists (fun c => c). split; [apply dead_in_step|]. intros A. exfalso. destruct (A _ (or_introl eq_refl)) as [X _]. apply X. reflexivity.
  - rewrite belts_present, erase_anet. apply all_none_belts in E2. unfold anode, outs in P. rewrite E2 in P.
    apply (step_equiv _ _ _ _ (equiv_perm _ _ P) (equiv_refl _)). exists (fun c => c). split; [apply dead_out_step|]. intros A. exfalso. destruct (A _ (or_introl eq_refl)) as [_ X]. apply X. reflexivity.
  - cbn in Sp. apply andb_true_iff in Sp. destruct Sp as [Sa Sb]. destruct (lone_belts _ Sa E1) as (i & -> & Bi). destruct (lone_belts _ Sb E2) as (o & -> & Bo).
    rewrite rename_anet. unfold anode, ins, outs in P. rewrite Bi, Bo in P. pose proof (equiv_single _ _ (equiv_perm _ _ P) S) as S'.
    apply (step_equiv _ _ _ _ (equiv_perm _ _ P) (equiv_refl _)). exists (swap i o). split; [apply pass_weak; exact S'|apply pass_strong; exact S'].
Qed.

(** ** Pairs of splitters *)
Lemma nodup_flat {A} (f : A -> list Z) l x : NoDup (flat_map f l) -> In x l -> NoDup (f x).
Proof. induction l as [|y l IH]; intros H I; [destruct I|]. cbn in H. apply nodup_parts in H. destruct H as (H1 & H2 & _). destruct I as [<-|I]; auto. Qed.
Lemma side_set_belts s : NoDup (belts s) -> side_set s = belts s.
Proof. intros H. unfold side_set, set_of. rewrite belts_present. apply nodup_fixed_point. exact H. Qed.
Lemma side_set_in s c : In c (side_set s) <-> In c (belts s).
Proof. unfold side_set, set_of. rewrite nodup_In, belts_present. reflexivity. Qed.
Lemma set_eqb_spec a b : set_eqb a b = true <-> forall c, In c a <-> In c b.
Proof.
  unfold set_eqb. rewrite andb_true_iff, !forallb_forall. split.
  - intros [H K] c. split; intros I; [apply mem_in; apply H; exact I|apply mem_in; apply K; exact I].
  - intros H. split; intros c I; apply mem_in; apply H; exact I.
Qed.
Lemma belts_le s : (length (belts s) <= 2)%nat.
Proof. destruct s as [[a|] [b|]]; cbn; lia. Qed.

Lemma last_index_found sel c net : forall i found, last_index sel c i net found = found \/
  exists k nd, last_index sel c i net found = i + Z.of_nat k /\ nth_error net k = Some nd /\ In c (belts (sel nd)).
Proof.
  induction net as [|n r IH]; intros i found; cbn [last_index]; [left; reflexivity|].
  rewrite belts_present. destruct (mem c (belts (sel n))) eqn:E.
  - right. destruct (IH (i + 1) i) as [->|(k & nd & -> & H & K)].
    + exists O, n. split; [lia|]. split; [reflexivity|apply mem_in; exact E].
    + exists (S k), nd. split; [lia|]. split; [exact H|exact K].
  - destruct (IH (i + 1) found) as [->|(k & nd & -> & H & K)]; [left; reflexivity|]. right. exists (S k), nd. split; [lia|]. split; [exact H|exact K].
Qed.
Lemma three_belts s x y z : In x (belts s) -> In y (belts s) -> In z (belts s) -> x <> y -> x <> z -> y <> z -> False.
Proof.
  intros H1 H2 H3 D1 D2 D3. pose proof (belts_le s) as L. assert (N : NoDup [x; y; z]) by (repeat constructor; cbn; intuition).
  assert (I : incl [x; y; z] (belts s)) by (intros c [<-|[<-|[<-|[]]]]; assumption). apply (NoDup_incl_length N) in I. cbn in I. lia.
Qed.
Lemma two_belts s x y : In x (belts s) -> In y (belts s) -> x <> y -> Permutation (belts s) [x; y].
Proof.
  destruct s as [[a|] [b|]]; cbn; intros H1 H2 D; try tauto.
  - destruct H1 as [<-|[<-|[]]], H2 as [<-|[<-|[]]]; try contradiction; [apply Permutation_refl|apply perm_swap].
  - destruct H1 as [<-|[]], H2 as [<-|[]]; contradiction.
  - destruct H1 as [<-|[]], H2 as [<-|[]]; contradiction.
Qed.
Lemma common_ends sel net x1 x2 y1 y2 : NoDup [x1; x2; y1; y2] ->
  negb (mem (-1) (map (fun c => last_index sel c 0 net (-1)) [x1; x2])) = true ->
  set_eqb (map (fun c => last_index sel c 0 net (-1)) [x1; x2]) (map (fun c => last_index sel c 0 net (-1)) [y1; y2]) = true ->
  exists s t u1 u2, In s net /\ In t net /\ Permutation [u1; u2] [y1; y2] /\ Permutation (belts (sel s)) [x1; u1] /\ Permutation (belts (sel t)) [x2; u2].
Proof.
  intros D N E. set (f := fun c => last_index sel c 0 net (-1)) in *.
  assert (D1 : ~ In x1 [x2; y1; y2] /\ ~ In x2 [y1; y2] /\ ~ In y1 [y2]) by (inversion D as [|? ? ? A1']; inversion A1' as [|? ? ? A1'']; inversion A1''; subst; auto). cbn in D1. destruct D1 as (D1 & D2 & D3).
  assert (Q : forall c, f c <> -1 -> exists k nd, f c = Z.of_nat k /\ nth_error net k = Some nd /\ In c (belts (sel nd))).
  { intros c H. destruct (last_index_found sel c net 0 (-1)) as [X|(k & nd & X & Y & Z)]; [contradiction|]. exists k, nd. split; [exact X|]. split; assumption. }
  apply negb_true_iff in N. assert (N' : ~ In (-1) (map f [x1; x2])) by (intros X; apply mem_in in X; congruence). cbn in N'.
  pose proof (proj1 (set_eqb_spec _ _) E) as E'. cbn in E'.
  destruct (Q x1 ltac:(tauto)) as (k1 & s & F1 & N1 & B1). destruct (Q x2 ltac:(tauto)) as (k2 & t & F2 & N2 & B2).
  assert (My1 : f x1 = f y1 \/ f x2 = f y1) by (destruct (E' (f y1)) as [_ X]; destruct X as [X|[X|[]]]; auto).
  assert (My2 : f x1 = f y2 \/ f x2 = f y2) by (destruct (E' (f y2)) as [_ X]; destruct X as [X|[X|[]]]; auto).
  destruct (Q y1 ltac:(intuition congruence)) as (l1 & p & G1 & O1 & C1). destruct (Q y2 ltac:(intuition congruence)) as (l2 & q & G2 & O2 & C2).
  assert (Same : forall k l nd md, Z.of_nat k = Z.of_nat l -> nth_error net k = Some nd -> nth_error net l = Some md -> nd = md) by (intros k l nd md X Y Z; apply Nat2Z.inj in X; subst l; congruence).
  assert (I1 : In s net) by (eapply nth_error_In; eassumption). assert (I2 : In t net) by (eapply nth_error_In; eassumption).
  destruct My1 as [M1|M1], My2 as [M2|M2].
  - exfalso. rewrite F1, G1 in M1. rewrite F1, G2 in M2. pose proof (Same _ _ _ _ M1 N1 O1). pose proof (Same _ _ _ _ M2 N1 O2). subst p q. apply (three_belts (sel s) x1 y1 y2); auto; intuition congruence.
  - rewrite F1, G1 in M1. rewrite F2, G2 in M2. pose proof (Same _ _ _ _ M1 N1 O1). pose proof (Same _ _ _ _ M2 N2 O2). subst p q.
    exists s, t, y1, y2. split; [exact I1|]. split; [exact I2|]. split; [apply Permutation_refl|]. split; apply two_belts; auto; intuition congruence.
  - rewrite F2, G1 in M1. rewrite F1, G2 in M2. pose proof (Same _ _ _ _ M1 N2 O1). pose proof (Same _ _ _ _ M2 N1 O2). subst p q.
    exists s, t, y2, y1. split; [exact I1|]. split; [exact I2|]. split; [apply perm_swap|]. split; apply two_belts; auto; intuition congruence.
  - exfalso. rewrite F2, G1 in M1. rewrite F2, G2 in M2. pose proof (Same _ _ _ _ M1 N2 O1). pose proof (Same _ _ _ _ M2 N2 O2). subst p q. apply (three_belts (sel t) x2 y1 y2); auto; intuition congruence.
Qed.
Lemma pick_two (net : network) (s t : splitter) : In s net -> In t net -> s <> t -> exists rest, Permutation net (s :: t :: rest).
Proof.
  intros H1 H2 D. exists (remove_first t (remove_first s net)). rewrite (remove_first_perm s net H1) at 1. apply perm_skip. apply remove_first_perm. apply remove_first_in; [exact H1|exact H2|congruence].
Qed.
Lemma length_two {A} (l : list A) : length l = 2%nat -> exists x y, l = [x; y].
Proof. destruct l as [|x [|y [|z l]]]; cbn; intros H; try discriminate. exists x, y. reflexivity. Qed.
Lemma length_one {A} (l : list A) : length l = 1%nat -> exists x, l = [x].
Proof. destruct l as [|x [|y l]]; cbn; intros H; try discriminate. exists x. reflexivity. Qed.
Lemma equiv_list N M L : Permutation N L -> Forall2 like L M -> equiv N M.
Proof. intros P F. exists L. auto. Qed.
Lemma likes_refl N : Forall2 like N N.
Proof. induction N; constructor; auto using like_refl. Qed.
