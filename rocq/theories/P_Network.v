(** Proofs about network.py: the ends of a network. *)
From Coq Require Import ZArith List Bool Lia Permutation.
From Verif Require Import M_Json M_Dict P_Dict M_Network Spec_Network.
Import ListNotations.
Open Scope Z_scope.

Definition value (d : list (Z * Z)) (c : Z) : Z := match dget Z.eqb c d with Some n => n | None => 0 end.
Definition is_colour (c : Z) (x : colour) : Z := match x with Some y => if y =? c then 1 else 0 | None => 0 end.

Lemma occurs_cons c x l : occurs c (x :: l) = is_colour c x + occurs c l.
Proof. unfold occurs, is_colour. cbn. destruct x as [y|]; [destruct (y =? c)|]; cbn [length]; lia. Qed.
Lemma occurs_nil c : occurs c [] = 0. Proof. reflexivity. Qed.
Lemma occurs_app c l k : occurs c (l ++ k) = occurs c l + occurs c k.
Proof. induction l as [|x l IH]; [reflexivity|]. rewrite <- app_comm_cons, !occurs_cons, IH. lia. Qed.
Lemma occurs_nonneg c l : 0 <= occurs c l. Proof. unfold occurs. lia. Qed.
Lemma occurs_in c l : 0 < occurs c l <-> In (Some c) l.
Proof.
  induction l as [|x l IH]; [cbn; split; [lia|tauto]|]. rewrite occurs_cons. pose proof (occurs_nonneg c l).
  cbn. rewrite <- IH. unfold is_colour. destruct x as [y|]; [destruct (Z.eqb_spec y c) as [->|N]|].
  - split; [auto|lia].
  - split; [intros; right; lia|intros [[= E]|E]; lia].
  - split; [intros; right; lia|intros [E|E]; [discriminate|lia]].
Qed.
Lemma occurs_perm c l k : Permutation l k -> occurs c l = occurs c k.
Proof. induction 1; rewrite ?occurs_cons in *; lia. Qed.

Lemma consumed_cons nd net c : consumed (nd :: net) c = is_colour c (fst (fst nd)) + is_colour c (snd (fst nd)) + consumed net c.
Proof. unfold consumed. cbn [flat_map app]. rewrite !occurs_cons. lia. Qed.
Lemma produced_cons nd net c : produced (nd :: net) c = is_colour c (fst (snd nd)) + is_colour c (snd (snd nd)) + produced net c.
Proof. unfold produced. cbn [flat_map app]. rewrite !occurs_cons. lia. Qed.
Lemma consumed_app a b c : consumed (a ++ b) c = consumed a c + consumed b c.
Proof. unfold consumed. rewrite flat_map_app, occurs_app. reflexivity. Qed.
Lemma produced_app a b c : produced (a ++ b) c = produced a c + produced b c.
Proof. unfold produced. rewrite flat_map_app, occurs_app. reflexivity. Qed.

Lemma bump_value k d x c : value (bump k d x) c = value d c + k * is_colour c x.
Proof.
  destruct x as [y|]; cbn [bump is_colour]; [|lia]. unfold value. rewrite (dget_dset Z.eqb Z.eqb_spec).
  rewrite (Z.eqb_sym c y). destruct (Z.eqb_spec y c) as [->|]; [destruct (dget Z.eqb c d)|]; lia.
Qed.
Lemma bump_nodup k d x : NoDup (map fst d) -> NoDup (map fst (bump k d x)).
Proof. destruct x; cbn; [|auto]. apply (dset_nodup Z.eqb Z.eqb_spec). Qed.

Lemma occurrences_aux net : forall d, NoDup (map fst d) ->
  let r := fold_left (fun d (n : splitter) =>
    fold_left (bump (-1)) (side_list (snd n)) (fold_left (bump 1) (side_list (fst n)) d)) net d in
  NoDup (map fst r) /\ (forall c, value r c = value d c + consumed net c - produced net c).
Proof.
  induction net as [|nd net IH]; intros d N; cbn zeta.
  - split; [exact N|]. intros c. cbn [fold_left]. unfold consumed, produced. cbn [flat_map]. rewrite !occurs_nil. lia.
  - cbn [fold_left side_list].
    match goal with |- context [fold_left _ net ?e] => specialize (IH e) end. cbn zeta in IH.
    destruct IH as [I1 I2]; [auto using bump_nodup|]. split; [exact I1|]. intros c.
    rewrite I2, !bump_value, consumed_cons, produced_cons. lia.
Qed.
Lemma occurrences_value net c : value (occurrences net) c = consumed net c - produced net c.
Proof.
  destruct (occurrences_aux net [] (NoDup_nil _)) as [_ H].
  unfold occurrences. rewrite H. change (value [] c) with 0. lia.
Qed.
Lemma occurrences_nodup net : NoDup (map fst (occurrences net)).
Proof. exact (proj1 (occurrences_aux net [] (NoDup_nil _))). Qed.

Definition opt_list {A} (o : option A) : list A := match o with Some x => [x] | None => [] end.
Definition positive (d : list (Z * Z)) : list (Z * Z) := filter (fun e => 0 <? snd e) d.
Definition negative (d : list (Z * Z)) : list (Z * Z) := map (fun e => (fst e, - snd e)) (filter (fun e => snd e <? 0) d).
Lemma opt_list_inj {A} (a b : option A) : opt_list a = opt_list b -> a = b.
Proof. destruct a, b; cbn; congruence. Qed.
Lemma scan_spec d : forall i o i' o', scan_occurrences d i o = Some (i', o') <->
  opt_list i ++ positive d = opt_list i' /\ opt_list o ++ negative d = opt_list o'.
Proof.
  induction d as [|[c n] d IH]; intros i o i' o'; cbn [scan_occurrences].
  - unfold positive, negative. cbn. rewrite !app_nil_r. split.
    + intros [= -> ->]. auto.
    + intros [H1 H2]. apply opt_list_inj in H1, H2. subst. reflexivity.
  - unfold positive, negative. cbn [filter snd]. destruct (0 <? n) eqn:P.
    + replace (n <? 0) with false by (symmetry; apply Z.ltb_nlt; apply Z.ltb_lt in P; lia).
      destruct i as [i|].
      * split; [discriminate|]. intros [H _]. cbn in H. destruct i'; cbn in H; discriminate H.
      * rewrite IH. reflexivity.
    + destruct (n <? 0) eqn:N.
      * destruct o as [o|].
        -- split; [discriminate|]. intros [_ H]. cbn in H. destruct o'; cbn in H; discriminate H.
        -- rewrite IH. reflexivity.
      * rewrite IH. reflexivity.
Qed.

Lemma single_filter (d : list (Z * Z)) (f : Z * Z -> bool) c n : NoDup (map fst d) -> (forall x, f (x, 0) = false) ->
  filter f d = [(c, n)] <-> value d c = n /\ f (c, n) = true /\ (forall c', c' <> c -> f (c', value d c') = false).
Proof.
  intros N Z0. split.
  - intros E. assert (I : In (c, n) (filter f d)) by (rewrite E; left; reflexivity).
    apply filter_In in I. destruct I as [I F]. split; [|split; [exact F|]].
    + unfold value. rewrite (dget_nodup Z.eqb Z.eqb_spec _ _ _ N I). reflexivity.
    + intros c' Hc. unfold value. destruct (dget Z.eqb c' d) as [v|] eqn:G; [|apply Z0].
      destruct (f (c', v)) eqn:Fv; [|reflexivity]. exfalso. apply Hc.
      assert (J : In (c', v) (filter f d)) by (apply filter_In; split; [apply (dget_in Z.eqb Z.eqb_spec); exact G|exact Fv]).
      rewrite E in J. destruct J as [J|[]]. congruence.
  - intros (H1 & H2 & H3). induction d as [|[k v] d IH].
    + exfalso. cbn in H1. subst n. rewrite Z0 in H2. discriminate.
    + inversion N; subst. cbn [filter]. unfold value in H3. cbn [dget] in H3.
      destruct (Z.eqb_spec c k) as [->|NE].
      * assert (value ((k, v) :: d) k = v) as Ev by (unfold value; cbn; rewrite Z.eqb_refl; reflexivity).
        rewrite Ev in *. rewrite H2. f_equal.
        assert (forall e, In e d -> f e = false) as Nf.
        { intros [a b] I. pose proof (H3 a) as H3a. destruct (Z.eqb_spec a k) as [Ea|Na].
          - exfalso. apply H4. apply (in_map fst) in I. rewrite <- Ea. exact I.
          - specialize (H3a Na). rename H3a into H3'. rewrite (dget_nodup Z.eqb Z.eqb_spec _ _ _ H5 I) in H3'. exact H3'. }
        clear -Nf. induction d as [|e d IH]; [reflexivity|]. cbn. rewrite (Nf e); [|left; reflexivity]. apply IH. intros; apply Nf; right; assumption.
      * assert (f (k, v) = false) as Fk.
        { specialize (H3 k ltac:(congruence)). rewrite Z.eqb_refl in H3. exact H3. }
        rewrite Fk. assert (value ((k, v) :: d) c = value d c) as Ev.
        { unfold value. cbn. destruct (Z.eqb_spec c k); [contradiction|reflexivity]. }
        rewrite Ev in *. apply IH; try assumption; try reflexivity. intros c' Hc.
        specialize (H3 c' Hc). destruct (Z.eqb_spec c' k) as [Ec|]; [|exact H3]. rewrite Ec.
        unfold value. rewrite (proj2 (dget_none Z.eqb Z.eqb_spec k d) H4). apply Z0.
Qed.

(** get_input_output_colours finds the ends exactly when they exist. *)
Theorem ends_spec net ic n oc m :
  get_input_output_colours net = Some ((ic, n), (oc, m)) <-> has_ends net ic n oc m.
Proof.
  unfold get_input_output_colours.
  assert (E : get_input_output_colours net = Some ((ic, n), (oc, m)) <->
              positive (occurrences net) = [(ic, n)] /\ negative (occurrences net) = [(oc, m)]).
  { unfold get_input_output_colours. destruct (scan_occurrences (occurrences net) None None) as [[i o]|] eqn:S.
    - apply scan_spec in S. cbn in S. destruct S as [-> ->]. destruct i as [i|], o as [o|]; cbn; split; intros H; try discriminate H; try (destruct H; congruence).
      injection H as -> ->. auto.
    - split; [discriminate|]. intros [H1 H2]. exfalso.
      assert (scan_occurrences (occurrences net) None None = Some (Some (ic, n), Some (oc, m))) by (apply scan_spec; auto). congruence. }
  fold (get_input_output_colours net). rewrite E. clear E.
  pose proof (occurrences_nodup net) as N.
  unfold positive. rewrite single_filter by (auto; intros; reflexivity).
  assert (Ne : negative (occurrences net) = [(oc, m)] <-> filter (fun e => snd e <? 0) (occurrences net) = [(oc, - m)]).
  { unfold negative. split; intros H.
    - destruct (filter _ _) as [|[a b] [|]]; cbn in H; try discriminate. injection H as -> Hb. f_equal. f_equal. lia.
    - rewrite H. cbn. rewrite Z.opp_involutive. reflexivity. }
  rewrite Ne, single_filter by (auto; intros; reflexivity). cbn [snd].
  setoid_rewrite Z.ltb_ge. rewrite !Z.ltb_lt. setoid_rewrite occurrences_value. unfold has_ends. split.
  - intros ((H1 & H2 & H3) & (H4 & H5 & H6)). repeat split; try lia. intros c Hi Ho. specialize (H3 c Hi). specialize (H6 c Ho). lia.
  - intros ((H1 & H2) & H3 & H4 & H5). repeat split; try lia; intros c Hc.
    + destruct (Z.eq_dec c oc) as [->|]; [lia|]. specialize (H5 c Hc). lia.
    + destruct (Z.eq_dec c ic) as [->|]; [lia|]. rewrite (H5 c) by assumption. lia.
Qed.

(** The ends are unique. *)
Lemma ends_distinct net ic n oc m : has_ends net ic n oc m -> ic <> oc.
Proof. intros ((H1 & H2) & H3 & H4 & H5) ->. lia. Qed.
