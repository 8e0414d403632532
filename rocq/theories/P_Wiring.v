(** From wirings and steady flows to the flow sums of P_Benes. *)
From Coq Require Import ZArith QArith List Bool Lia Lqa Permutation.
From Verif Require Import M_Json M_Dict P_Dict M_Network Spec_Network P_Network P_Benes.
Import ListNotations.
Open Scope Z_scope.

Theorem create_total order : (forall s l, Permutation (order s l) l) -> forall fuel m, 2 <= m -> 2 * m - 3 <= Z.of_nat fuel ->
  exists net oc k, create_benes order fuel m = Some net /\ benes_ok m net oc k.
Proof.
  intros Ho. induction fuel as [fuel IH] using (well_founded_induction lt_wf). intros m Hm Hf.
  destruct fuel as [|f]; [lia|]. cbn [create_benes]. destruct (Z.ltb_spec m 2); [lia|].
  destruct (Z.eqb_spec m 2) as [->|N2].
  { exists [((Some 0, Some 0), (Some 1, Some 1))], 1, 0. split; [reflexivity|apply benes_two]. }
  (* even sizes, with enough fuel *)
  assert (Ev : forall g m', (g < S f)%nat -> 4 <= m' -> m' mod 2 = 0 -> m' - 3 <= Z.of_nat g ->
            exists net oc k, (let* inner := create_benes order g (m' / 2) in double_network (order m') (m' / 2) inner) = Some net /\ benes_ok m' net oc k).
  { intros g m' Hg H4 Hev Hh. destruct (IH g Hg (m' / 2)) as (inner & oc & k & E & B); [pose proof (Z.div_mod m' 2 ltac:(lia)); lia|pose proof (Z.div_mod m' 2 ltac:(lia)); lia|].
    rewrite E. cbn [obind].
    assert (exists net, double_network (order m') (m' / 2) inner = Some net) as (net & En).
    { unfold double_network. rewrite (proj2 (ends_spec inner 0 (m' / 2) oc (m' / 2)) (ok_ends _ _ _ _ B)). cbn [obind].
      destruct (number_inner _ _ _ _) as [[? ?] ?]. eexists. reflexivity. }
    assert (H2 : 2 <= m' / 2) by (pose proof (Z.div_mod m' 2 ltac:(lia)); lia).
    destruct (benes_even (m' / 2) inner oc k (order m') net H2 B (Ho m') En) as (oc' & B').
    exists net, oc', (2 * k). split; [exact En|]. pose proof (Z.div_mod m' 2 ltac:(lia)) as Em. replace (2 * (m' / 2)) with m' in B' by lia. exact B'. }
  destruct (Z.eqb_spec (m mod 2) 1) as [O|O].
  - pose proof (Z.div_mod m 2 ltac:(lia)) as Dm. destruct f as [|f']; [lia|].
    assert (M1 : (m + 1) mod 2 = 0) by (rewrite Z.add_mod, O by lia; reflexivity).
    pose proof (Z.div_mod (m + 1) 2 ltac:(lia)) as Dm1.
    destruct (Ev f' (m + 1)) as (net & oc & k & E & B); [lia|lia|exact M1|lia|].
    assert (create_benes order (S f') (m + 1) = Some net) as ->.
    { cbn [create_benes]. destruct (Z.ltb_spec (m + 1) 2); [lia|]. destruct (Z.eqb_spec (m + 1) 2); [lia|].
      rewrite M1. change (0 =? 1) with false. cbn iota. exact E. }
    cbn [obind]. rewrite (proj2 (ends_spec net 0 (m + 1) oc (m + 1)) (ok_ends _ _ _ _ B)). cbn [obind].
    exists (replace_input 0 oc net), oc, (k + 1). split; [reflexivity|]. apply benes_odd; [lia|exact B].
  - assert (M0 : m mod 2 = 0) by (pose proof (Z.mod_pos_bound m 2); lia).
    pose proof (Z.div_mod m 2 ltac:(lia)) as Dm. apply Ev; try lia.
Qed.

(** * Belts by colour *)
Definition all_some (net : network) : Prop := ~ In None (slots net).
Fixpoint sinks_from (s : nat) (net : network) (c : Z) : list sink :=
  match net with
  | [] => []
  | nd :: r => ((if is_colour c (fst (fst nd)) =? 1 then [ToSplitter s false] else []) ++
                (if is_colour c (snd (fst nd)) =? 1 then [ToSplitter s true] else []) ++ sinks_from (S s) r c)%list
  end.
Fixpoint sources_from (s : nat) (net : network) (c : Z) : list source :=
  match net with
  | [] => []
  | nd :: r => ((if is_colour c (fst (snd nd)) =? 1 then [FromSplitter s false] else []) ++
                (if is_colour c (snd (snd nd)) =? 1 then [FromSplitter s true] else []) ++ sources_from (S s) r c)%list
  end.
Definition sumq (l : list Q) : Q := fold_right Qplus 0%Q l.
Lemma sumq_cons x a : sumq (x :: a) = (x + sumq a)%Q. Proof. reflexivity. Qed.
Lemma sumq_nil : sumq [] = 0%Q. Proof. reflexivity. Qed.
Lemma sumq_app a b : (sumq (a ++ b) == sumq a + sumq b)%Q.
Proof. induction a as [|x a IH]; [rewrite sumq_nil; cbn [app]; lra|]. rewrite <- app_comm_cons, !sumq_cons, IH. lra. Qed.
Lemma sumq_perm a b : Permutation a b -> (sumq a == sumq b)%Q.
Proof. induction 1; rewrite ?sumq_cons; try lra. Qed.
Lemma is_colour_one c x : is_colour c x =? 1 = true <-> x = Some c.
Proof. destruct x as [y|]; cbn; [|split; discriminate]. destruct (Z.eqb_spec y c) as [->|N]; split; intros; try reflexivity; try discriminate; congruence. Qed.
Lemma is_colour_cases c x : is_colour c x = 0 \/ is_colour c x = 1.
Proof. destruct x as [y|]; cbn; [destruct (y =? c)|]; auto. Qed.

Lemma sinks_in net c : forall s k, In k (sinks_from s net c) <->
  exists i b nd, nth_error net i = Some nd /\ pick (fst nd) b = Some c /\ k = ToSplitter (s + i) b.
Proof.
  induction net as [|nd net IH]; intros s k; cbn [sinks_from].
  - split; [intros []|]. intros (i & b & nd & H & _). destruct i; discriminate.
  - rewrite !in_app_iff, IH. split.
    + intros [H|[H|(i & b & nd' & H1 & H2 & ->)]].
      * destruct (is_colour c (fst (fst nd)) =? 1) eqn:E; [|destruct H]. destruct H as [<-|[]]. apply is_colour_one in E.
        exists O, false, nd. rewrite Nat.add_0_r. auto.
      * destruct (is_colour c (snd (fst nd)) =? 1) eqn:E; [|destruct H]. destruct H as [<-|[]]. apply is_colour_one in E.
        exists O, true, nd. rewrite Nat.add_0_r. auto.
      * exists (S i), b, nd'. rewrite Nat.add_succ_r. auto.
    + intros (i & b & nd' & H1 & H2 & ->). destruct i as [|i]; cbn in H1.
      * injection H1 as <-. rewrite Nat.add_0_r. destruct b; cbn in H2; [right; left|left]; apply is_colour_one in H2; rewrite H2; left; reflexivity.
      * right. right. exists i, b, nd'. rewrite Nat.add_succ_r. auto.
Qed.
Lemma sources_in net c : forall s k, In k (sources_from s net c) <->
  exists i b nd, nth_error net i = Some nd /\ pick (snd nd) b = Some c /\ k = FromSplitter (s + i) b.
Proof.
  induction net as [|nd net IH]; intros s k; cbn [sources_from].
  - split; [intros []|]. intros (i & b & nd & H & _). destruct i; discriminate.
  - rewrite !in_app_iff, IH. split.
    + intros [H|[H|(i & b & nd' & H1 & H2 & ->)]].
      * destruct (is_colour c (fst (snd nd)) =? 1) eqn:E; [|destruct H]. destruct H as [<-|[]]. apply is_colour_one in E.
        exists O, false, nd. rewrite Nat.add_0_r. auto.
      * destruct (is_colour c (snd (snd nd)) =? 1) eqn:E; [|destruct H]. destruct H as [<-|[]]. apply is_colour_one in E.
        exists O, true, nd. rewrite Nat.add_0_r. auto.
      * exists (S i), b, nd'. rewrite Nat.add_succ_r. auto.
    + intros (i & b & nd' & H1 & H2 & ->). destruct i as [|i]; cbn in H1.
      * injection H1 as <-. rewrite Nat.add_0_r. destruct b; cbn in H2; [right; left|left]; apply is_colour_one in H2; rewrite H2; left; reflexivity.
      * right. right. exists i, b, nd'. rewrite Nat.add_succ_r. auto.
Qed.
Lemma sinks_nodup net c : forall s, NoDup (sinks_from s net c).
Proof.
  induction net as [|nd net IH]; intros s; cbn [sinks_from]; [constructor|].
  assert (K : forall b, ~ In (ToSplitter s b) (sinks_from (S s) net c)).
  { intros b H. apply sinks_in in H. destruct H as (i & b' & nd' & _ & _ & [= E _]). lia. }
  destruct (is_colour c (fst (fst nd)) =? 1), (is_colour c (snd (fst nd)) =? 1); cbn [app]; repeat constructor; auto.
  intros [E|E]; [discriminate|]. eapply K; eauto.
Qed.
Lemma sources_nodup net c : forall s, NoDup (sources_from s net c).
Proof.
  induction net as [|nd net IH]; intros s; cbn [sources_from]; [constructor|].
  assert (K : forall b, ~ In (FromSplitter s b) (sources_from (S s) net c)).
  { intros b H. apply sources_in in H. destruct H as (i & b' & nd' & _ & _ & [= E _]). lia. }
  destruct (is_colour c (fst (snd nd)) =? 1), (is_colour c (snd (snd nd)) =? 1); cbn [app]; repeat constructor; auto.
  intros [E|E]; [discriminate|]. eapply K; eauto.
Qed.

Section Flow.
  Variables (net : network) (ic oc : Z) (n m : nat) (w : sink -> source) (flow : source -> Q).
  Hypothesis closed : all_some net.
  Hypothesis W : wiring net ic n oc m w.
  Hypothesis S : steady net ic n oc m w flow.

  Definition at_splitter (i : nat) : flows :=
    ((flow (w (ToSplitter i false)), flow (w (ToSplitter i true))), flow (FromSplitter i false)).
  Definition flow_list (s : nat) (l : nat) : list flows := map at_splitter (seq s l).

  Lemma slot_some i nd : nth_error net i = Some nd ->
    fst (fst nd) <> None /\ snd (fst nd) <> None /\ fst (snd nd) <> None /\ snd (snd nd) <> None.
  Proof using closed.
    intros H. apply nth_error_In in H. repeat split; intros E; apply closed; apply slots_in; exists nd; auto.
  Qed.
  Lemma output_flow i nd b : nth_error net i = Some nd ->
    (2 * flow (FromSplitter i b) == flow (w (ToSplitter i false)) + flow (w (ToSplitter i true)))%Q.
  Proof using closed S.
    intros H. destruct (slot_some i nd H) as (H1 & H2 & H3 & H4).
    assert (Hb : source_colour net ic n (FromSplitter i b) <> None) by (cbn; rewrite H; destruct b; assumption).
    specialize (S i b Hb). unfold outputs_of, arriving in S. cbn in S. rewrite H in S. cbn [pick] in S.
    destruct (fst (fst nd)), (snd (fst nd)), (fst (snd nd)), (snd (snd nd)); try congruence.
    change (inject_Z (1 + 1)) with 2%Q in S. exact S.
  Qed.

  Lemma sum_in_sinks c : forall part s, (forall i nd, nth_error part i = Some nd -> nth_error net (s + i) = Some nd) ->
    (sum_in c part (flow_list s (length part)) == sumq (map (fun k => flow (w k)) (sinks_from s part c)))%Q /\
    (sum_out c part (flow_list s (length part)) == sumq (map flow (sources_from s part c)))%Q.
  Proof using closed S.
    induction part as [|nd part IH]; intros s Hp; [split; reflexivity|].
    cbn [length flow_list seq map]. fold (flow_list (Datatypes.S s) (length part)).
    unfold at_splitter at 1 2. cbn [sum_in sum_out sinks_from sources_from].
    destruct (IH (Datatypes.S s)) as [I1 I2].
    { intros i nd' H. replace (Datatypes.S s + i)%nat with (s + Datatypes.S i)%nat by lia. apply Hp. exact H. }
    rewrite I1, I2, !map_app, !sumq_app. clear I1 I2 IH.
    assert (O : forall b, (flow (FromSplitter s b) == flow (FromSplitter s false))%Q).
    { intros b. specialize (Hp O nd eq_refl). rewrite Nat.add_0_r in Hp. pose proof (output_flow s nd b Hp). pose proof (output_flow s nd false Hp). lra. }
    assert (P : forall x k, (sumq (map (fun k => flow (w k)) (if is_colour c x =? 1 then [k] else [])) == isq c x * flow (w k))%Q).
    { intros x k. unfold isq. destruct (is_colour_cases c x) as [-> | ->]; cbn [Z.eqb Pos.eqb map]; rewrite ?sumq_cons, ?sumq_nil; change (inject_Z 1) with 1%Q; change (inject_Z 0) with 0%Q; lra. }
    assert (P' : forall x b, (sumq (map flow (if is_colour c x =? 1 then [FromSplitter s b] else [])) == isq c x * flow (FromSplitter s false))%Q).
    { intros x b. unfold isq. destruct (is_colour_cases c x) as [-> | ->]; cbn [Z.eqb Pos.eqb map]; rewrite ?sumq_cons, ?sumq_nil, ?O; change (inject_Z 1) with 1%Q; change (inject_Z 0) with 0%Q; lra. }
    rewrite !P, !P'. split; lra.
  Qed.

  Definition sinks c := ((if c =? oc then map ToOutput (seq 0 m) else []) ++ sinks_from 0 net c)%list.
  Definition sources c := ((if c =? ic then map FromInput (seq 0 n) else []) ++ sources_from 0 net c)%list.
  Lemma sinks_spec c k : In k (sinks c) <-> sink_colour net oc m k = Some c.
  Proof using.
    unfold sinks. rewrite in_app_iff, sinks_in. destruct k as [j|i b]; cbn [sink_colour].
    - split.
      + intros [H|(i & b & nd & _ & _ & E)]; [|discriminate]. destruct (Z.eqb_spec c oc) as [->|]; [|destruct H].
        apply in_map_iff in H. destruct H as (j' & [= <-] & H). apply in_seq in H. destruct (Nat.ltb_spec j' m); [reflexivity|lia].
      + destruct (Nat.ltb_spec j m); [|discriminate]. intros [= <-]. left. rewrite Z.eqb_refl. apply in_map, in_seq. lia.
    - split.
      + intros [H|(i' & b' & nd & H1 & H2 & [= -> ->])]; [|cbn; rewrite H1; exact H2].
        destruct (c =? oc); [|destruct H]. apply in_map_iff in H. destruct H as (? & ? & ?). discriminate.
      + destruct (nth_error net i) as [nd|] eqn:E; [|discriminate]. intros H. right. exists i, b, nd. auto.
  Qed.
  Lemma sources_spec c k : In k (sources c) <-> source_colour net ic n k = Some c.
  Proof using.
    unfold sources. rewrite in_app_iff, sources_in. destruct k as [j|i b]; cbn [source_colour].
    - split.
      + intros [H|(i & b & nd & _ & _ & E)]; [|discriminate]. destruct (Z.eqb_spec c ic) as [->|]; [|destruct H].
        apply in_map_iff in H. destruct H as (j' & [= <-] & H). apply in_seq in H. destruct (Nat.ltb_spec j' n); [reflexivity|lia].
      + destruct (Nat.ltb_spec j n); [|discriminate]. intros [= <-]. left. rewrite Z.eqb_refl. apply in_map, in_seq. lia.
    - split.
      + intros [H|(i' & b' & nd & H1 & H2 & [= -> ->])]; [|cbn; rewrite H1; exact H2].
        destruct (c =? ic); [|destruct H]. apply in_map_iff in H. destruct H as (? & ? & ?). discriminate.
      + destruct (nth_error net i) as [nd|] eqn:E; [|discriminate]. intros H. right. exists i, b, nd. auto.
  Qed.
  Lemma NoDup_app' {A} (a b : list A) : NoDup a -> NoDup b -> (forall x, In x a -> ~ In x b) -> NoDup (a ++ b).
  Proof using.
    induction 1 as [|x a Hx N IH]; intros Nb D; cbn; [exact Nb|]. constructor.
    - rewrite in_app_iff. intros [C|C]; [contradiction|]. apply (D x); [left; reflexivity|exact C].
    - apply IH; [exact Nb|]. intros y Hy. apply D. right. exact Hy.
  Qed.
  Lemma sinks_nd c : NoDup (sinks c).
  Proof using.
    unfold sinks. apply NoDup_app'; [destruct (c =? oc); [|constructor]; apply FinFun.Injective_map_NoDup; [intros ? ? [=]; assumption|apply seq_NoDup]|apply sinks_nodup|].
    intros x H C. apply sinks_in in C. destruct C as (? & ? & ? & _ & _ & ->). destruct (c =? oc); [|destruct H].
    apply in_map_iff in H. destruct H as (? & ? & ?). discriminate.
  Qed.
  Lemma sources_nd c : NoDup (sources c).
  Proof using.
    unfold sources. apply NoDup_app'; [destruct (c =? ic); [|constructor]; apply FinFun.Injective_map_NoDup; [intros ? ? [=]; assumption|apply seq_NoDup]|apply sources_nodup|].
    intros x H C. apply sources_in in C. destruct C as (? & ? & ? & _ & _ & ->). destruct (c =? ic); [|destruct H].
    apply in_map_iff in H. destruct H as (? & ? & ?). discriminate.
  Qed.
  Lemma wired c : Permutation (map w (sinks c)) (sources c).
  Proof using W.
    destruct W as (W1 & W2 & W3). apply NoDup_Permutation.
    - assert (G : forall l, NoDup l -> incl l (sinks c) -> NoDup (map w l)).
      { induction 1 as [|k l Hk N IH]; intros Il; cbn; [constructor|]. constructor; [|apply IH; intros y Hy; apply Il; right; exact Hy].
        intros C. apply in_map_iff in C. destruct C as (k' & E & Hk'). apply Hk.
        assert (k' = k) as <-; [|exact Hk']. apply W2; [| |exact E].
        - rewrite (proj1 (sinks_spec c k') (Il _ (or_intror Hk'))). discriminate.
        - rewrite (proj1 (sinks_spec c k) (Il _ (or_introl eq_refl))). discriminate. }
      apply G; [apply sinks_nd|apply incl_refl].
    - apply sources_nd.
    - intros s. rewrite in_map_iff, sources_spec. split.
      + intros (k & <- & H). apply W1. apply sinks_spec. exact H.
      + intros H. destruct (W3 s) as (k & Hk & <-); [congruence|]. exists k. split; [reflexivity|]. apply sinks_spec.
        destruct (sink_colour net oc m k) as [d|] eqn:E; [|congruence]. rewrite (W1 k d E) in H. exact H.
  Qed.
  Lemma flow_balance c : (sumq (map (fun k => flow (w k)) (sinks c)) == sumq (map flow (sources c)))%Q.
  Proof using W. rewrite <- (map_map w flow). apply sumq_perm. apply Permutation_map. apply wired. Qed.

  Definition F := flow_list 0 (length net).
  Lemma sums c : (sum_in c net F == sumq (map (fun k => flow (w k)) (sinks_from 0 net c)))%Q /\
                 (sum_out c net F == sumq (map flow (sources_from 0 net c)))%Q.
  Proof using closed S. apply sum_in_sinks. intros i nd H. exact H. Qed.
  Lemma internal c : c <> ic -> c <> oc -> (sum_in c net F == sum_out c net F)%Q.
  Proof using closed S W.
    intros Ni No. destruct (sums c) as [-> ->]. pose proof (flow_balance c) as B. unfold sinks, sources in B.
    destruct (Z.eqb_spec c oc); [contradiction|]. destruct (Z.eqb_spec c ic); [contradiction|]. exact B.
  Qed.
  Lemma input_total : ic <> oc -> produced net ic = 0 -> (sum_in ic net F == total_input n flow)%Q.
  Proof using closed S W.
    intros N P. destruct (sums ic) as [-> E]. pose proof (flow_balance ic) as B. unfold sinks, sources in B.
    destruct (Z.eqb_spec ic oc); [contradiction|]. rewrite Z.eqb_refl in B. cbn [app] in B. rewrite B, map_app, sumq_app, <- E, (sum_out_unproduced net ic P), map_map.
    unfold total_input. fold (sumq (map (fun j => flow (FromInput j)) (seq 0 n))). lra.
  Qed.
  Lemma combine_F nd x : In (nd, x) (combine net F) -> exists i, nth_error net i = Some nd /\ x = at_splitter i.
  Proof using.
    unfold F, flow_list. assert (G : forall part s, In (nd, x) (combine part (map at_splitter (seq s (length part)))) -> exists i, nth_error part i = Some nd /\ x = at_splitter (s + i)).
    { induction part as [|d part IH]; intros s H; cbn in H; [destruct H|]. destruct H as [[= <- <-]|H].
      - exists O. rewrite Nat.add_0_r. auto.
      - destruct (IH _ H) as (i & H1 & ->). exists (Datatypes.S i). rewrite Nat.add_succ_r. auto. }
    intros H. apply G in H. exact H.
  Qed.
  Lemma in_combine_F i nd : nth_error net i = Some nd -> In (nd, at_splitter i) (combine net F).
  Proof using.
    unfold F, flow_list. assert (G : forall part s j, nth_error part j = Some nd -> In (nd, at_splitter (s + j)) (combine part (map at_splitter (seq s (length part))))).
    { induction part as [|d part IH]; intros s j H; [destruct j; discriminate|]. cbn. destruct j as [|j]; cbn in H.
      - injection H as ->. left. rewrite Nat.add_0_r. reflexivity.
      - right. rewrite Nat.add_succ_r. apply (IH (Datatypes.S s)). exact H. }
    intros H. apply (G net O i H).
  Qed.
  Lemma F_halves : Forall halves F.
  Proof using closed S.
    apply Forall_forall. intros x H. unfold F, flow_list in H. apply in_map_iff in H. destruct H as (i & <- & H). apply in_seq in H.
    destruct (nth_error net i) as [nd|] eqn:E; [|apply nth_error_None in E; lia]. unfold halves, at_splitter. apply (output_flow i nd false E).
  Qed.
End Flow.

Lemma max_flow (flow : source -> Q) l : l <> [] -> exists s, In s l /\ forall s', In s' l -> (flow s' <= flow s)%Q.
Proof.
  induction l as [|s l IH]; [congruence|]. intros _. destruct l as [|s2 l].
  - exists s. split; [left; reflexivity|]. intros s' [<-|[]]. lra.
  - destruct IH as (t & Ht & Mt); [discriminate|]. destruct (Qlt_le_dec (flow t) (flow s)) as [L|L].
    + exists s. split; [left; reflexivity|]. intros s' [<-|H]; [lra|]. specialize (Mt s' H). lra.
    + exists t. split; [right; exact Ht|]. intros s' [<-|H]; [exact L|]. auto.
Qed.

(** Every belt of the output colour carries at most its share. *)
Lemma upper_share n net oc k w flow : 2 <= Z.of_nat n -> benes_ok (Z.of_nat n) net oc k -> wiring net 0 n oc n w -> steady net 0 n oc n w flow ->
  forall s, source_colour net 0 n s = Some oc -> (inject_Z (Z.of_nat n) * flow s <= total_input n flow)%Q.
Proof.
  intros Hn [Cl En So Hk Bo] W S. pose proof (ends_distinct _ _ _ _ _ En) as D.
  assert (Src : forall s, source_colour net 0 n s = Some oc -> exists i b nd, s = FromSplitter i b /\ nth_error net i = Some nd /\ pick (snd nd) b = Some oc).
  { intros [j|i b]; cbn [source_colour]; intros H.
    - destruct (j <? n)%nat; [|discriminate H]. injection H as E. congruence.
    - destruct (nth_error net i) as [nd|] eqn:E; [|discriminate H]. exists i, b, nd. auto. }
  intros s0 H0.
  destruct (max_flow flow (sources net 0 n oc)) as (t & Ht & Mt).
  { intros E. apply (sources_spec net 0 n) in H0. rewrite E in H0. destruct H0. }
  apply sources_spec in Ht.
  assert (M0 : forall s, source_colour net 0 n s = Some oc -> (flow s <= flow t)%Q) by (intros s Hs; apply Mt; apply sources_spec; exact Hs).
  destruct (Src t Ht) as (i & b & nd & Et & Hi & Hb).
  assert (B : (inject_Z (Z.of_nat n + k) * flow (FromSplitter i false) <= sum_in 0 net (F net w flow) + inject_Z k * flow t)%Q).
  { apply (Bo (F net w flow) (flow t)) with (nd := nd) (ff := (flow (w (ToSplitter i false)), flow (w (ToSplitter i true)))).
    - unfold F, flow_list. rewrite map_length, seq_length. reflexivity.
    - apply (F_halves net 0 oc n n w flow Cl S).
    - intros c Nc0 Nco. apply (internal net 0 oc n n w flow Cl W S c Nc0 Nco).
    - intros nd1 fa fb g I1. apply combine_F in I1. destruct I1 as (i1 & Hi1 & E). unfold at_splitter in E. injection E as -> -> ->.
      destruct W as (W1 & _ & _).
      split; intros EE; apply M0; apply W1; cbn; rewrite Hi1; cbn; exact EE.
    - apply (in_combine_F net w flow i nd Hi).
    - destruct b; cbn in Hb; auto. }
  assert (Et' : (flow (FromSplitter i false) == flow t)%Q).
  { rewrite Et. pose proof (output_flow net 0 oc n n w flow Cl S i nd b Hi). pose proof (output_flow net 0 oc n n w flow Cl S i nd false Hi). lra. }
  rewrite (input_total net 0 oc n n w flow Cl W S D So), Et', inject_Z_plus in B.
  specialize (M0 s0 H0).
  assert (0 <= inject_Z (Z.of_nat n))%Q by (change 0%Q with (inject_Z 0); rewrite <- Zle_Qle; lia).
  assert (inject_Z (Z.of_nat n) * flow s0 <= inject_Z (Z.of_nat n) * flow t)%Q.
  { rewrite !(Qmult_comm (inject_Z (Z.of_nat n))). apply Qmult_le_compat_r; assumption. }
  lra.
Qed.

Lemma total_opp n flow : (total_input n (fun s => - flow s) == - total_input n flow)%Q.
Proof. unfold total_input. generalize (seq 0 n). induction l as [|j l IH]; cbn; [reflexivity|]. rewrite IH. lra. Qed.

Theorem benes_balances n net oc k : 2 <= Z.of_nat n -> benes_ok (Z.of_nat n) net oc k -> balances net 0 n oc n.
Proof.
  intros Hn B w flow W S j Hj.
  assert (Hs : source_colour net 0 n (w (ToOutput j)) = Some oc).
  { destruct W as (W1 & _). apply W1. cbn [sink_colour]. destruct (Nat.ltb_spec j n); [reflexivity|lia]. }
  pose proof (upper_share n net oc k w flow Hn B W S _ Hs) as U.
  assert (S' : steady net 0 n oc n w (fun s => - flow s)%Q).
  { intros i b H. specialize (S i b H). unfold arriving in *.
    destruct (sink_colour net oc n (ToSplitter i false)), (sink_colour net oc n (ToSplitter i true)); lra. }
  pose proof (upper_share n net oc k w (fun s => - flow s)%Q Hn B W S' _ Hs) as L. cbn beta in L.
  rewrite total_opp in L. lra.
Qed.
