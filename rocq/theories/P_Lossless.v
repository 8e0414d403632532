(** Every layout that is a given network is found: from a realisation of the
    network to a solution of the clauses of create_balancer. *)
From Coq Require Import String ZArith List Bool Lia Permutation.
From Verif Require Import P_Network P_Network2 P_Similar.
From Verif Require Import Spec_Cnf Spec_Tile Spec_Layout M_Json M_Tile M_Util M_Card M_Network Spec_Network M_Template M_Grid M_Oracle M_Balancer
  P_Cnf P_Util P_Card P_Tile P_Layout P_List P_Template P_Walk P_Grid P_GridSound P_GridComplete P_Transport T_Grid T_Enumerate P_GridOk P_Gen P_Balancer
  Spec_Balancer P_Trace P_Realise T_Balancer.
Import ListNotations.
Local Open Scope string_scope.
Open Scope Z_scope.

(** ** Lists *)
Lemma NoDup_map_filter {X Y} (f : X -> Y) q l : NoDup (map f l) -> NoDup (map f (filter q l)).
Proof.
  induction l as [|x l IH]; cbn; [constructor|]. intros H. inversion H as [|y k H1 H2]; subst. destruct (q x); cbn; [|auto].
  constructor; [|auto]. intros Hin. apply H1. apply in_map_iff in Hin. destruct Hin as (z & E & Hz). apply in_map_iff. exists z. split; [exact E|].
  apply filter_In in Hz. apply Hz.
Qed.
Lemma count_listed {X} a (f : X -> lit) l l' : NoDup l -> NoDup l' -> (forall x, In x l' <-> In x l /\ evl a (f x) = true) ->
  count a (map f l) = Z.of_nat (List.length l').
Proof.
  intros N1 N2 H. rewrite count_filter. f_equal. apply Permutation_length. apply NoDup_Permutation; [apply NoDup_filter; exact N1|exact N2|].
  intros x. rewrite filter_In, H. reflexivity.
Qed.
Lemma combine_nth_some {X Y} (l : list X) (k : list Y) i x y : nth_error l i = Some x -> nth_error k i = Some y -> nth_error (combine l k) i = Some (x, y).
Proof. revert k i. induction l as [|u l IH]; intros [|v k] [|i]; cbn; intros E1 E2; try discriminate; [congruence|]. auto. Qed.
Lemma combine_nth_inv {X Y} (l : list X) (k : list Y) i z : nth_error (combine l k) i = Some z -> nth_error l i = Some (fst z) /\ nth_error k i = Some (snd z).
Proof. revert k i. induction l as [|u l IH]; intros [|v k] [|i]; cbn; intros E; try discriminate; [injection E as <-; auto|]. auto. Qed.
Lemma filter_map_length {X Y} (f : X -> Y) q l : List.length (filter (fun x => q (f x)) l) = List.length (filter q (map f l)).
Proof. induction l as [|x l IH]; [reflexivity|]. cbn. destruct (q (f x)); cbn; congruence. Qed.
Lemma map_fst_combine {X Y} (l : list X) (k : list Y) : List.length l = List.length k -> map fst (combine l k) = l.
Proof. revert k. induction l as [|x l IH]; intros [|y k] H; cbn in *; try discriminate; [reflexivity|]. f_equal. apply IH. congruence. Qed.
Lemma map_snd_combine {X Y} (l : list X) (k : list Y) : List.length l = List.length k -> map snd (combine l k) = k.
Proof. revert k. induction l as [|x l IH]; intros [|y k] H; cbn in *; try discriminate; [reflexivity|]. f_equal. apply IH. congruence. Qed.
Lemma Forall2_same {X Y} (R : X -> Y -> Prop) x y k : R x y -> Forall2 R (repeat x k) (repeat y k).
Proof. intros H. induction k; cbn; constructor; auto. Qed.
Lemma filter_none {X} (q : X -> bool) l : (forall x, In x l -> q x = false) -> filter q l = [].
Proof. induction l as [|x l IH]; intros H; [reflexivity|]. cbn. rewrite (H x (or_introl eq_refl)). apply IH. intros y Hy. apply H. right. exact Hy. Qed.
Lemma filter_all {X} (q : X -> bool) l : (forall x, In x l -> q x = true) -> filter q l = l.
Proof. induction l as [|x l IH]; intros H; [reflexivity|]. cbn. rewrite (H x (or_introl eq_refl)). f_equal. apply IH. intros y Hy. apply H. right. exact Hy. Qed.

Lemma Forall2_weaken {X Y} (R S : X -> Y -> Prop) l k : (forall x y, R x y -> S x y) -> Forall2 R l k -> Forall2 S l k.
Proof. intros H. induction 1; constructor; auto. Qed.

(** ** The type of each member of [elements] *)
Definition types_from (s : nat) (net : counter) : list nat :=
  flat_map (fun ie : nat * (splitter * Z) => repeat (fst ie) (Z.to_nat (snd (snd ie)))) (combine (seq s (List.length net)) net).
Definition types (net : counter) : list nat := types_from 0 net.
Lemma types_from_ok net : forall s, Forall2 (fun i nd => (s <= i)%nat /\ exists k, nth_error net (i - s) = Some (nd, k)) (types_from s net) (elements net).
Proof.
  induction net as [|[nd k] net IH]; intros s; [constructor|]. cbn [types_from List.length seq combine flat_map elements fst snd].
  apply Forall2_app.
  - apply Forall2_same. split; [lia|]. exists k. rewrite Nat.sub_diag. reflexivity.
  - eapply Forall2_weaken; [|apply (IH (S s))]. intros i nd' (Hi & k' & E). split; [lia|]. exists k'. replace (i - s)%nat with (S (i - S s)) by lia. exact E.
Qed.
Lemma types_nth net j i : nth_error (types net) j = Some i -> exists nd k, nth_error (elements net) j = Some nd /\ nth_error net i = Some (nd, k).
Proof.
  intros H. destruct (Forall2_nth_l _ _ _ (types_from_ok net 0) j i H) as (nd & E & _ & k & E'). rewrite Nat.sub_0_r in E'. eauto.
Qed.
Lemma types_length net : List.length (types net) = List.length (elements net).
Proof. apply (Forall2_len _ _ _ (types_from_ok net 0)). Qed.
Lemma types_count net : forall s i nd k, nth_error net i = Some (nd, k) -> List.length (filter (Nat.eqb (s + i)) (types_from s net)) = Z.to_nat k.
Proof.
  assert (Hi : forall net s i, (i < s)%nat -> filter (Nat.eqb i) (types_from s net) = []).
  { intros l s i Hlt. apply filter_none. intros x Hx. apply Nat.eqb_neq. unfold types_from in Hx. apply in_flat_map in Hx. destruct Hx as ([u v] & Hu & Hx).
    apply in_combine_l, in_seq in Hu. apply repeat_spec in Hx. cbn in Hx. lia. }
  induction net as [|[nd0 k0] net IH]; intros s i nd k E; [destruct i; discriminate|]. cbn [types_from List.length seq combine flat_map fst snd]. rewrite filter_app, app_length.
  change (flat_map _ (combine (seq (S s) (List.length net)) net)) with (types_from (S s) net). destruct i as [|i]; cbn [nth_error] in E.
  - injection E as -> ->. rewrite filter_all by (intros x Hx; apply repeat_spec in Hx; subst; apply Nat.eqb_eq; lia). rewrite repeat_length.
    rewrite Hi by lia. cbn. lia.
  - rewrite filter_none by (intros x Hx; apply repeat_spec in Hx; subst; apply Nat.eqb_neq; lia). cbn [List.length plus]. rewrite <- (IH (S s) i nd k E). replace (S s + i)%nat with (s + S i)%nat by lia. reflexivity.
Qed.
Lemma elements_length net : (forall nd k, In (nd, k) net -> 0 <= k) -> Z.of_nat (List.length (elements net)) = fold_left Z.add (map snd net) 0.
Proof.
  intros H. assert (X : forall net z, (forall nd k, In (nd, k) net -> 0 <= k) -> fold_left Z.add (map snd net) z = z + Z.of_nat (List.length (elements net))).
  { clear. induction net as [|[nd k] net IH]; intros z H; cbn [map fold_left elements flat_map fst snd List.length]; [lia|].
    rewrite IH by (intros; eapply H; right; eauto). rewrite app_length, repeat_length. specialize (H nd k (or_introl eq_refl)). unfold elements. lia. }
  rewrite X by exact H. lia.
Qed.

(** A side that uses its halves in one order or the other. *)
Lemma side_of sd (X : bool -> bool) (Y : bool -> Z) f : sd <> (None, None) ->
  (forall b, match pick sd b with Some c => X (xorb b f) = true /\ Y (xorb b f) = c | None => X (xorb b f) = false end) ->
  side_rule sd (X false) (X true) (Y false) (Y true).
Proof.
  intros N H. pose proof (H false) as H0. pose proof (H true) as H1. destruct sd as [[x|] [y|]]; cbn [pick fst snd] in H0, H1; destruct f; cbn [xorb] in H0, H1; cbn [side_rule].
  - destruct H0, H1. auto.
  - destruct H0, H1. auto.
  - destruct H0 as [E0 E0']. rewrite E0, H1. repeat split; intros; congruence.
  - destruct H0 as [E0 E0']. rewrite E0, H1. repeat split; intros; congruence.
  - destruct H1 as [E0 E0']. rewrite E0, H0. repeat split; intros; congruence.
  - destruct H1 as [E0 E0']. rewrite E0, H0. repeat split; intros; congruence.
  - contradiction.
  - contradiction.
Qed.

(** ** Lines of a realisation *)
Section Lines.
  Variable A : area.
  Hypothesis HA : wf_area A.
  Variable T : layout.
  Variable L : Z.
  Hypothesis VL : valid_layout A T L.
  Variable el : network.
  Variables ic oc : Z.
  Variables N M : nat.
  Variable P : placement.
  Variable w : sink -> source.
  Hypothesis HR : realises_by A T L el ic N oc M P w.
  Notation spl := (pl_splitters P).
  Notation sink_col := (sink_colour el oc M).
  Notation source_col := (source_colour el ic N).

  Lemma spl_length : List.length spl = List.length el. Proof. apply HR. Qed.
  Lemma spl_at j s : nth_error spl j = Some s -> is_splitter_at A T s.
  Proof. intros H. apply HR. eapply nth_error_In; exact H. Qed.
  Lemma spl_el j s : nth_error spl j = Some s -> exists nd, nth_error el j = Some nd.
  Proof. intros H. destruct (nth_error el j) as [nd|] eqn:E; [eauto|]. apply nth_error_None in E. rewrite <- spl_length in E. apply nth_error_None in E. congruence. Qed.
  Lemma el_spl j nd : nth_error el j = Some nd -> exists s, nth_error spl j = Some s.
  Proof. intros H. destruct (nth_error spl j) as [s|] eqn:E; [eauto|]. apply nth_error_None in E. rewrite spl_length in E. apply nth_error_None in E. congruence. Qed.
  Lemma half_inside s b : is_splitter_at A T s -> inside A (half s b).
  Proof. intros (H1 & H2 & _). destruct b; assumption. Qed.
  Lemma halves_inj i j s s' b b' : nth_error spl i = Some s -> nth_error spl j = Some s' -> half s b = half s' b' -> i = j /\ b = b'.
  Proof.
    intros Hi Hj E. destruct (spl_at _ _ Hi) as (I1 & I2 & d & T1 & T2 & N1). destruct (spl_at _ _ Hj) as (J1 & J2 & e & U1 & U2 & N2).
    assert (b = b') by (destruct b, b'; cbn [half] in E; congruence). subst b'. split; [|reflexivity].
    assert (E1 : fst s = fst s').
    { destruct b; cbn [half] in E; [|exact E]. assert (d = e) by congruence. subst e. apply (neighbour_back A _ _ _ HA) in N1; [|exact I1]. apply (neighbour_back A _ _ _ HA) in N2; [|exact J1]. congruence. }
    destruct HR as (_ & Nd & _). rewrite NoDup_nth_error in Nd. apply Nd.
    - rewrite map_length. apply nth_error_Some. congruence.
    - rewrite !nth_error_map, Hi, Hj. cbn. congruence.
  Qed.
  Lemma halves_all p d h : inside A p -> T p = Splitter d h -> exists j s, nth_error spl j = Some s /\ p = half s (negb h) /\ T (fst s) = Splitter d true.
  Proof.
    intros Hp Tp. assert (X : forall q, inside A q -> T q = Splitter d true -> exists j s, nth_error spl j = Some s /\ fst s = q).
    { intros q Hq Tq. destruct HR as (_ & _ & _ & H & _). specialize (H q d Hq Tq). apply in_map_iff in H. destruct H as (s & E & Hs).
      apply In_nth_error in Hs. destruct Hs as [j Hj]. eauto. }
    destruct h.
    - destruct (X p Hp Tp) as (j & s & Hj & E). exists j, s. cbn [negb half]. split; [exact Hj|]. split; [congruence|]. rewrite E. exact Tp.
    - pose proof VL as (_ & Pair & _). destruct (Pair p d false Hp Tp) as (q & Eq & Tq). cbn [mate_side negb] in Eq, Tq.
      assert (Hq : inside A q) by (eapply ahead_inside; exact Eq). destruct (X q Hq Tq) as (j & s & Hj & E). exists j, s. split; [exact Hj|]. split; [|rewrite E; exact Tq].
      cbn [negb half]. apply (neighbour_back A _ _ _ HA) in Eq; [|exact Hp]. replace (opposite (clockwise d)) with (anticlockwise d) in Eq by (destruct d; reflexivity).
      destruct (spl_at _ _ Hj) as (I1 & I2 & e & T1 & T2 & N1). rewrite E in *. assert (e = d) by congruence. subst e. congruence.
  Qed.
  Lemma starts_inj s s' st : start_of P s = Some st -> start_of P s' = Some st -> s = s'.
  Proof.
    destruct s as [j|j b], s' as [j'|j' b']; cbn [start_of].
    - destruct (nth_error (pl_inputs P) j) as [p|] eqn:E1; [|discriminate]. destruct (nth_error (pl_inputs P) j') as [p'|] eqn:E2; [|discriminate]. cbn [option_map]. intros [= <-] [= <-].
      f_equal. destruct HR as (_ & _ & _ & _ & _ & Nd & _). rewrite NoDup_nth_error in Nd. apply Nd; [apply nth_error_Some; congruence|congruence].
    - destruct (nth_error (pl_inputs P) j); [|discriminate]. destruct (nth_error spl j'); [|discriminate]. cbn. congruence.
    - destruct (nth_error (pl_inputs P) j'); [|destruct (nth_error spl j); discriminate]. destruct (nth_error spl j); [|discriminate]. cbn. congruence.
    - destruct (nth_error spl j) as [s|] eqn:E1; [|discriminate]. destruct (nth_error spl j') as [s'|] eqn:E2; [|discriminate]. cbn [option_map]. intros [= <-] [= E].
      destruct (halves_inj _ _ _ _ _ _ E1 E2 (eq_sym E)) as [-> Eb]. f_equal. destruct b, b', (pl_out P j'); cbn in Eb; congruence.
  Qed.
  Lemma finishes_inj k k' f : finish_of P k = Some f -> finish_of P k' = Some f -> k = k'.
  Proof.
    destruct k as [j|j b], k' as [j'|j' b']; cbn [finish_of].
    - destruct (nth_error (pl_outputs P) j) as [p|] eqn:E1; [|discriminate]. destruct (nth_error (pl_outputs P) j') as [p'|] eqn:E2; [|discriminate]. cbn [option_map]. intros [= <-] [= <-].
      f_equal. destruct HR as (_ & _ & _ & _ & _ & _ & _ & _ & _ & Nd & _). rewrite NoDup_nth_error in Nd. apply Nd; [apply nth_error_Some; congruence|congruence].
    - destruct (nth_error (pl_outputs P) j); [|discriminate]. destruct (nth_error spl j'); [|discriminate]. cbn. congruence.
    - destruct (nth_error (pl_outputs P) j'); [|destruct (nth_error spl j); discriminate]. destruct (nth_error spl j); [|discriminate]. cbn. congruence.
    - destruct (nth_error spl j) as [s|] eqn:E1; [|discriminate]. destruct (nth_error spl j') as [s'|] eqn:E2; [|discriminate]. cbn [option_map]. intros [= <-] [= E].
      destruct (halves_inj _ _ _ _ _ _ E1 E2 (eq_sym E)) as [-> Eb]. f_equal. destruct b, b', (pl_in P j'); cbn in Eb; congruence.
  Qed.
  Lemma belt_line k c : sink_col k = Some c -> exists s f, start_of P (w k) = Some s /\ finish_of P k = Some f /\ joined A T L s f /\ source_col (w k) = Some c.
  Proof.
    intros E. destruct HR as (_ & _ & _ & _ & _ & _ & _ & _ & _ & _ & _ & (Wc & _) & H). destruct (H k ltac:(congruence)) as (s & f & E1 & E2 & J).
    exists s, f. auto.
  Qed.
  Lemma source_line src c : source_col src = Some c -> exists k s f, w k = src /\ sink_col k = Some c /\ start_of P src = Some s /\ finish_of P k = Some f /\ joined A T L s f.
  Proof.
    intros E. pose proof HR as (_ & _ & _ & _ & _ & _ & _ & _ & _ & _ & _ & (_ & _ & Ws) & _). destruct (Ws src ltac:(congruence)) as (k & Nk & <-).
    destruct (sink_col k) as [c'|] eqn:Ek; [|contradiction]. destruct (belt_line k c' Ek) as (s & f & E1 & E2 & J & E3). exists k, s, f. repeat split; auto. congruence.
  Qed.

  (** ** The colour of a cell is that of its line *)
  Definition on_line (p : pos) (k : sink) : Prop := exists f r, finish_of P k = Some f /\ reaches A T f r /\ carried A T L p r.
  Lemma line_cells q r : carried A T L q r -> (forall y, ~ step A T L y q) -> exists l, forall p, carried A T L p r <-> In p l.
  Proof.
    intros H Nq. apply carried_clos in H. induction H as [|y z Hs _ [l Hl]].
    - exists [q]. intros p. split.
      + intros H. apply carried_inv in H. destruct H as [->|(y & Hy & _)]; [left; reflexivity|exfalso; eapply Nq; exact Hy].
      + intros [<-|[]]. constructor.
    - exists (z :: l). intros p. cbn [In]. rewrite <- Hl. split.
      + intros H. apply carried_inv in H. destruct H as [->|(x & Hx & Cx)]; [left; reflexivity|]. right.
        rewrite (step_inj A T L HA VL _ _ _ Hs Hx). exact Cx.
      + intros [<-|H]; [constructor|]. eapply carried_step; eauto.
  Qed.
  Lemma on_line_dec k p : sink_col k <> None -> on_line p k \/ ~ on_line p k.
  Proof.
    intros Nk. destruct (sink_col k) as [c|] eqn:Ek; [|contradiction]. destruct (belt_line k c Ek) as (s & f & E1 & E2 & (q & r & Bq & Cqr & Rf) & _).
    destruct (line_cells q r Cqr) as [l Hl]; [apply (begins_first A T L HA VL _ _ Bq)|].
    destruct (in_dec pos_dec p l) as [Hin|Hin].
    - left. exists f, r. split; [exact E2|]. split; [exact Rf|]. apply Hl. exact Hin.
    - right. intros (f' & r' & E' & Rf' & C'). assert (f' = f) by congruence. subst f'. rewrite (reaches_fun A T _ _ _ Rf' Rf) in C'. apply Hin, Hl. exact C'.
  Qed.
  Definition coloured (p : pos) (c : Z) : Prop :=
    (exists k, sink_col k = Some c /\ on_line p k) \/ (c = ic /\ forall k, sink_col k <> None -> ~ on_line p k).
  Definition sink_list : list sink := map ToOutput (seq 0 M) ++ flat_map (fun i => [ToSplitter i false; ToSplitter i true]) (seq 0 (List.length el)).
  Lemma sink_list_all k : sink_col k <> None -> In k sink_list.
  Proof.
    unfold sink_list. intros H. apply in_app_iff. destruct k as [j|j b]; cbn [sink_colour] in H.
    - left. apply in_map. apply in_seq. destruct (Nat.ltb_spec j M); [lia|contradiction].
    - right. apply in_flat_map. exists j. split; [apply in_seq; split; [lia|]; cbn; apply nth_error_Some; destruct (nth_error el j); congruence|]. destruct b; cbn; tauto.
  Qed.
  Lemma coloured_exists p : exists c, coloured p c.
  Proof.
    assert (X : forall l, (exists k c, sink_col k = Some c /\ on_line p k) \/ forall k, In k l -> sink_col k <> None -> ~ on_line p k).
    { induction l as [|k l IH]; [right; intros k []|]. destruct IH as [IH|IH]; [left; exact IH|].
      destruct (sink_col k) as [c|] eqn:Ek.
      - destruct (on_line_dec k p ltac:(congruence)) as [H|H]; [left; eauto|]. right. intros k' [<-|Hk'] Nk'; auto.
      - right. intros k' [<-|Hk'] Nk'; [contradiction|auto]. }
    destruct (X sink_list) as [(k & c & H1 & H2)|H]; [exists c; left; eauto|]. exists ic. right. split; [reflexivity|]. intros k Nk. apply H; [apply sink_list_all|]; exact Nk.
  Qed.
  Lemma on_line_one p k k' : on_line p k -> on_line p k' -> k = k'.
  Proof.
    intros (f & r & E & R & C) (f' & r' & E' & R' & C'). assert (r = r').
    { eapply (carried_end A T L); eauto; apply reaches_last with (1 := R) || (eapply reaches_last; eauto). }
    subst r'. pose proof (reaches_inj A T _ _ _ R R'). subst f'. eapply finishes_inj; eauto.
  Qed.
  Lemma coloured_one p c c' : coloured p c -> coloured p c' -> c = c'.
  Proof.
    intros [(k & E & H)|[-> H]] [(k' & E' & H')|[-> H']].
    - rewrite (on_line_one p k k' H H') in E. congruence.
    - exfalso. apply (H' k); congruence.
    - exfalso. apply (H k'); congruence.
    - reflexivity.
  Qed.
  Lemma carried_trans p q r : carried A T L p q -> carried A T L q r -> carried A T L p r.
  Proof. induction 1; intros Hr; auto; [eapply carried_belt|eapply carried_under]; eauto. Qed.
  Lemma carried_split p q r : carried A T L p q -> carried A T L p r -> (forall y, ~ step A T L r y) -> carried A T L q r.
  Proof.
    intros H Hr Nr. revert Hr. induction H as [p|p q s Hs _ IH|p q s Hs _ IH]; intros Hr; auto; apply IH; clear IH;
    (inversion Hr as [x|x y z Hx Hy|x y z Hx Hy]; subst; [exfalso; eapply Nr; first [left; exact Hs | right; exact Hs]| |]).
    - rewrite (step_fun A T L p q y (or_introl Hs) (or_introl Hx)). exact Hy.
    - rewrite (step_fun A T L p q y (or_introl Hs) (or_intror Hx)). exact Hy.
    - rewrite (step_fun A T L p q y (or_intror Hs) (or_introl Hx)). exact Hy.
    - rewrite (step_fun A T L p q y (or_intror Hs) (or_intror Hx)). exact Hy.
  Qed.
  Lemma on_line_carried p q k : carried A T L p q -> (on_line p k <-> on_line q k).
  Proof.
    intros H. split; intros (f & r & E & R & C); exists f, r; (split; [exact E|]; split; [exact R|]).
    - eapply carried_split; eauto. eapply reaches_last; eauto.
    - eapply carried_trans; eauto.
  Qed.
  Lemma coloured_carried p q c : carried A T L p q -> coloured p c -> coloured q c.
  Proof.
    intros H [(k & E & Hk)|[-> Hk]]; [left|right].
    - exists k. split; [exact E|]. apply (on_line_carried p q k H). exact Hk.
    - split; [reflexivity|]. intros k Nk. rewrite <- (on_line_carried p q k H). auto.
  Qed.
End Lines.

(** ** From a realisation to an assignment *)
Section Solution.
  Variable g : grid.
  Hypothesis W : wf_grid g.
  Hypothesis CX : wrap_x (geo g) = false.
  Hypothesis CY : wrap_y (geo g) = false.
  Variable net : counter.
  Hypothesis Kn : forall nd k, In (nd, k) net -> 0 <= k.
  Variable bound : Z.
  Hypothesis Gc : gcolours g = Some bound.
  Hypothesis Cols : forall x, In x (all_colours net) -> 0 <= x < bound.
  Hypothesis Hex : gextras g = [("node", TSized OneHot (List.length net))].
  Hypothesis Miss : forall nd k, In (nd, k) net -> (count_missing nd <= 1)%nat.
  Hypothesis Ne : elements net <> [].
  Variables ic n oc m : Z.
  Hypothesis Hn : 0 <= n.
  Hypothesis Hm : 0 <= m.
  Hypothesis Iic : In ic (all_colours net).
  Hypothesis Ioc : In oc (all_colours net).
  Notation A := (garea g).
  Notation L := (max_hidden g).
  Notation el := (elements net).
  Notation N := (Z.to_nat n).
  Notation M := (Z.to_nat m).
  Variable T : layout.
  Hypothesis VL : valid_layout A T L.
  Variable P : placement.
  Variable w : sink -> source.
  Hypothesis HR : realises_by A T L el ic N oc M P w.
  Hypothesis H1 : forall s f, joined A T L s f -> exists k, sink_colour el oc M k <> None /\ finish_of P k = Some f.
  Notation spl := (pl_splitters P).
  Notation sink_col := (sink_colour el oc M).
  Notation source_col := (source_colour el ic N).

  Lemma HA : wf_area A. Proof. apply WA. exact W. Qed.
  Lemma el_in nd : In nd el -> exists k, In (nd, k) net.
  Proof. intros H. unfold elements in H. apply in_flat_map in H. destruct H as ([nd' k] & H2 & H3). apply repeat_spec in H3. cbn in H3. subst. eauto. Qed.
  Lemma sink_colours k c : sink_col k = Some c -> In c (all_colours net).
  Proof.
    destruct k as [j|j b]; cbn [sink_colour].
    - destruct (j <? M)%nat; [|discriminate]. intros [= <-]. exact Ioc.
    - destruct (nth_error el j) as [nd|] eqn:E; [|discriminate]. intros Hp. destruct (el_in nd (nth_error_In _ _ E)) as [k Hk]. apply all_colours_in. exists nd, k. split; [exact Hk|].
      destruct nd as [[x y] [u v]]. destruct b; cbn in Hp; subst; cbn; tauto.
  Qed.
  Lemma coloured_in p c : coloured A T L el ic oc M P p c -> In c (all_colours net).
  Proof. intros [(k & E & _)|[-> _]]; [eapply sink_colours; exact E|exact Iic]. Qed.

  (** One output of every splitter is used, so that no splitter looks out of the grid. *)
  Lemma beside p d q : inside A p -> neighbour A p (anticlockwise d) = Some q -> (neighbour A p d = None <-> neighbour A q d = None).
  Proof.
    intros [Hx Hy] E. unfold neighbour, ahead in *. apply place_inside in E as Iq. unfold place in *. destruct p as [x y]. cbn [garea area_of wrapx wrapy aw ah fst snd] in *. rewrite CX, CY in *.
    destruct (insideb _ _); [|discriminate]. injection E as <-. destruct Iq as [Qx Qy]. unfold insideb. cbn [garea area_of wrapx wrapy aw ah fst snd] in *.
    destruct d; cbn in *; repeat match goal with |- context [?u <=? ?v] => destruct (Z.leb_spec u v) | |- context [?u <? ?v] => destruct (Z.ltb_spec u v) end; cbn; split; intros X; try discriminate; try reflexivity; exfalso; lia.
  Qed.
  Lemma missing_sides nd : In nd el -> fst nd <> (None, None) /\ snd nd <> (None, None) /\ (any_missing (fst nd) = true -> any_missing (snd nd) = false).
  Proof.
    intros H. destruct (el_in nd H) as [k Hk]. specialize (Miss nd k Hk). destruct nd as [[[x|] [y|]] [[u|] [v|]]]; cbn in Miss; cbn; repeat split; intros; try congruence; lia.
  Qed.
  Lemma source_out j b c s d : nth_error spl j = Some s -> T (fst s) = Splitter d true -> source_col (FromSplitter j b) = Some c ->
    exists q k f, neighbour A (half s (xorb b (pl_out P j))) d = Some q /\ takes (T q) d /\ sink_col k = Some c /\ finish_of P k = Some f /\ exists r, carried A T L q r /\ reaches A T f r.
  Proof.
    intros Hj Td E. destruct (source_line A T L el ic oc N M P w HR _ _ E) as (k & s0 & f & Ew & Ek & E1 & E2 & (q & r & Bq & Cq & Rf)).
    cbn [start_of] in E1. rewrite Hj in E1. cbn [option_map] in E1. injection E1 as <-.
    destruct (spl_at A T L el ic oc N M P w HR j s Hj) as (I1 & I2 & e & T1 & T2 & N1). assert (e = d) by congruence. subst e.
    destruct Bq as (_ & d' & h & Th & En & Tk). assert (d' = d) by (destruct (xorb b (pl_out P j)); cbn [half] in Th; congruence). subst d'.
    exists q, k, f. repeat split; auto. exists r. auto.
  Qed.
  Lemma looks_inside j s d b : nth_error spl j = Some s -> T (fst s) = Splitter d true -> exists q, neighbour A (half s b) d = Some q.
  Proof.
    intros Hj Td. destruct (spl_at A T L el ic oc N M P w HR j s Hj) as (I1 & I2 & e & T1 & T2 & N1). assert (e = d) by congruence. subst e.
    destruct (spl_el A T L el ic oc N M P w HR j s Hj) as [nd En]. destruct (missing_sides nd (nth_error_In _ _ En)) as (_ & Ns & _).
    assert (X : exists b' q, neighbour A (half s b') d = Some q).
    { assert (Y : exists b0 c, pick (snd nd) b0 = Some c) by (destruct (snd nd) as [[u|] [v|]]; [exists false|exists false|exists true|contradiction]; eexists; reflexivity).
      destruct Y as (b0 & c & Ep). destruct (source_out j b0 c s d Hj Td) as (q & _ & _ & Eq & _); [cbn [source_colour]; rewrite En; exact Ep|]. eauto. }
    destruct X as (b' & q & Eq). pose proof (beside (fst s) d (snd s) I1 N1) as B. destruct (neighbour A (half s b) d) as [q'|] eqn:E'; [eauto|].
    exfalso. destruct b, b'; cbn [half] in *; intuition congruence.
  Qed.
  Lemma splitter_looks p d h : inside A p -> T p = Splitter d h -> exists q, neighbour A p d = Some q.
  Proof.
    intros Hp Tp. destruct (halves_all A HA T L VL el ic oc N M P w HR p d h Hp Tp) as (j & s & Hj & -> & Td). eapply looks_inside; eauto.
  Qed.
  Lemma size_two : 2 <= width (geo g) /\ 2 <= height (geo g).
  Proof.
    assert (X : exists nd, nth_error el 0 = Some nd) by (clear - Ne; destruct el as [|nd r]; [contradiction|exists nd; reflexivity]).
    destruct X as [nd En]. destruct (el_spl A T L el ic oc N M P w HR 0%nat nd En) as [s Hs].
    destruct (spl_at A T L el ic oc N M P w HR _ _ Hs) as (I1 & I2 & d & T1 & T2 & E01). destruct (splitter_looks (fst s) d true I1 T1) as [p10 E10].
    destruct s as [[x y] t]. cbn [fst snd] in *. destruct I1 as [Hx Hy]. cbn [fst snd] in Hx, Hy.
    unfold neighbour, ahead in E10, E01. apply place_inside in E10 as I10. apply place_inside in E01 as I01.
    revert E10 E01 I10 I01. unfold place. cbn [garea area_of wrapx wrapy aw ah fst snd] in *. rewrite CX, CY.
    destruct (insideb _ _); [|discriminate]. intros E10. destruct (insideb _ _); [|discriminate]. intros E01.
    injection E10 as <-. injection E01 as <-. unfold inside. cbn [garea area_of wrapx wrapy aw ah fst snd].
    destruct d; cbn; lia.
  Qed.
  (** The listed inputs are all there are. *)
  Lemma all_inputs p : begins A T (Enter p) p -> In p (pl_inputs P).
  Proof.
    intros B. destruct (trace_forward A T L HA VL _ _ B) as (f & r & Cr & Rf). assert (J : joined A T L (Enter p) f) by (exists p, r; auto).
    destruct (H1 _ _ J) as (k & Nk & Ef). destruct (sink_col k) as [c|] eqn:Ek; [|contradiction].
    destruct (belt_line A T L el ic oc N M P w HR k c Ek) as (s & f' & E1 & E2 & J' & _). assert (f' = f) by congruence. subst f'.
    pose proof (joined_inj A T L HA VL _ _ _ J J') as <-. destruct (w k) as [j|j b]; cbn [start_of] in E1.
    - destruct (nth_error (pl_inputs P) j) as [p'|] eqn:Ep; [|discriminate]. cbn in E1. injection E1 as ->. eapply nth_error_In; exact Ep.
    - destruct (nth_error spl j); discriminate.
  Qed.

  Variable C : pos -> Z.
  Hypothesis HC : forall p, inside A p -> coloured A T L el ic oc M P p (C p).
  Variable a : assignment.
  Hypothesis So : solves g (EBool true) a.
  Hypothesis Sc : solves_colouring g a.
  Hypothesis R : reads g a T.
  Hypothesis Ca : forall p, inside A p -> value a (colour (tile_at g p)) = C p.
  Notation V p := (view_of a (tile_at g p)).
  Hypothesis Conn : forall p d, inside A p ->
      (vi (V p) d = true <-> takes (T p) d /\ forall q, neighbour A p (opposite d) = Some q -> pushes (T q) d) /\
      (vo (V p) d = true <-> pushes (T p) d /\ forall q, neighbour A p d = Some q -> takes (T q) d).
  Hypothesis Hid : forall p c, inside A p -> c = value a (colour_ux (tile_at g p)) \/ c = value a (colour_uy (tile_at g p)) ->
      c = 0 \/ exists q, inside A q /\ c = C q.
  Hypothesis Hnode : forall p i, inside A p -> (i < List.length net)%nat ->
    (evl a (node g p i) = true <-> exists j s, nth_error spl j = Some s /\ fst s = p /\ nth_error (types net) j = Some i).

  Lemma C_line p k c : inside A p -> on_line A T L P p k -> sink_col k = Some c -> C p = c.
  Proof. intros Hp Ho Ek. eapply (coloured_one A HA T L el ic oc N M P w HR); [apply HC; exact Hp|]. left. eauto. Qed.
  Lemma Shw p : inside A p -> shows (V p) (T p).
  Proof. intros Hp. apply (T_shows g a T R); [apply (solves_init_rules g a W); apply So|exact Hp]. Qed.

  Lemma in_used j s nd d b : nth_error spl j = Some s -> nth_error el j = Some nd -> T (fst s) = Splitter d true ->
    match pick (fst nd) b with
    | Some c => vi (V (half s (xorb b (pl_in P j)))) d = true /\ C (half s (xorb b (pl_in P j))) = c
    | None => vi (V (half s (xorb b (pl_in P j)))) d = false
    end.
  Proof.
    intros Hj En Td. destruct (spl_at A T L el ic oc N M P w HR j s Hj) as (I1 & I2 & e & T1 & T2 & N1). assert (e = d) by congruence. subst e.
    set (r := half s (xorb b (pl_in P j))). assert (Ir : inside A r) by (unfold r; destruct (xorb b (pl_in P j)); assumption).
    assert (Tr : exists h, T r = Splitter d h) by (unfold r; destruct (xorb b (pl_in P j)); eauto). destruct Tr as [h Tr].
    assert (Fk : finish_of P (ToSplitter j b) = Some (Entrance r)) by (cbn [finish_of]; rewrite Hj; reflexivity).
    assert (Rr : reaches A T (Entrance r) r) by (split; [reflexivity|]; split; [exact Ir|rewrite Tr; exact Logic.I]).
    assert (Ek : sink_col (ToSplitter j b) = pick (fst nd) b) by (cbn [sink_colour]; rewrite En; reflexivity).
    destruct (pick (fst nd) b) as [c|].
    - split; [|eapply C_line; [exact Ir| |exact Ek]; exists (Entrance r), r; split; [exact Fk|]; split; [exact Rr|constructor]].
      destruct (belt_line A T L el ic oc N M P w HR _ _ Ek) as (s0 & f & _ & E2 & (q0 & r' & Bq & Cq & Rf) & _). rewrite Fk in E2. injection E2 as <-.
      rewrite (reaches_fun A T _ _ _ Rf Rr) in Cq. apply Conn; [exact Ir|]. split; [rewrite Tr; reflexivity|]. intros q Eq.
      pose proof (neighbour_back A r (opposite d) q HA Ir Eq) as Bk. rewrite opposite_opposite in Bk.
      apply carried_inv in Cq. destruct Cq as [<-|(y & [Sy|Sy] & _)].
      + destruct s0 as [p|p].
        * destruct Bq as (-> & _ & d' & Tk & En'). rewrite Tr in Tk. cbn in Tk. subst d'. congruence.
        * destruct Bq as (Ip & d' & h' & Tp & En' & Tk). rewrite Tr in Tk. cbn in Tk. subst d'. apply (neighbour_back A _ _ _ HA Ip) in En'. assert (p = q) by congruence. subst p. rewrite Tp. reflexivity.
      + destruct Sy as (Iy & Ny & d' & Py & Ey). pose proof (received A T L VL y d' r Iy Py Ny Ey) as Tk. rewrite Tr in Tk. cbn in Tk. subst d'.
        apply (neighbour_back A _ _ _ HA Iy) in Ey. assert (y = q) by congruence. subst y. exact Py.
      + destruct Sy as (_ & d' & _ & Tu & _). congruence.
    - destruct (vi (V r) d) eqn:Ev; [|reflexivity]. exfalso. apply Conn in Ev; [|exact Ir]. destruct Ev as [_ Hq].
      destruct (trace_back A T L HA VL r) as (s0 & q0 & Bq & Cq).
      + split; [exact Ir|]. right. exists d. split; [rewrite Tr; reflexivity|]. destruct (neighbour A r (opposite d)) as [q|] eqn:Eq; [|exact Logic.I]. apply Hq. reflexivity.
      + eapply reaches_last; exact Rr.
      + destruct (H1 s0 (Entrance r)) as (k & Nk & Ef); [exists q0, r; auto|].
        rewrite (finishes_inj A HA T L el ic oc N M P w HR _ _ _ Ef Fk) in Nk. congruence.
  Qed.

  Lemma out_used j s nd d b : nth_error spl j = Some s -> nth_error el j = Some nd -> T (fst s) = Splitter d true ->
    exists q, neighbour A (half s (xorb b (pl_out P j))) d = Some q /\
    match pick (snd nd) b with
    | Some c => vo (V (half s (xorb b (pl_out P j)))) d = true /\ C q = c
    | None => vo (V (half s (xorb b (pl_out P j)))) d = false
    end.
  Proof.
    intros Hj En Td. destruct (spl_at A T L el ic oc N M P w HR j s Hj) as (I1 & I2 & e & T1 & T2 & N1). assert (e = d) by congruence. subst e.
    assert (Ek : source_col (FromSplitter j b) = pick (snd nd) b) by (cbn [source_colour]; rewrite En; reflexivity).
    set (r := half s (xorb b (pl_out P j))) in *. assert (Ir : inside A r) by (unfold r; destruct (xorb b (pl_out P j)); assumption).
    assert (Tr : exists h, T r = Splitter d h) by (unfold r; destruct (xorb b (pl_out P j)); eauto). destruct Tr as [h Tr].
    destruct (looks_inside j s d (xorb b (pl_out P j)) Hj Td) as [q Eq]. fold r in Eq. exists q. split; [exact Eq|]. assert (Iq : inside A q) by (eapply ahead_inside; exact Eq).
    destruct (pick (snd nd) b) as [c|].
    - destruct (source_out j b c s d Hj Td Ek) as (q' & k & f & Eq' & Tk & Esk & Ef & r' & Cr & Rf). fold r in Eq'. assert (q' = q) by congruence. subst q'. split.
      + apply Conn; [exact Ir|]. split; [rewrite Tr; reflexivity|]. intros q' E. assert (q' = q) by congruence. subst q'. exact Tk.
      + eapply C_line; [exact Iq| |exact Esk]. exists f, r'. auto.
    - destruct (vo (V r) d) eqn:Ev; [|reflexivity]. exfalso. apply Conn in Ev; [|exact Ir]. destruct Ev as [_ Hq].
      assert (Bq : begins A T (Exit r) q) by (split; [exact Ir|]; exists d, h; auto).
      destruct (trace_forward A T L HA VL _ _ Bq) as (f & r' & Cr & Rf). assert (J : joined A T L (Exit r) f) by (exists q, r'; auto).
      destruct (H1 _ _ J) as (k & Nk & Ef). destruct (sink_col k) as [c|] eqn:Esk; [|contradiction].
      destruct (belt_line A T L el ic oc N M P w HR k c Esk) as (s' & f' & E1 & E2 & J' & E3). assert (f' = f) by congruence. subst f'.
      pose proof (joined_inj A T L HA VL _ _ _ J J') as <-. assert (X : start_of P (FromSplitter j b) = Some (Exit r)) by (cbn [start_of]; rewrite Hj; reflexivity).
      rewrite (starts_inj A HA T L el ic oc N M P w HR _ _ _ E1 X) in E3. congruence.
  Qed.

  Lemma flag_i p : inside A p -> (vinp (V p) = true <-> In p (pl_inputs P)).
  Proof.
    intros Hp. destruct size_two as [S1 S2]. pose proof (proj1 (C62_boundary_flags g a W (proj1 So) CX CY S1 S2 p Hp)) as F. change (vinp (V p) = true <-> exists d, vi (V p) d = true /\ neighbour A p (opposite d) = None) in F.
    rewrite F. split.
    - intros (d & Hd & En). apply all_inputs. split; [reflexivity|]. split; [exact Hp|]. exists d. split; [apply Conn; assumption|exact En].
    - intros H. assert (B : begins A T (Enter p) p) by (apply HR; exact H). destruct B as (_ & _ & d & Tk & En). exists d. split; [|exact En].
      apply Conn; [exact Hp|]. split; [exact Tk|]. intros q Eq. congruence.
  Qed.
  Lemma flag_o p : inside A p -> (voutp (V p) = true <-> In p (pl_outputs P)).
  Proof.
    intros Hp. destruct size_two as [S1 S2]. pose proof (proj2 (C62_boundary_flags g a W (proj1 So) CX CY S1 S2 p Hp)) as F. change (voutp (V p) = true <-> exists d, vo (V p) d = true /\ neighbour A p d = None) in F.
    assert (X : In p (pl_outputs P) <-> reaches A T (Leave p) p) by apply HR. rewrite F, X. split.
    - intros (d & Hd & En). split; [reflexivity|]. split; [exact Hp|]. apply Conn in Hd; [|exact Hp]. destruct Hd as [Pd _]. split; [|eauto].
      intros Hs. destruct (T p) as [| |? ?|? ?|e h|? ?|? ?] eqn:Tp; try contradiction. cbn in Pd. subst e. destruct (splitter_looks p d h Hp Tp) as [q Eq]. congruence.
    - intros (_ & _ & _ & d & Pd & En). exists d. split; [|exact En]. apply Conn; [exact Hp|]. split; [exact Pd|]. intros q Eq. congruence.
  Qed.
  Lemma inputs_inside p : In p (pl_inputs P) -> inside A p.
  Proof. intros H. assert (B : begins A T (Enter p) p) by (apply HR; exact H). apply B. Qed.
  Lemma outputs_inside p : In p (pl_outputs P) -> inside A p.
  Proof. intros H. assert (B : reaches A T (Leave p) p) by (apply HR; exact H). apply B. Qed.
  Lemma ends_ok p : inside A p -> ends_rule g a ic oc p.
  Proof.
    intros Hp. unfold ends_rule, tint. rewrite (Ca p Hp). split.
    - intros H. apply flag_i in H; [|exact Hp]. apply In_nth_error in H. destruct H as [j Hj].
      assert (Hl : (j < N)%nat) by (destruct HR as (_ & _ & _ & _ & <- & _); apply nth_error_Some; congruence).
      destruct (source_line A T L el ic oc N M P w HR (FromInput j) ic) as (k & s & f & Ew & Ek & E1 & E2 & (q & r & Bq & Cq & Rf)).
      { cbn [source_colour]. apply Nat.ltb_lt in Hl. rewrite Hl. reflexivity. }
      cbn [start_of] in E1. rewrite Hj in E1. cbn in E1. injection E1 as <-. assert (q = p) by apply Bq. subst q.
      eapply C_line; [exact Hp| |exact Ek]. exists f, r. auto.
    - intros H. apply flag_o in H; [|exact Hp]. pose proof H as H0. apply In_nth_error in H. destruct H as [j Hj].
      assert (Hl : (j < M)%nat) by (destruct HR as (_ & _ & _ & _ & _ & _ & _ & _ & <- & _); apply nth_error_Some; congruence).
      eapply (C_line p (ToOutput j)); [exact Hp| |].
      + exists (Leave p), p. cbn [finish_of]. rewrite Hj. split; [reflexivity|]. split; [apply HR; exact H0|constructor].
      + cbn [sink_colour]. apply Nat.ltb_lt in Hl. rewrite Hl. reflexivity.
  Qed.

  Lemma prevent_ok c cs : 0 <= c < bound -> ~ In c (all_colours net) -> prevent_colour g c = Some cs -> sat a cs = true.
  Proof.
    intros Hc Nc E. assert (X : forall p, inside A p -> C p <> c) by (intros p Hp Ec; apply Nc; rewrite <- Ec; eapply coloured_in; apply HC; exact Hp).
    assert (Hb : bound <= 2 ^ Z.of_nat (colour_bits g)).
    { unfold colour_bits. rewrite Gc. pose proof W as (_ & _ & Wc & _). rewrite Gc in Wc. pose proof (colour_fits bound Wc). lia. }
    destruct (Z.eq_dec c 0) as [->|Nz].
    - destruct (C68_prevent_colour_0 g a T W (proj1 So) R) as (cs' & E' & S). rewrite E in E'. injection E' as <-. apply S. intros p Hp _. rewrite (Ca p Hp). apply X. exact Hp.
    - destruct (C68_prevent_colour g c a W ltac:(lia)) as (cs' & E' & S). rewrite E in E'. injection E' as <-. apply S. intros p Hp. rewrite (Ca p Hp). split; [apply X; exact Hp|].
      assert (Y : forall x, x = value a (colour_ux (tile_at g p)) \/ x = value a (colour_uy (tile_at g p)) -> x <> c).
      { intros x Hx ->. destruct (Hid p c Hp Hx) as [->|(q & Hq & Eq)]; [lia|]. apply (X q Hq). congruence. }
      split; apply Y; auto.
  Qed.

  (** The lists that the counts count. *)
  Lemma counts_ok i nd k : nth_error net i = Some (nd, k) -> count a (map (fun p => node g p i) (cells (width (geo g)) (height (geo g)))) = k.
  Proof.
    intros Hi. assert (Hl : (i < List.length net)%nat) by (apply nth_error_Some; congruence).
    assert (Ll : List.length spl = List.length (types net)) by (rewrite types_length; apply HR).
    rewrite (count_listed a (fun p => node g p i) _ (map (fun x => fst (fst x)) (filter (fun x => Nat.eqb i (snd x)) (combine spl (types net))))).
    - rewrite map_length, (filter_map_length (@snd (pos * pos) nat) (Nat.eqb i)), map_snd_combine by exact Ll.
      pose proof (types_count net 0 i nd k Hi) as Tc. cbn [Nat.add] in Tc. unfold types. rewrite Tc. apply Z2Nat.id. eapply Kn. eapply nth_error_In. exact Hi.
    - apply ND.
    - apply NoDup_map_filter. rewrite <- (map_map fst fst), map_fst_combine by exact Ll. apply HR.
    - intros p. rewrite in_map_iff, CL. split.
      + intros ([s i'] & <- & Hx). apply filter_In in Hx. destruct Hx as [Hx Ex]. cbn [snd] in Ex. apply Nat.eqb_eq in Ex. subst i'. cbn [fst].
        apply In_nth_error in Hx. destruct Hx as [j Hj]. apply combine_nth_inv in Hj. cbn [fst snd] in Hj. destruct Hj as [Hj Ht].
        assert (Ip : inside A (fst s)) by (apply (spl_at A T L el ic oc N M P w HR j s Hj)). split; [exact Ip|]. apply Hnode; auto. exists j, s. auto.
      + intros [Hp Hx]. apply Hnode in Hx; [|exact Hp|exact Hl]. destruct Hx as (j & s & Hj & <- & Ht). exists (s, i). split; [reflexivity|].
        apply filter_In. split; [|apply Nat.eqb_refl]. eapply nth_error_In. apply combine_nth_some; eauto.
  Qed.
  Lemma head_flag p : inside A p -> (vh (V p) = true <-> exists j s, nth_error spl j = Some s /\ fst s = p).
  Proof.
    intros Hp. pose proof (Shw p Hp) as (_ & _ & _ & _ & _ & _ & Sx). rewrite Sx. split.
    - destruct (T p) as [| |? ?|? ?|e h|? ?|? ?] eqn:Tp; try discriminate. intros ->. destruct (halves_all A HA T L VL el ic oc N M P w HR p e true Hp Tp) as (j & s & Hj & E & _).
      exists j, s. split; [exact Hj|]. symmetry. exact E.
    - intros (j & s & Hj & <-). destruct (spl_at A T L el ic oc N M P w HR j s Hj) as (_ & _ & d & T1 & _). rewrite T1. reflexivity.
  Qed.
  Lemma one_ok p : inside A p -> one_rule g (List.length net) a p.
  Proof.
    intros Hp. unfold one_rule, nodes. destruct (vh (V p)) eqn:Eh.
    - apply head_flag in Eh; [|exact Hp]. destruct Eh as (j & s & Hj & E).
      destruct (nth_error (types net) j) as [i|] eqn:Et.
      2: { apply nth_error_None in Et. rewrite types_length in Et. assert (X : List.length spl = List.length el) by apply HR. rewrite <- X in Et. apply nth_error_None in Et. congruence. }
      destruct (types_nth net j i Et) as (nd & k & _ & En). assert (Hl : (i < List.length net)%nat) by (apply nth_error_Some; congruence).
      rewrite (count_listed a (node g p) _ [i]); [reflexivity|apply seq_NoDup|repeat constructor; intros []|].
      intros x. rewrite in_seq. split.
      + intros [<-|[]]. split; [lia|]. apply Hnode; auto. exists j, s. auto.
      + intros [Hx Ex]. apply Hnode in Ex; [|exact Hp|lia]. destruct Ex as (j' & s' & Hj' & E' & Et'). left.
        assert (j = j') by (eapply (halves_inj A HA T L el ic oc N M P w HR j j' s s' false false); eauto; cbn; congruence). subst j'. congruence.
    - rewrite (count_listed a (node g p) _ []); [reflexivity|apply seq_NoDup|constructor|]. intros x. rewrite in_seq. split; [intros []|].
      intros [Hx Ex]. apply Hnode in Ex; [|exact Hp|lia]. destruct Ex as (j & s & Hj & E & _). assert (vh (V p) = true) by (apply head_flag; eauto). congruence.
  Qed.
  Definition is_odd (p : pos) : bool := (fst p + snd p) mod 2 =? 1.
  Definition odd_half (s : pos * pos) : pos := half s (negb (is_odd (fst s))).
  Lemma odd_next p d q : inside A p -> neighbour A p d = Some q -> is_odd q = negb (is_odd p).
  Proof.
    intros Hp E. unfold neighbour, ahead, place in E. destruct p as [x y]. cbn [garea area_of wrapx wrapy aw ah fst snd] in E. rewrite CX, CY in E. destruct (insideb _ _); [|discriminate]. injection E as <-.
    unfold is_odd. cbn [fst snd].
    match goal with |- ((?u mod 2) =? 1) = _ => assert (X : u = x + y + 1 \/ u = x + y - 1) by (destruct d; cbn [step_x step_y]; lia) end.
    pose proof (Z.mod_pos_bound (x + y) 2 ltac:(lia)). pose proof (Z.div_mod (x + y) 2 ltac:(lia)).
    destruct X as [-> | ->];
    match goal with |- ((?u mod 2) =? 1) = _ => pose proof (Z.mod_pos_bound u 2 ltac:(lia)); pose proof (Z.div_mod u 2 ltac:(lia)); destruct (Z.eqb_spec (u mod 2) 1), (Z.eqb_spec ((x + y) mod 2) 1); cbn; try reflexivity; exfalso; lia end.
  Qed.
  Lemma half_parity s b : is_splitter_at A T s -> (is_odd (half s b) = true <-> half s b = odd_half s).
  Proof.
    intros (I1 & I2 & d & T1 & T2 & E). pose proof (odd_next _ _ _ I1 E) as O. unfold odd_half. assert (X : fst s <> snd s) by congruence.
    destruct (is_odd (fst s)) eqn:Eo, b; cbn [half negb] in *; split; intros; try congruence.
  Qed.
  Lemma half_ok : count a (map (fun p => is_splitter (tile_at g p)) (filter (fun p => (fst p + snd p) mod 2 =? 1) (cells (width (geo g)) (height (geo g))))) =
    fold_left Z.add (map snd net) 0.
  Proof.
    rewrite <- (elements_length net Kn). assert (X : List.length spl = List.length el) by apply HR.
    rewrite (count_listed a (fun p => is_splitter (tile_at g p)) _ (map odd_half spl)); [rewrite map_length, X; reflexivity| | |].
    - apply NoDup_filter. apply ND.
    - apply NoDup_nth_error. intros i j Hi E. rewrite map_length in Hi. rewrite !nth_error_map in E.
      destruct (nth_error spl i) as [s|] eqn:Es; [|apply nth_error_None in Es; lia]. destruct (nth_error spl j) as [s'|] eqn:Es'; [|discriminate]. cbn [option_map] in E. injection E as E.
      eapply (halves_inj A HA T L el ic oc N M P w HR i j); eauto.
    - intros p. rewrite in_map_iff, filter_In, CL. split.
      + intros (s & <- & Hs). apply In_nth_error in Hs. destruct Hs as [j Hj]. pose proof (spl_at A T L el ic oc N M P w HR j s Hj) as Sp.
        assert (Ip : inside A (odd_half s)) by (apply (half_inside A T); exact Sp). split; [split; [exact Ip|]|].
        * change (is_odd (odd_half s) = true). apply half_parity; [exact Sp|reflexivity].
        * pose proof (Shw _ Ip) as (_ & _ & _ & Ss & _). change (vs (V (odd_half s)) = true). rewrite Ss. destruct Sp as (_ & _ & d & T1 & T2 & _).
          unfold odd_half. destruct (negb (is_odd (fst s))); cbn [half]; [rewrite T2|rewrite T1]; reflexivity.
      + intros [[Ip Op] Vs]. change (is_odd p = true) in Op. change (vs (V p) = true) in Vs. pose proof (Shw _ Ip) as (_ & _ & _ & Ss & _). rewrite Ss in Vs.
        destruct (T p) as [| |? ?|? ?|e h|? ?|? ?] eqn:Tp; try discriminate. destruct (halves_all A HA T L VL el ic oc N M P w HR p e h Ip Tp) as (j & s & Hj & E & _).
        exists s. split; [|eapply nth_error_In; exact Hj]. rewrite E in Op |- *. symmetry. apply half_parity; [|exact Op]. eapply (spl_at A T L el ic oc N M P w HR); exact Hj.
  Qed.
  Lemma nodes_rule i nd k p : nth_error net i = Some (nd, k) -> inside A p -> node_rule g a i nd p.
  Proof.
    intros Hi Hp Hx. assert (Hl : (i < List.length net)%nat) by (apply nth_error_Some; congruence).
    apply Hnode in Hx; [|exact Hp|exact Hl]. destruct Hx as (j & s & Hj & <- & Ht). destruct (types_nth net j i Ht) as (nd' & k' & En & Ei).
    assert (nd' = nd) by congruence. subst nd'. clear Ei.
    pose proof (spl_at A T L el ic oc N M P w HR j s Hj) as (I1 & I2 & d & T1 & T2 & N1).
    destruct (missing_sides nd (nth_error_In _ _ En)) as (Nf & Ns & Mm).
    assert (Dir : forall e, side_dir g a nd (fst s) e = true -> e = d).
    { intros e. unfold side_dir. pose proof (Shw _ I1) as (S & _). rewrite T1 in S. destruct S as (_ & _ & S1 & S2 & _). destruct (any_missing (fst nd)); auto. }
    assert (full : forall sd b, any_missing sd = false -> exists c, pick sd b = Some c).
    { intros [[u|] [v|]] b; try discriminate. intros _. destruct b; eexists; reflexivity. }
    split.
    - exists d. unfold side_dir. destruct (any_missing (fst nd)) eqn:Em.
      + destruct (full (snd nd) (pl_out P j) (Mm eq_refl)) as [c Ec]. destruct (out_used j s nd d (pl_out P j) Hj En T1) as (q & _ & H). rewrite Ec in H. rewrite xorb_nilpotent in H. apply H.
      + destruct (full (fst nd) (pl_in P j) Em) as [c Ec]. pose proof (in_used j s nd d (pl_in P j) Hj En T1) as H. rewrite Ec in H. rewrite xorb_nilpotent in H. apply H.
    - intros e He. apply Dir in He. subst e. destruct (looks_inside j s d false Hj T1) as [p10 E10]. destruct (looks_inside j s d true Hj T1) as [p11 E11]. cbn [half] in E10, E11.
      exists p10, (snd s), p11. split; [exact E10|]. split; [exact N1|]. split; [exact E11|]. split.
      + apply (side_of (fst nd) (fun b => vi (V (half s b)) d) (fun b => tint g a (half s b)) (pl_in P j) Nf). intros b.
        pose proof (in_used j s nd d b Hj En T1) as H. unfold tint. rewrite Ca by (apply (half_inside A T); apply (spl_at A T L el ic oc N M P w HR j s Hj)). exact H.
      + apply (side_of (snd nd) (fun b => vo (V (half s b)) d) (fun b => tint g a (if b then p11 else p10)) (pl_out P j) Ns). intros b.
        destruct (out_used j s nd d b Hj En T1) as (q & Eq & H). assert (Q : q = if xorb b (pl_out P j) then p11 else p10) by (destruct (xorb b (pl_out P j)); cbn [half] in Eq; congruence). subst q.
        unfold tint. rewrite Ca by (eapply ahead_inside; exact Eq). exact H.
  Qed.
  Theorem rules_met : balancer_rules g net ic n oc m a.
  Proof.
    constructor.
    - apply So.
    - rewrite Gc. apply prevent_ok.
    - apply So.
    - apply So.
    - exact Sc.
    - exact half_ok.
    - exact counts_ok.
    - exact one_ok.
    - rewrite (count_listed a (fun p => is_input (tile_at g p)) _ (pl_inputs P)); [|apply ND|apply HR|].
      + transitivity (Z.of_nat N); [f_equal; apply HR|]. apply Z2Nat.id. exact Hn.
      + intros p. rewrite CL. split; [intros H; pose proof (inputs_inside p H) as Hp; split; [exact Hp|]; apply (flag_i p Hp); exact H|]. intros [Hp H]. apply (flag_i p Hp). exact H.
    - rewrite (count_listed a (fun p => is_output (tile_at g p)) _ (pl_outputs P)); [|apply ND|apply HR|].
      + transitivity (Z.of_nat M); [f_equal; apply HR|]. apply Z2Nat.id. exact Hm.
      + intros p. rewrite CL. split; [intros H; pose proof (outputs_inside p H) as Hp; split; [exact Hp|]; apply (flag_o p Hp); exact H|]. intros [Hp H]. apply (flag_o p Hp). exact H.
    - exact ends_ok.
    - exact nodes_rule.
  Qed.
End Solution.

(** ** The variables of the nodes *)
Lemma node_inj g (net : counter) p q i j : wf_grid g -> gextras g = [("node", TSized OneHot (List.length net))] -> inside (garea g) p -> inside (garea g) q ->
  (i < List.length net)%nat -> (j < List.length net)%nat -> node g p i = node g q j -> p = q /\ i = j.
Proof.
  intros W Hex Hp Hq Hi Hj E. pose proof (node_size g (List.length net) Hex) as Sz. unfold node, extras_base in E.
  destruct (owner_offset g p (20 + 3 * Z.of_nat (colour_bits g) + Z.of_nat i) W Hp ltac:(lia)) as (_ & O1 & O2).
  destruct (owner_offset g q (20 + 3 * Z.of_nat (colour_bits g) + Z.of_nat j) W Hq ltac:(lia)) as (_ & O3 & O4).
  replace (tile_base g p + 1 + (20 + 3 * Z.of_nat (colour_bits g) + Z.of_nat i)) with (tile_base g q + 1 + (20 + 3 * Z.of_nat (colour_bits g) + Z.of_nat j)) in O1, O2 by lia.
  split; [congruence|]. rewrite O4 in O2. lia.
Qed.

Lemma create_missing E net w h ul r : create_balancer E net w h ul = Some r -> forall nd k, In (nd, k) net -> (count_missing nd <= 1)%nat.
Proof.
  intros E0 nd k Hin. unfold create_balancer in E0. destruct (negb _); [discriminate|].
  destruct (list_max (all_colours net)) as [t|]; [|discriminate]. cbn [obind] in E0.
  destruct (init_clauses _) as [init|]; [|discriminate]. cbn [obind] in E0.
  destruct (balancer_clauses E (balancer_grid net w h ul t) net t _) as [[c1 t1]|] eqn:Eb; [|discriminate]. clear E0.
  unfold balancer_clauses in Eb. match type of Eb with obind (seq_gen ?l ?z) _ = _ => destruct (seq_gen l z) as [[b1 tb]|]; [|discriminate] end.
  cbn [obind] in Eb. destruct (get_input_output_colours (elements net)) as [[[ic n] [oc m]]|]; [|discriminate]. cbn [obind] in Eb.
  match type of Eb with obind (seq_gen ?l _) _ = _ => set (after := l) in *; destruct (seq_gen after tb) as [[b2 t2]|] eqn:Eb2; [|discriminate] end. clear Eb.
  assert (P3 : exists o, oflat (fun ie => node_clauses (balancer_grid net w h ul t) ic oc (fst ie) (fst (snd ie))) (indexed net) = Some o) by
    (apply (seq_gen_pure after _ _ _ Eb2); do 2 right; left; reflexivity).
  destruct P3 as [o P3]. apply In_nth_error in Hin. destruct Hin as [i Hi]. apply indexed_in in Hi.
  destruct (oflat_each _ _ _ P3 _ Hi) as [c Ec]. cbn [fst snd] in Ec. unfold node_clauses in Ec. destruct (Nat.leb_spec (count_missing nd) 1); [assumption|discriminate].
Qed.

Lemma complete_lines A T L el ic n oc m P w : wf_area A -> valid_layout A T L -> complete el -> realises_by A T L el ic n oc m P w ->
  forall s f, joined A T L s f -> exists k, sink_colour el oc m k <> None /\ finish_of P k = Some f.
Proof.
  intros WA' VL Cm HR s f (q & r & Bq & Cq & Rf). destruct f as [p|p].
  - assert (r = p) by apply Rf. subst r. assert (Hin : In p (pl_outputs P)) by (apply HR; exact Rf). apply In_nth_error in Hin. destruct Hin as [j Hj].
    assert (Hl : (j < m)%nat) by (destruct HR as (_ & _ & _ & _ & _ & _ & _ & _ & <- & _); apply nth_error_Some; congruence).
    exists (ToOutput j). cbn [sink_colour finish_of]. apply Nat.ltb_lt in Hl. rewrite Hl, Hj. split; [discriminate|reflexivity].
  - destruct Rf as (-> & Ip & Sp). destruct (T p) as [| |? ?|? ?|d h|? ?|? ?] eqn:Tp; try contradiction.
    destruct (halves_all A WA' T L VL el ic oc n m P w HR p d h Ip Tp) as (j & s' & Hj & -> & _). destruct (spl_el A T L el ic oc n m P w HR j s' Hj) as [nd En].
    exists (ToSplitter j (xorb (negb h) (pl_in P j))). cbn [sink_colour finish_of]. rewrite En, Hj. cbn [option_map].
    rewrite xorb_assoc, xorb_nilpotent, xorb_false_r. split; [|reflexivity]. destruct (Cm nd (nth_error_In _ _ En)) as (C1 & C2 & _). destruct (xorb _ _); cbn [pick]; assumption.
Qed.

(** A realisation of a network realises the network listed in another order. *)
Lemma similar_sym net net' : P_Similar.similar net net' -> P_Similar.similar net' net.
Proof.
  intros (phi & psi & H1 & H2 & H). exists psi, phi. split; [exact H2|]. split; [exact H1|]. intros i. specialize (H (psi i)). rewrite H2 in H.
  destruct (nth_error net (psi i)) as [[u v]|], (nth_error net' i) as [[x y]|]; try contradiction; auto. destruct H as [[E1|E1] [E2|E2]]; cbn in *; split; unfold same_belts; cbn; subst; destruct u, v; auto.
Qed.
Lemma realises_similar A T L net net' ic n oc m : P_Similar.similar net net' -> realises A T L net ic n oc m -> realises A T L net' ic n oc m.
Proof.
  intros (phi & psi & Hpq & Hqp & H) (P & w & R1 & R2 & R3 & R4 & R5 & R6 & R7 & R8 & R9 & R10 & R11 & (W1 & W2 & W3) & R12).
  destruct (P_Similar.similar_flips net net' phi H) as (fi & fo & F). 
  set (dflt := ((0, 0), (0, 0)) : pos * pos).
  set (spl := map (fun j => nth (psi j) (pl_splitters P) dflt) (seq 0 (List.length net'))).
  assert (Dom : forall j, (j < List.length net')%nat <-> (psi j < List.length net)%nat).
  { intros j. specialize (H (psi j)). rewrite Hqp in H. rewrite <- !nth_error_Some. destruct (nth_error net (psi j)), (nth_error net' j); try contradiction; split; intros; congruence. }
  assert (Nth : forall i, nth_error spl (phi i) = nth_error (pl_splitters P) i).
  { intros i. unfold spl. rewrite nth_error_map. destruct (Nat.ltb_spec (phi i) (List.length net')) as [Hi|Hi].
    - rewrite (nth_error_nth' (seq 0 (List.length net')) 0%nat) by (rewrite seq_length; exact Hi). rewrite seq_nth by exact Hi. cbn [option_map Nat.add]. rewrite Hpq.
      apply Dom in Hi. rewrite Hpq in Hi. symmetry. apply nth_error_nth'. rewrite R1. exact Hi.
    - rewrite (proj2 (nth_error_None (seq 0 (List.length net')) (phi i))) by (rewrite seq_length; exact Hi). cbn [option_map].
      symmetry. apply nth_error_None. rewrite R1. destruct (Nat.ltb_spec i (List.length net)) as [C|C]; [|exact C]. rewrite <- (Hpq i) in C. apply Dom in C. lia. }
  assert (InS : forall s, In s spl <-> In s (pl_splitters P)).
  { intros s. split; intros Hs; apply In_nth_error in Hs; destruct Hs as [j Hj].
    - rewrite <- (Hqp j), Nth in Hj. eapply nth_error_In; exact Hj.
    - rewrite <- Nth in Hj. eapply nth_error_In; exact Hj. }
  set (snk := fun k => match k with ToOutput j => ToOutput j | ToSplitter i b => ToSplitter (phi i) (xorb b (fi i)) end).
  set (knk := fun k => match k with ToOutput j => ToOutput j | ToSplitter i b => ToSplitter (psi i) (xorb b (fi (psi i))) end).
  set (src := fun s => match s with FromInput j => FromInput j | FromSplitter i b => FromSplitter (phi i) (xorb b (fo i)) end).
  set (crs := fun s => match s with FromInput j => FromInput j | FromSplitter i b => FromSplitter (psi i) (xorb b (fo (psi i))) end).
  assert (SC : forall s, src (crs s) = s).
  { intros [i|i b]; cbn; [reflexivity|]. rewrite Hqp. f_equal. rewrite xorb_assoc, xorb_nilpotent, xorb_false_r. reflexivity. }
  assert (CS : forall s, crs (src s) = s).
  { intros [i|i b]; cbn; [reflexivity|]. rewrite Hpq. f_equal. rewrite xorb_assoc, xorb_nilpotent, xorb_false_r. reflexivity. }
  assert (KK : forall k, snk (knk k) = k).
  { intros [i|i b]; cbn; [reflexivity|]. rewrite Hqp. f_equal. rewrite xorb_assoc, xorb_nilpotent, xorb_false_r. reflexivity. }
  assert (KK' : forall k, knk (snk k) = k).
  { intros [i|i b]; cbn; [reflexivity|]. rewrite Hpq. f_equal. rewrite xorb_assoc, xorb_nilpotent, xorb_false_r. reflexivity. }
  assert (KS : forall k, sink_colour net' oc m (snk k) = sink_colour net oc m k).
  { intros [i|i b]; cbn; [reflexivity|]. specialize (F i). destruct (nth_error net i), (nth_error net' (phi i)); try contradiction; [apply F|reflexivity]. }
  assert (KC : forall s, source_colour net' ic n (src s) = source_colour net ic n s).
  { intros [i|i b]; cbn; [reflexivity|]. specialize (F i). destruct (nth_error net i), (nth_error net' (phi i)); try contradiction; [apply F|reflexivity]. }
  set (P' := {| pl_splitters := spl; pl_in := fun j => xorb (pl_in P (psi j)) (fi (psi j)); pl_out := fun j => xorb (pl_out P (psi j)) (fo (psi j));
    pl_inputs := pl_inputs P; pl_outputs := pl_outputs P |}).
  assert (St : forall s, start_of P' (src s) = start_of P s).
  { intros [i|i b]; [reflexivity|]. cbn [src start_of P' pl_splitters pl_out]. rewrite Nth, Hpq. destruct (nth_error (pl_splitters P) i); [|reflexivity]. cbn [option_map].
    replace (xorb (xorb b (fo i)) (xorb (pl_out P i) (fo i))) with (xorb b (pl_out P i)) by (destruct b, (fo i), (pl_out P i); reflexivity). reflexivity. }
  assert (Fn : forall k, finish_of P' (snk k) = finish_of P k).
  { intros [i|i b]; [reflexivity|]. cbn [snk finish_of P' pl_splitters pl_in]. rewrite Nth, Hpq. destruct (nth_error (pl_splitters P) i); [|reflexivity]. cbn [option_map].
    replace (xorb (xorb b (fi i)) (xorb (pl_in P i) (fi i))) with (xorb b (pl_in P i)) by (destruct b, (fi i), (pl_in P i); reflexivity). reflexivity. }
  exists P', (fun k => src (w (knk k))).
  split; [cbn; unfold spl; rewrite map_length, seq_length; reflexivity|]. split.
  { cbn [P' pl_splitters]. apply NoDup_nth_error. intros i j Hi E. rewrite map_length in Hi. rewrite NoDup_nth_error in R2.
    assert (psi i = psi j); [|rewrite <- (Hqp i), <- (Hqp j); congruence]. apply R2.
    - rewrite map_length, R1. apply Dom. unfold spl in Hi. rewrite map_length, seq_length in Hi. exact Hi.
    - rewrite !nth_error_map in *. rewrite <- !Nth, !Hqp. exact E. }
  split; [intros s Hs; apply R3, InS; exact Hs|]. split.
  { intros p d Hp Tp. specialize (R4 p d Hp Tp). apply in_map_iff in R4. destruct R4 as (s & E & Hs). apply in_map_iff. exists s. split; [exact E|]. apply InS. exact Hs. }
  do 7 (split; [assumption|]). split; [split; [|split]|].
  - intros k c Hk. rewrite KC. apply W1. rewrite <- KS, KK. exact Hk.
  - intros k k' Nk Nk' E. rewrite <- (KK k), <- (KK k'). f_equal. apply W2.
    + rewrite <- KS, KK. exact Nk.
    + rewrite <- KS, KK. exact Nk'.
    + rewrite <- (CS (w (knk k))), <- (CS (w (knk k'))). congruence.
  - intros s Ns. destruct (W3 (crs s)) as (k & Nk & Ek); [rewrite <- KC, SC; exact Ns|]. exists (snk k). rewrite KS, KK', Ek, SC. auto.
  - intros k Nk. destruct (R12 (knk k)) as (s & f & E1 & E2 & J); [rewrite <- KS, KK; exact Nk|]. exists s, f. rewrite St, <- Fn, KK in *. auto.
Qed.

Lemma parse_tile_agree n a b t : agree n a b -> tile_lits n t -> parse_tile a t = parse_tile b t.
Proof.
  intros Ag Lt. unfold parse_tile. rewrite !(evl_agree n a b) by (try exact Ag; apply Lt).
  assert (X : forall f : dir -> lit, (forall d, lit_ok n (f d)) -> map (evl a) (map f directions) = map (evl b) (map f directions)).
  { intros f Hf. rewrite !map_map. apply map_ext. intros d. apply (evl_agree n a b _ Ag). apply Hf. }
  unfold inputs, outputs. rewrite !X by apply Lt. reflexivity.
Qed.
