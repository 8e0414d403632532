(** Proofs about parse_network: the names of the colours, and the network that
    comes out. *)
From Coq Require Import ZArith List Bool Lia Permutation FinFun.
From Verif Require Import Spec_Tile Spec_Layout M_Json M_Tile M_Dict M_Network M_Template Spec_Network Spec_Balancer Spec_Interchange Spec_Parse M_Parse P_Tile P_Layout P_List P_Template P_Walk P_Trace P_Grid P_Edge P_Parse P_Parse2 P_Parse3.
Import ListNotations.
Open Scope Z_scope.

(** The mapping of lines 651-662. *)
Lemma dset_get (k c v : Z) (m : list (Z * Z)) : dget Z.eqb c (dset Z.eqb k v m) = if c =? k then Some v else dget Z.eqb c m.
Proof.
  induction m as [|[k' v'] m IH]; cbn [dset dget].
  - destruct (c =? k); reflexivity.
  - destruct (Z.eqb_spec k k') as [<-|N]; cbn [dget].
    + destruct (c =? k); reflexivity.
    + rewrite IH. destruct (Z.eqb_spec c k') as [->|]; [|reflexivity]. destruct (Z.eqb_spec k' k); [congruence|reflexivity].
Qed.
Lemma dset_all v (l : list Z) c : forall m : list (Z * Z), dget Z.eqb c (fold_left (fun m k => dset Z.eqb k v m) l m) = if existsb (Z.eqb c) l then Some v else dget Z.eqb c m.
Proof.
  induction l as [|k l IH]; intros m; [reflexivity|]. cbn [fold_left existsb]. rewrite IH, dset_get. destruct (c =? k), (existsb (Z.eqb c) l); reflexivity.
Qed.
Lemma existsb_in c l : existsb (Z.eqb c) l = true <-> In c l.
Proof. rewrite existsb_exists. split; [intros (x & Hx & E); apply Z.eqb_eq in E; congruence|intros H; exists c; split; [exact H|apply Z.eqb_refl]]. Qed.
Lemma dset_all_in v l c (m : list (Z * Z)) : In c l -> dget Z.eqb c (fold_left (fun m k => dset Z.eqb k v m) l m) = Some v.
Proof. intros H. rewrite dset_all, (proj2 (existsb_in c l) H). reflexivity. Qed.
Lemma dset_all_out v l c (m : list (Z * Z)) : ~ In c l -> dget Z.eqb c (fold_left (fun m k => dset Z.eqb k v m) l m) = dget Z.eqb c m.
Proof. intros H. rewrite dset_all. destruct (existsb (Z.eqb c) l) eqn:E; [apply existsb_in in E; contradiction|reflexivity]. Qed.

Definition outs_of (nd : splitter) : list Z := present (side_list (snd nd)).
Lemma map_outputs_last net : forall i m, snd (map_outputs i net m) = i + Z.of_nat (length net).
Proof. induction net as [|nd net IH]; intros i m; cbn [map_outputs length snd]; [lia|]. rewrite IH. lia. Qed.
Lemma map_outputs_skip net c : forall i m, (forall nd, In nd net -> ~ In c (outs_of nd)) -> dget Z.eqb c (fst (map_outputs i net m)) = dget Z.eqb c m.
Proof.
  induction net as [|nd net IH]; intros i m H; [reflexivity|]. cbn [map_outputs]. rewrite IH by (intros x Hx; apply H; right; exact Hx). apply dset_all_out. apply H. left. reflexivity.
Qed.
Lemma map_outputs_at net c : forall i m j nd, nth_error net j = Some nd -> In c (outs_of nd) ->
  (forall j' nd', nth_error net j' = Some nd' -> In c (outs_of nd') -> j' = j) -> dget Z.eqb c (fst (map_outputs i net m)) = Some (i + Z.of_nat j).
Proof.
  induction net as [|nd0 net IH]; intros i m j nd Hj Hc U; [destruct j; discriminate|]. cbn [map_outputs]. destruct j as [|j].
  - cbn [nth_error] in Hj. injection Hj as ->. rewrite map_outputs_skip.
    + rewrite dset_all_in by exact Hc. f_equal. lia.
    + intros x Hx Hc'. apply In_nth_error in Hx. destruct Hx as (k & Hk). discriminate (U (S k) x Hk Hc').
  - rewrite (IH (i + 1) _ j nd Hj Hc); [f_equal; lia|]. intros j' nd' Hj' Hc'. specialize (U (S j') nd' Hj' Hc'). lia.
Qed.

Lemma in_present x l : In x (present l) <-> In (Some x) l.
Proof.
  unfold present. rewrite in_flat_map. split.
  - intros (c & Hc & Hx). destruct c as [y|]; [destruct Hx as [<-|[]]; exact Hc|contradiction].
  - intros H. exists (Some x). split; [exact H|left; reflexivity].
Qed.
Lemma in_set_of x l : In x (set_of l) <-> In x l.
Proof. apply nodup_In. Qed.
Lemma in_set_minus x a b : In x (set_minus a b) <-> In x a /\ ~ In x b.
Proof. unfold set_minus, mem. rewrite filter_In, negb_true_iff. split; intros [H1 H2]; (split; [exact H1|]); [intros H3; apply existsb_in in H3; congruence|destruct (existsb (Z.eqb x) b) eqn:E; [apply existsb_in in E; contradiction|reflexivity]]. Qed.
Lemma in_output_set net c : In c (output_set net) <-> exists j nd, nth_error net j = Some nd /\ In c (outs_of nd).
Proof.
  unfold output_set, output_slots. rewrite in_set_of, in_present, in_flat_map. split.
  - intros (nd & Hn & Hc). apply In_nth_error in Hn. destruct Hn as (j & Hj). exists j, nd. split; [exact Hj|]. apply in_present. exact Hc.
  - intros (j & nd & Hj & Hc). exists nd. split; [eapply nth_error_In; exact Hj|]. apply in_present. exact Hc.
Qed.
Lemma in_input_set net c : In c (input_set net) <-> exists j nd, nth_error net j = Some nd /\ In (Some c) (side_list (fst nd)).
Proof.
  unfold input_set, input_slots. rewrite in_set_of, in_present, in_flat_map. split.
  - intros (nd & Hn & Hc). apply In_nth_error in Hn. destruct Hn as (j & Hj). exists j, nd. auto.
  - intros (j & nd & Hj & Hc). exists nd. split; [eapply nth_error_In; exact Hj|exact Hc].
Qed.
Definition name (net : network) (c : colour) : colour := map_colour (name_map net) c.
Lemma name_map_eq net : name_map net = fold_left (fun m c => dset Z.eqb c (1 + Z.of_nat (length net)) m) (set_minus (output_set net) (input_set net))
  (fst (map_outputs 1 net (fold_left (fun m c => dset Z.eqb c 0 m) (set_minus (input_set net) (output_set net)) []))).
Proof.
  unfold name_map, get_exterior_colours. destruct (map_outputs 1 net _) as [m last] eqn:E. pose proof (map_outputs_last net 1 (fold_left (fun m c => dset Z.eqb c 0 m) (set_minus (input_set net) (output_set net)) [])) as X.
  rewrite E in X. cbn [snd fst] in X |- *. subst last. reflexivity.
Qed.
Lemma name_in net c : In c (input_set net) -> ~ In c (output_set net) -> name net (Some c) = Some 0.
Proof.
  intros Hi Ho. unfold name, map_colour. rewrite name_map_eq. rewrite dset_all_out by (rewrite in_set_minus; tauto).
  rewrite map_outputs_skip.
  - rewrite dset_all_in by (rewrite in_set_minus; tauto). reflexivity.
  - intros nd Hn Hc. apply Ho. apply in_output_set. apply In_nth_error in Hn. destruct Hn as (j & Hj). eauto.
Qed.
Lemma name_out net c : ~ In c (input_set net) -> In c (output_set net) -> name net (Some c) = Some (Z.of_nat (length net) + 1).
Proof. intros Hi Ho. unfold name, map_colour. rewrite name_map_eq. rewrite dset_all_in by (rewrite in_set_minus; tauto). f_equal. lia. Qed.
Lemma name_mid net c j nd : In c (input_set net) -> nth_error net j = Some nd -> In c (outs_of nd) ->
  (forall j' nd', nth_error net j' = Some nd' -> In c (outs_of nd') -> j' = j) -> name net (Some c) = Some (Z.of_nat j + 1).
Proof.
  intros Hi Hj Hc U. unfold name, map_colour. rewrite name_map_eq. rewrite dset_all_out by (rewrite in_set_minus; tauto).
  rewrite (map_outputs_at net c 1 _ j nd Hj Hc U). f_equal. lia.
Qed.
Lemma in_side (s : side) c : In c (side_list s) <-> exists b, pick s b = c.
Proof. cbn. split; [intros [<-|[<-|[]]]; [exists false|exists true]; reflexivity|intros ([|] & <-); cbn; auto]. Qed.

Section Final.
  Variables (w h : Z) (T : Z * Z -> tile) (L : Z) (edge : bool).
  Let A := rectangle w h.
  Hypothesis WA : wf_area A.
  Hypothesis VL : valid_layout A T L.
  Variables (cm0 : mapping) (cur0 : Z).
  Hypothesis I0 : Inv w h T L cm0 cur0.
  Hypothesis Full : forall p, inside A p -> ~ is_splitter_tile (T p) -> cm0 p <> None.
  Variables (cm : mapping) (cur : Z) (G : mapping) (done : list (bool * (Z * Z))).
  Hypothesis N : NI w h T cm0 cur0 cm cur G done.

  Notation step := (step A T L).
  Notation active := (active w h T edge).
  Notation slot_is := (slot_is w h T edge).
  Notation key := (key w h T).
  Notation line_cell := (line_cell w h T).

  Lemma line_dec p : {line_cell p} + {~ line_cell p}.
  Proof.
    unfold P_Parse3.line_cell. destruct (insideb (rectangle w h) p) eqn:E.
    - apply insideb_iff in E. destruct (T p); try (left; split; [exact E|intros []]; fail). right. intros [_ X]. apply X. exact Logic.I.
    - right. intros [X _]. apply insideb_iff in X. congruence.
  Qed.
  Lemma line_const x y : carried A T L x y -> conv (T x) -> conv (T y) -> cm0 x = cm0 y.
  Proof.
    destruct I0 as (_ & _ & I2 & _). intros C. induction C as [x|x z y S C IH|x z y S C IH]; intros Cx Cy; [reflexivity| |].
    - assert (Cz : conv (T z)) by (inversion C; subst; [exact Cy|eapply (step_conv w h T L); left; eassumption|eapply (step_conv w h T L); right; eassumption]).
      rewrite (I2 x z (or_introl S) Cz). auto.
    - assert (Cz : conv (T z)) by (inversion C; subst; [exact Cy|eapply (step_conv w h T L); left; eassumption|eapply (step_conv w h T L); right; eassumption]).
      rewrite (I2 x z (or_intror S) Cz). auto.
  Qed.
  Lemma carried_conv x y : carried A T L x y -> conv (T y) -> conv (T x).
  Proof. intros C Cy. inversion C; subst; [exact Cy|eapply (step_conv w h T L); left; eassumption|eapply (step_conv w h T L); right; eassumption]. Qed.
  Lemma meets_conv out p d : inside A p -> meets out (T p) d -> ~ is_splitter_tile (T p) -> conv (T p).
  Proof. intros Hp M Ns. destruct (tiles_belt w h T L VL p Hp) as [C|[E|S]]; [exact C| |contradiction]. rewrite E in M. destruct out; contradiction. Qed.

  Lemma front p d q : neighbour A p d = Some q <-> q = beside true p d /\ inside A q.
  Proof. apply neighbour_some. Qed.
  Lemma behind p d q : neighbour A p (opposite d) = Some q <-> q = beside false p d /\ inside A q.
  Proof. unfold A. rewrite neighbour_some. replace (fst p + step_x (opposite d), snd p + step_y (opposite d)) with (beside false p d) by (destruct d; cbn [beside step_x step_y opposite]; apply pair_equal_spec; split; ring). reflexivity. Qed.

  Lemma begins_exit p d b q : inside A p -> T p = Splitter d b -> (begins A T (Exit p) q <-> q = beside true p d /\ inside A q /\ takes (T q) d).
  Proof.
    intros Hp Tp. cbn [begins]. split.
    - intros (_ & d' & b' & Tp' & En & Tk). rewrite Tp in Tp'. injection Tp' as <- <-. apply front in En. tauto.
    - intros (Eq & Iq & Tk). split; [exact Hp|]. exists d, b. split; [exact Tp|]. split; [apply front; auto|exact Tk].
  Qed.

  (** The last tile of a line before a splitter. *)
  Lemma into_splitter p d b y : inside A p -> T p = Splitter d b -> step y p -> y = beside false p d /\ inside A y /\ conv (T y) /\ pushes (T y) d.
  Proof.
    intros Hp Tp S. pose proof (step_conv w h T L _ _ S) as C. destruct S as [(Hy & Ny & e & Pe & En)|(_ & e & _ & Te & _)]; [|congruence].
    pose proof (received A T L VL y e p Hy Pe Ny En) as Tk. rewrite Tp in Tk. cbn in Tk. subst e.
    apply (neighbour_back A y d p WA Hy) in En. apply behind in En. destruct En as [-> _]. auto.
  Qed.

  Lemma key_conv p d : inside A (beside false p d) -> conv (T (beside false p d)) -> key false p d = beside false p d.
  Proof. intros I C. unfold P_Parse3.key. change (inside (rectangle w h) (beside false p d)) in I. rewrite (proj2 (insideb_iff _ _) I). destruct (T (beside false p d)); try contradiction; reflexivity. Qed.
  Lemma key_self p d : ~ (inside A (beside false p d) /\ conv (T (beside false p d))) -> key false p d = p.
  Proof.
    intros X. unfold P_Parse3.key. destruct (insideb _ (beside false p d)) eqn:E; [|reflexivity]. apply insideb_iff in E.
    destruct (T (beside false p d)) eqn:Tb; try reflexivity; exfalso; apply X; (split; [exact E|]); rewrite ?Tb; exact Logic.I.
  Qed.

  Lemma joined_same p' d' b' p d b co ci : inside A p' -> T p' = Splitter d' b' -> inside A p -> T p = Splitter d b ->
    slot_is G true p' d' co -> slot_is G false p d ci -> joined A T L (Exit p') (Entrance p) -> co = ci /\ co <> None.
  Proof.
    intros Hp' Tp' Hp Tp [So _] [Si _] (q & r & B & C & (-> & _)). apply (begins_exit p' d' b' q Hp' Tp') in B. destruct B as (Eq & Iq & Tk).
    assert (Ao : active true p' d') by (left; rewrite <- Eq; auto). destruct (So Ao) as [No Eo]. split; [|exact No].
    change (key true p' d') with (beside true p' d') in Eo. rewrite <- Eq in Eo.
    destruct (carried_inv A T L _ _ C) as [->|(y & S & Cy)].
    - rewrite Tp in Tk. cbn in Tk. subst d'. assert (Eb : beside false p d = p') by (apply beside_forth; auto).
      assert (Ai : active false p d) by (left; rewrite Eb, Tp'; split; [exact Hp'|reflexivity]). destruct (Si Ai) as [_ Ei]. rewrite key_self in Ei; [congruence|].
      rewrite Eb, Tp'. intros [_ X]. contradiction.
    - destruct (into_splitter p d b y Hp Tp S) as (Ey & Iy & Cvy & Py).
      assert (Ai : active false p d) by (left; rewrite <- Ey; auto). destruct (Si Ai) as [_ Ei]. rewrite key_conv in Ei by (rewrite <- Ey; assumption). rewrite <- Ey in Ei.
      pose proof (carried_conv q y Cy Cvy) as Cq. rewrite Eo, Ei.
      rewrite (proj2 (n_line _ _ _ _ _ _ _ _ _ N q (conj Iq (conv_not_splitter _ Cq)))), (proj2 (n_line _ _ _ _ _ _ _ _ _ N y (conj Iy (conv_not_splitter _ Cvy)))). apply line_const; assumption.
  Qed.

  Lemma line_colour p c : line_cell p -> conv (T p) -> G p = Some c -> cm0 p = Some c /\ 0 <= c < cur0.
  Proof.
    intros Lp Cp E. rewrite (proj2 (n_line _ _ _ _ _ _ _ _ _ N p Lp)) in E. split; [exact E|]. destruct I0 as (_ & I1 & _). destruct (I1 p c E) as (_ & [[_ X]|[X _]]); [exact X|].
    rewrite X in Cp. contradiction.
  Qed.

  Lemma active_dec out q e : {active out q e} + {~ active out q e}.
  Proof.
    unfold P_Parse3.active. destruct (insideb (rectangle w h) (beside out q e)) eqn:E.
      - apply insideb_iff in E. destruct out; cbn [meets].
        + destruct (T (beside true q e)) as [| |i o|f [|]|f x|f x|x y]; cbn [takes]; try (right; intros [[_ X]|[X _]]; contradiction).
          * destruct (dir_eqb i e) eqn:Ed; [apply dir_eqb_eq in Ed; left; left; auto|right; intros [[_ X]|[X _]]; [apply dir_eqb_eq in X; congruence|contradiction]].
          * destruct (dir_eqb f e) eqn:Ed; [apply dir_eqb_eq in Ed; left; left; auto|right; intros [[_ X]|[X _]]; [apply dir_eqb_eq in X; congruence|contradiction]].
          * destruct (dir_eqb f e) eqn:Ed; [apply dir_eqb_eq in Ed; left; left; auto|right; intros [[_ X]|[X _]]; [apply dir_eqb_eq in X; congruence|contradiction]].
        + destruct (T (beside false q e)) as [| |i o|f [|]|f x|f x|x y]; cbn [pushes]; try (right; intros [[_ X]|[X _]]; contradiction).
          * destruct (dir_eqb o e) eqn:Ed; [apply dir_eqb_eq in Ed; left; left; auto|right; intros [[_ X]|[X _]]; [apply dir_eqb_eq in X; congruence|contradiction]].
          * destruct (dir_eqb f e) eqn:Ed; [apply dir_eqb_eq in Ed; left; left; auto|right; intros [[_ X]|[X _]]; [apply dir_eqb_eq in X; congruence|contradiction]].
          * destruct (dir_eqb f e) eqn:Ed; [apply dir_eqb_eq in Ed; left; left; auto|right; intros [[_ X]|[X _]]; [apply dir_eqb_eq in X; congruence|contradiction]].
      - assert (No : ~ inside (rectangle w h) (beside out q e)) by (intros X; apply insideb_iff in X; congruence).
        destruct edge; [left; right; auto|right; intros [[X _]|[_ X]]; [contradiction|discriminate]].
  Qed.

  Lemma same_joined p' d' b' p d b c : inside A p' -> T p' = Splitter d' b' -> inside A p -> T p = Splitter d b ->
    slot_is G true p' d' (Some c) -> slot_is G false p d (Some c) -> joined A T L (Exit p') (Entrance p).
  Proof.
    intros Hp' Tp' Hp Tp [So So'] [Si Si'].
    assert (Ao : active true p' d') by (destruct (active_dec true p' d') as [X|X]; [exact X|discriminate (So' X)]).
    assert (Ai : active false p d) by (destruct (active_dec false p d) as [X|X]; [exact X|discriminate (Si' X)]). clear So' Si'.
    destruct (So Ao) as [_ Eo], (Si Ai) as [_ Ei]. symmetry in Eo, Ei. change (key true p' d') with (beside true p' d') in Eo.
    set (ko := beside true p' d') in *. set (ki := key false p d) in *.
    assert (Ki : ki = beside false p d /\ inside A ki /\ conv (T ki) \/ ki = p).
    { unfold ki, P_Parse3.key. destruct (insideb _ (beside false p d)) eqn:E; [|right; reflexivity]. apply insideb_iff in E.
      destruct (T (beside false p d)) eqn:Tb; cbn [convb andb]; auto; left; (split; [reflexivity|split; [exact E|rewrite Tb; exact Logic.I]]). }
    assert (NLp : ~ line_cell p) by (intros [_ X]; apply X; rewrite Tp; exact Logic.I).
    assert (Lko : line_cell ko -> conv (T ko) /\ inside A ko /\ takes (T ko) d').
    { intros [X1 X2]. destruct Ao as [[_ M]|[M _]]; [|contradiction]. fold ko in M. split; [eapply meets_conv; eassumption|auto]. }
    assert (Lki : line_cell ki -> ki = beside false p d /\ inside A ki /\ conv (T ki) /\ pushes (T ki) d).
    { intros X. destruct Ki as [(E1 & E2 & E3)|E1]; [|rewrite E1 in X; contradiction]. repeat (split; [assumption|]). destruct Ai as [[_ M]|[M _]]; [rewrite E1; exact M|]. rewrite E1 in E2. contradiction. }
    destruct (line_dec ko) as [Lo|Lo], (line_dec ki) as [Li|Li].
    - destruct (Lko Lo) as (Co & Io & Tk), (Lki Li) as (Ek & Ii & Ci & Pu).
      destruct (line_colour ko c Lo Co Eo) as [Eo' Bo], (line_colour ki c Li Ci Ei) as [Ei' _].
      assert (B : begins A T (Exit p') ko) by (apply (begins_exit p' d' b' ko Hp' Tp'); auto).
      assert (S : step ki p). { left. split; [exact Ii|]. split; [apply conv_not_splitter; exact Ci|]. exists d. split; [exact Pu|]. apply front. split; [|exact Hp]. symmetry. apply (beside_back w h p d Hp). symmetry. exact Ek. }
      assert (C : carried A T L ko ki).
      { destruct I0 as (_ & _ & _ & I3). destruct (I3 ko ki c Eo' Ei' ltac:(lia)) as [C|C]; [exact C|]. destruct (carried_inv A T L _ _ C) as [->|(y & Sy & _)]; [constructor|].
        exfalso. exact (begins_first A T L WA VL _ _ B y Sy). }
      exists ko, p. split; [exact B|]. split; [eapply carried_step; eassumption|]. split; [reflexivity|]. split; [exact Hp|]. rewrite Tp. exact Logic.I.
    - exfalso. destruct (Lko Lo) as (Co & _). destruct (line_colour ko c Lo Co Eo) as [_ B1]. pose proof (n_new _ _ _ _ _ _ _ _ _ N ki c Li Ei). lia.
    - exfalso. destruct (Lki Li) as (_ & _ & Ci & _). destruct (line_colour ki c Li Ci Ei) as [_ B1]. pose proof (n_new _ _ _ _ _ _ _ _ _ N ko c Lo Eo). lia.
    - assert (E : ko = ki) by exact (n_inj _ _ _ _ _ _ _ _ _ N ko ki c Lo Li Eo Ei).
      destruct Ki as [(_ & E2 & E3)|E1]; [exfalso; apply Li; split; [exact E2|apply conv_not_splitter; exact E3]|]. rewrite E1 in E.
      exists p, p. split; [|split; [constructor|split; [reflexivity|split; [exact Hp|rewrite Tp; exact Logic.I]]]].
      apply (begins_exit p' d' b' p Hp' Tp'). split; [symmetry; exact E|]. split; [exact Hp|].
      destruct Ao as [[_ M]|[M _]]; fold ko in M; rewrite E in M; [exact M|contradiction].
  Qed.

  (** Two exits have different colours. *)
  Lemma exits_differ p d b p' d' b' c : inside A p -> T p = Splitter d b -> inside A p' -> T p' = Splitter d' b' ->
    slot_is G true p d (Some c) -> slot_is G true p' d' (Some c) -> p = p'.
  Proof.
    intros Hp Tp Hp' Tp' [S1 S1'] [S2 S2'].
    assert (A1 : active true p d) by (destruct (active_dec true p d) as [X|X]; [exact X|discriminate (S1' X)]).
    assert (A2 : active true p' d') by (destruct (active_dec true p' d') as [X|X]; [exact X|discriminate (S2' X)]). clear S1' S2'.
    destruct (S1 A1) as [_ E1], (S2 A2) as [_ E2]. symmetry in E1, E2. change (key true p d) with (beside true p d) in E1. change (key true p' d') with (beside true p' d') in E2.
    assert (LC : forall q e, active true q e -> line_cell (beside true q e) -> conv (T (beside true q e)) /\ takes (T (beside true q e)) e).
    { intros q e Ac [X1 X2]. destruct Ac as [[_ M]|[M _]]; [|contradiction]. split; [eapply (meets_conv true); eassumption|exact M]. }
    destruct (line_dec (beside true p d)) as [L1|L1], (line_dec (beside true p' d')) as [L2|L2].
    - destruct (LC p d A1 L1) as [C1 K1], (LC p' d' A2 L2) as [C2 K2]. destruct (line_colour _ c L1 C1 E1) as [F1 B1], (line_colour _ c L2 C2 E2) as [F2 _].
      assert (Q1 : begins A T (Exit p) (beside true p d)) by (apply (begins_exit p d b _ Hp Tp); split; [reflexivity|split; [apply L1|exact K1]]).
      assert (Q2 : begins A T (Exit p') (beside true p' d')) by (apply (begins_exit p' d' b' _ Hp' Tp'); split; [reflexivity|split; [apply L2|exact K2]]).
      assert (E : beside true p d = beside true p' d').
      { destruct I0 as (_ & _ & _ & I3). destruct (I3 _ _ c F1 F2 ltac:(lia)) as [C|C]; destruct (carried_inv A T L _ _ C) as [X|(y & Sy & _)]; auto; exfalso.
        - exact (begins_first A T L WA VL _ _ Q2 y Sy).
        - exact (begins_first A T L WA VL _ _ Q1 y Sy). }
      rewrite E in Q1. pose proof (begins_inj A T WA _ _ _ Q1 Q2) as X. congruence.
    - exfalso. destruct (LC p d A1 L1) as [C1 _]. destruct (line_colour _ c L1 C1 E1) as [_ B1]. pose proof (n_new _ _ _ _ _ _ _ _ _ N _ c L2 E2). lia.
    - exfalso. destruct (LC p' d' A2 L2) as [C2 _]. destruct (line_colour _ c L2 C2 E2) as [_ B1]. pose proof (n_new _ _ _ _ _ _ _ _ _ N _ c L1 E1). lia.
    - assert (E : beside true p d = beside true p' d') by exact (n_inj _ _ _ _ _ _ _ _ _ N _ _ c L1 L2 E1 E2).
      destruct A1 as [[X1 M1]|[X1 _]]; [|exact (beside_unique w h p p' d d' Hp Hp' X1 E)].
      destruct A2 as [[X2 M2]|[X2 _]]; [|symmetry; exact (beside_unique w h p' p d' d Hp' Hp X2 (eq_sym E))].
      assert (Q1 : begins A T (Exit p) (beside true p d)) by (apply (begins_exit p d b _ Hp Tp); auto).
      assert (Q2 : begins A T (Exit p') (beside true p' d')) by (apply (begins_exit p' d' b' _ Hp' Tp'); auto).
      rewrite E in Q1. pose proof (begins_inj A T WA _ _ _ Q1 Q2) as X. congruence.
  Qed.

  (** Where the line into, and the line out of, a half comes from and leads. *)
  Lemma active_joined_in p d b : inside A p -> T p = Splitter d b -> active false p d -> exists s, joined A T L s (Entrance p).
  Proof.
    intros Hp Tp Ac.
    assert (F : fed A T p).
    { split; [exact Hp|]. right. exists d. split; [rewrite Tp; reflexivity|]. destruct (neighbour A p (opposite d)) as [q|] eqn:En; [|exact Logic.I].
      apply behind in En. destruct En as [-> Iq]. destruct Ac as [[_ M]|[M _]]; [exact M|contradiction]. }
    destruct (trace_back A T L WA VL p F) as (s & q & B & C).
    - intros y S. apply (step_conv w h T L) in S. rewrite Tp in S. contradiction.
    - exists s, q, p. split; [exact B|]. split; [exact C|]. split; [reflexivity|]. split; [exact Hp|]. rewrite Tp. exact Logic.I.
  Qed.
  Lemma inactive_joined_in p d b s : inside A p -> T p = Splitter d b -> ~ active false p d -> joined A T L s (Entrance p) -> edge = false /\ s = Enter p.
  Proof.
    intros Hp Tp Na (q & r & B & C & (-> & _)). destruct (carried_inv A T L _ _ C) as [->|(y & S & _)].
    - destruct s as [x|x]; cbn [begins] in B.
      + destruct B as (-> & _ & d' & Tk & En). rewrite Tp in Tk. cbn in Tk. subst d'. split; [|reflexivity]. destruct edge eqn:Ee; [|reflexivity]. exfalso. apply Na. right. split; [|reflexivity].
        intros X. assert (Y : neighbour A x (opposite d) = Some (beside false x d)) by (apply behind; auto). congruence.
      + exfalso. destruct B as (Hx & d' & b' & Tx & En & Tk). rewrite Tp in Tk. cbn in Tk. subst d'. apply (neighbour_back A x d p WA Hx) in En. apply behind in En. destruct En as [-> Ix].
        apply Na. left. split; [exact Ix|]. rewrite Tx. reflexivity.
    - exfalso. destruct (into_splitter p d b y Hp Tp S) as (-> & Iy & _ & Py). apply Na. left. auto.
  Qed.
  Lemma active_joined_out p d b : inside A p -> T p = Splitter d b -> active true p d -> (exists f, joined A T L (Exit p) f) \/ edge = true /\ faces_out A T p.
  Proof.
    intros Hp Tp [[Iq M]|[Nq E]].
    - left. assert (B : begins A T (Exit p) (beside true p d)) by (apply (begins_exit p d b _ Hp Tp); auto). destruct (trace_forward A T L WA VL _ _ B) as (f & r & C & R). exists f, (beside true p d), r. auto.
    - right. split; [exact E|]. exists d, b. split; [exact Tp|]. destruct (neighbour A p d) as [q|] eqn:En; [|reflexivity]. apply front in En. destruct En as [-> X]. contradiction.
  Qed.
  Lemma joined_out_active p d b f : inside A p -> T p = Splitter d b -> joined A T L (Exit p) f -> active true p d.
  Proof. intros Hp Tp (q & r & B & _). apply (begins_exit p d b q Hp Tp) in B. destruct B as (-> & Iq & Tk). left. auto. Qed.

  (** The list of the splitters. *)
  Definition pair_of (p : Z * Z) : (Z * Z) * (Z * Z) := match T p with Splitter d _ => (p, mate_of p d) | _ => (p, p) end.
  Variables (ps : list (Z * Z)) (net : network).
  Hypothesis F : Forall2 (node_is w h T edge G) ps net.
  Hypothesis All : forall p d, inside A p -> T p = Splitter d true -> In p ps.
  Hypothesis Nd : NoDup ps.

  Lemma at_node i nd : nth_error net i = Some nd -> exists p d, nth_error ps i = Some p /\ nth_error (map pair_of ps) i = Some (p, mate_of p d) /\ is_splitter_at A T (p, mate_of p d) /\ T p = Splitter d true /\
    forall b, inside A (half (p, mate_of p d) b) /\ T (half (p, mate_of p d) b) = Splitter d (negb b) /\
      slot_is G false (half (p, mate_of p d) b) d (pick (fst nd) b) /\ slot_is G true (half (p, mate_of p d) b) d (pick (snd nd) b).
  Proof.
    intros H. revert i H. clear Nd All. induction F as [|p nd' ps' net' (d & Hp & Tp & At & Hb) F' IH]; intros i H; [destruct i; discriminate|].
    destruct i as [|i]; cbn [nth_error map] in *.
    - injection H as ->. exists p, d. split; [reflexivity|]. split; [unfold pair_of; rewrite Tp; reflexivity|]. split; [exact At|]. split; [exact Tp|]. intros b. destruct (Hb b) as [H1 H2].
      destruct At as (_ & Iq & d' & T1 & T2 & _). cbn [fst snd] in *. rewrite Tp in T1. injection T1 as <-. destruct b; cbn [half fst snd negb] in *; auto.
    - apply IH; [exact F'|exact H].
  Qed.
  Lemma node_at_index i p : nth_error ps i = Some p -> exists nd, nth_error net i = Some nd.
  Proof.
    revert i. clear Nd All. induction F as [|p' nd' ps' net' _ F' IH]; intros i H; [destruct i; discriminate|]. destruct i as [|i]; cbn [nth_error] in *; [eauto|exact (IH F' i H)].
  Qed.
  (** Every half of a splitter belongs to a node. *)
  Lemma half_listed p d b : inside A p -> T p = Splitter d b -> exists i nd, nth_error net i = Some nd /\ exists p0 d0 b0, nth_error (map pair_of ps) i = Some (p0, mate_of p0 d0) /\ nth_error ps i = Some p0 /\ T p0 = Splitter d0 true /\ p = half (p0, mate_of p0 d0) b0.
  Proof.
    intros Hp Tp.
    assert (X : exists p0 b0, inside A p0 /\ T p0 = Splitter d true /\ p = half (p0, mate_of p0 d) b0).
    { destruct b; [exists p, false; auto|]. destruct VL as (_ & S & _). destruct (S p d false Hp Tp) as (q & En & Tq). exists q, true.
      assert (Iq : inside A q) by (eapply ahead_inside; exact En). split; [exact Iq|]. split; [exact Tq|]. cbn [mate_side negb] in En.
      apply neighbour_some in En. destruct En as [-> _]. unfold mate_of, half. destruct p, d; cbn [fst snd step_x step_y anticlockwise opposite mate_side clockwise]; apply pair_equal_spec; split; lia. }
    destruct X as (p0 & b0 & I & T0 & E). pose proof (All p0 d I T0) as Hin. apply In_nth_error in Hin. destruct Hin as (i & Hi).
    destruct (node_at_index i p0 Hi) as (nd & Hn). exists i, nd. split; [exact Hn|]. exists p0, d, b0.
    split; [rewrite (map_nth_error pair_of i ps Hi); unfold pair_of; rewrite T0; reflexivity|]. auto.
  Qed.

  Lemma out_listed c : In c (output_set net) <-> exists i nd b, nth_error net i = Some nd /\ pick (snd nd) b = Some c.
  Proof.
    rewrite in_output_set. unfold outs_of. split.
    - intros (j & nd & Hj & Hc). apply in_present, in_side in Hc. destruct Hc as (b & Hb). eauto.
    - intros (j & nd & b & Hj & Hc). exists j, nd. split; [exact Hj|]. apply in_present, in_side. eauto.
  Qed.
  Lemma in_listed c : In c (input_set net) <-> exists i nd b, nth_error net i = Some nd /\ pick (fst nd) b = Some c.
  Proof.
    rewrite in_input_set. split.
    - intros (j & nd & Hj & Hc). apply in_side in Hc. destruct Hc as (b & Hb). eauto.
    - intros (j & nd & b & Hj & Hc). exists j, nd. split; [exact Hj|]. apply in_side. eauto.
  Qed.
  Lemma out_unique c i nd b j nd' b' : nth_error net i = Some nd -> pick (snd nd) b = Some c -> nth_error net j = Some nd' -> pick (snd nd') b' = Some c -> i = j.
  Proof.
    intros Hi Ci Hj Cj. destruct (at_node i nd Hi) as (p & d & Pi & _ & _ & Tp & Hb), (at_node j nd' Hj) as (p' & d' & Pj & _ & _ & Tp' & Hb').
    destruct (Hb b) as (I1 & T1 & _ & S1), (Hb' b') as (I2 & T2 & _ & S2). rewrite Ci in S1. rewrite Cj in S2.
    pose proof (exits_differ _ _ _ _ _ _ c I1 T1 I2 T2 S1 S2) as E.
    assert (X : b = b' /\ d = d'). { rewrite E, T2 in T1. injection T1 as -> Eb. split; [destruct b, b'; cbn in Eb; congruence|reflexivity]. } destruct X as [<- <-].
    assert (Ep : p = p').
    { destruct b; cbn [half fst snd] in E; [|exact E]. eapply (mate_inj w h T L VL p p' d d); eauto; apply (fun X => proj1 (X false)) in Hb; apply (fun X => proj1 (X false)) in Hb'; assumption. }
    subst p'. rewrite NoDup_nth_error in Nd. apply Nd; [apply nth_error_Some; congruence|congruence].
  Qed.
  Lemma pick_map_in f (nd : splitter) b : pick (fst (map_splitter f nd)) b = f (pick (fst nd) b).
  Proof. destruct nd as [[a1 a2] [b1 b2]], b; reflexivity. Qed.
  Lemma pick_map_out f (nd : splitter) b : pick (snd (map_splitter f nd)) b = f (pick (snd nd) b).
  Proof. destruct nd as [[a1 a2] [b1 b2]], b; reflexivity. Qed.

  Lemma nodes_length : length net = length ps.
  Proof. clear Nd All. induction F as [|p' nd' ps' net' _ F' IH]; [reflexivity|]. cbn [length]. f_equal. exact (IH F'). Qed.

  Lemma network_read : network_of A T L edge (map pair_of ps) (remap_colours net (name_map net)).
  Proof.
    split; [unfold remap_colours; rewrite !map_length; exact nodes_length|].
    intros i s nd0 b Hs Hn0. unfold remap_colours in Hn0. rewrite nth_error_map in Hn0. destruct (nth_error net i) as [nd|] eqn:Hn; [|discriminate]. cbn [option_map] in Hn0. injection Hn0 as <-.
    rewrite pick_map_in, pick_map_out.
    destruct (at_node i nd Hn) as (p & d & Pi & Ps & At & Tp & Hb). pose proof (eq_trans (eq_sym Hs) Ps) as Es. apply Some_inj in Es. rewrite Es. clear Es Hs s. destruct (Hb b) as (Ih & Th & Si & So). set (x := half (p, mate_of p d) b) in *.
    fold (name net (pick (fst nd) b)). fold (name net (pick (snd nd) b)).
    (* an exit joined to an entrance *)
    assert (Meet : forall y dy by0, inside A y -> T y = Splitter dy by0 -> forall j ndj bj, nth_error net j = Some ndj -> forall pj dj, nth_error (map pair_of ps) j = Some (pj, mate_of pj dj) -> T pj = Splitter dj true -> y = half (pj, mate_of pj dj) bj ->
      slot_is G false y dy (pick (fst ndj) bj) /\ slot_is G true y dy (pick (snd ndj) bj)).
    { intros y dy by0 Iy Ty j ndj bj Hj pj dj Psj Tpj Ey. destruct (at_node j ndj Hj) as (p' & d' & _ & Ps' & _ & Tp' & Hb'). rewrite Ps' in Psj. assert (Ep : p' = pj) by congruence. subst p'. assert (d' = dj) by congruence. subst d'.
      destruct (Hb' bj) as (_ & T' & S1 & S2). rewrite <- Ey in *. rewrite Ty in T'. injection T' as <- _. auto. }
    split.
    - destruct (active_dec false x d) as [Ac|Na].
      2:{ rewrite (proj2 Si Na). apply input_none. intros s J. eapply inactive_joined_in; eassumption. }
      destruct Si as [Si1 Si2]. destruct (Si1 Ac) as [Nc _]. pose proof (conj Si1 Si2 : slot_is G false x d (pick (fst nd) b)) as Si. destruct (pick (fst nd) b) as [c|] eqn:Ec; [|contradiction].
      assert (Cin : In c (input_set net)) by (apply in_listed; eauto).
      destruct (active_joined_in x d _ Ih Th Ac) as ([q|y] & J).
      + assert (Co : ~ In c (output_set net)).
        { rewrite out_listed. intros (j & ndj & bj & Hj & Cj). destruct (at_node j ndj Hj) as (p' & d' & _ & _ & _ & _ & Hb'). destruct (Hb' bj) as (I' & T' & _ & S'). rewrite Cj in S'.
          pose proof (same_joined _ _ _ _ _ _ c I' T' Ih Th S' Si) as J'. pose proof (joined_inj A T L WA VL _ _ _ J J') as X. discriminate X. }
        rewrite (name_in net c Cin Co). apply (input_inlet _ _ _ _ _ _ q J). intros ->. destruct (Bool.bool_dec edge true) as [Ee|Ee]; [exact Ee|]. exfalso.
        destruct Ac as [[Iq M]|[_ X]]; [|contradiction]. destruct J as (q & r & B & _). destruct B as (_ & _ & d' & Tk & En). rewrite Th in Tk. cbn in Tk. subst d'.
        assert (Y : neighbour A x (opposite d) = Some (beside false x d)) by (apply behind; auto). congruence.
      + assert (Ys : inside A y /\ exists dy by0, T y = Splitter dy by0) by (destruct J as (q & r & (Iy & dy & by0 & Ty & _) & _); eauto). destruct Ys as (Iy & dy & by0 & Ty).
        destruct (half_listed y dy by0 Iy Ty) as (j & ndj & Hj & pj & dj & bj & Psj & _ & Tpj & Ey).
        destruct (Meet y dy by0 Iy Ty j ndj bj Hj pj dj Psj Tpj Ey) as [_ Sy].
        destruct (joined_same _ _ _ _ _ _ _ _ Iy Ty Ih Th Sy Si J) as [Eq _].
        rewrite (name_mid net c j ndj Cin Hj).
        * apply (input_from _ _ _ _ _ _ j _ bj Psj). rewrite <- Ey. exact J.
        * apply in_present, in_side. eauto.
        * intros j' nd' Hj' Hc'. apply in_present, in_side in Hc'. destruct Hc' as (b' & Hb''). eapply out_unique; eassumption.
    - destruct (active_dec true x d) as [Ac|Na].
      2:{ rewrite (proj2 So Na). apply output_none; [intros f J; apply Na; eapply joined_out_active; eassumption|]. intros (d' & b' & T' & En). rewrite Th in T'. injection T' as <- <-.
          destruct (Bool.bool_dec edge true) as [Ee|Ee]; [|destruct edge; [contradiction|reflexivity]]. exfalso. apply Na. right. split; [|exact Ee]. intros X. assert (Y : neighbour A x d = Some (beside true x d)) by (apply front; auto). congruence. }
      destruct So as [So1 So2]. destruct (So1 Ac) as [Nc _]. pose proof (conj So1 So2 : slot_is G true x d (pick (snd nd) b)) as So. destruct (pick (snd nd) b) as [c|] eqn:Ec; [|contradiction].
      assert (Cout : In c (output_set net)) by (apply out_listed; eauto).
      assert (Len : Z.of_nat (length net) = Z.of_nat (length (map pair_of ps))) by (rewrite map_length, nodes_length; reflexivity).
      assert (NotIn : (forall q, ~ joined A T L (Exit x) (Entrance q)) -> ~ In c (input_set net)).
      { intros X. rewrite in_listed. intros (j & ndj & bj & Hj & Cj). destruct (at_node j ndj Hj) as (p' & d' & _ & _ & _ & _ & Hb'). destruct (Hb' bj) as (I' & T' & S' & _). rewrite Cj in S'.
        apply (X _ (same_joined _ _ _ _ _ _ c Ih Th I' T' So S')). }
      destruct (active_joined_out x d _ Ih Th Ac) as [([q|y] & J)|[Ee Fo]].
      + rewrite (name_out net c); [rewrite Len; exact (output_outlet _ _ _ _ _ _ _ q J)| |exact Cout]. apply NotIn. intros q' J'. pose proof (joined_fun A T L _ _ _ J J') as X. discriminate X.
      + assert (Ys : inside A y /\ exists dy by0, T y = Splitter dy by0). { destruct J as (q & r & _ & _ & (_ & Iy & Sy)). split; [exact Iy|]. destruct (T y); try contradiction. eauto. } destruct Ys as (Iy & dy & by0 & Ty).
        destruct (half_listed y dy by0 Iy Ty) as (j & ndj & Hj & pj & dj & bj & Psj & _ & Tpj & Ey).
        destruct (Meet y dy by0 Iy Ty j ndj bj Hj pj dj Psj Tpj Ey) as [Sy _].
        destruct (joined_same _ _ _ _ _ _ _ _ Ih Th Iy Ty So Sy J) as [Eq _].
        rewrite (name_mid net c i nd).
        * exact (output_to _ _ _ _ _ _ _ y J).
        * apply in_listed. eauto.
        * exact Hn.
        * apply in_present, in_side. eauto.
        * intros j' nd' Hj' Hc'. apply in_present, in_side in Hc'. destruct Hc' as (b' & Hb''). symmetry. eapply out_unique; eassumption.
      + rewrite (name_out net c); [rewrite Len; exact (output_edge _ _ _ _ _ _ _ Ee Fo)| |exact Cout]. apply NotIn. intros q' J'. destruct Fo as (d' & b' & T' & En). destruct J' as (q & r & B & _). destruct B as (_ & d2 & b2 & T2 & E2 & _). congruence.
  Qed.

  Lemma splitters_read : all_splitters A T (map pair_of ps).
  Proof.
    assert (E : map fst (map pair_of ps) = ps). { rewrite map_map. rewrite <- (map_id ps) at 2. apply map_ext. intros p. unfold pair_of. destruct (T p); reflexivity. }
    split; [change (NoDup (map fst (map pair_of ps))); rewrite E; exact Nd|]. split.
    - intros s Hs. apply In_nth_error in Hs. destruct Hs as (i & Hi). assert (X : exists nd, nth_error net i = Some nd). { destruct (nth_error net i) eqn:En; [eauto|]. exfalso. apply nth_error_None in En. assert (H : (i < length (map pair_of ps))%nat) by (apply nth_error_Some; intros X; discriminate (eq_trans (eq_sym Hi) X)). rewrite map_length in H. pose proof nodes_length. lia. }
      destruct X as (nd & Hn). destruct (at_node i nd Hn) as (p & d & _ & Ps & At & _). pose proof (eq_trans (eq_sym Hi) Ps) as Es. injection Es as ->. exact At.
    - intros p d Hp Tp. change (In p (map fst (map pair_of ps))). rewrite E. eapply All; eassumption.
  Qed.
End Final.

Lemma rectangle_wf w h : 0 < w -> 0 < h -> wf_area (rectangle w h).
Proof. intros H1 H2. unfold wf_area. cbn. lia. Qed.
Lemma heads_in T p : forall ps, In p (heads T ps) <-> In p ps /\ exists d, T p = Splitter d true.
Proof.
  intros ps. unfold heads. rewrite in_flat_map. split.
  - intros (q & Hq & Hp). destruct (T q) as [| | | |d [|]| |] eqn:Tq; try contradiction. destruct Hp as [<-|[]]. eauto.
  - intros (H & d & E). exists p. split; [exact H|]. rewrite E. left. reflexivity.
Qed.
Lemma heads_nodup T : forall ps, NoDup ps -> NoDup (heads T ps).
Proof.
  induction 1 as [|p ps Np Nd IH]; [constructor|]. change (heads T (p :: ps)) with (((match T p with Splitter _ true => [p] | _ => [] end) ++ heads T ps)%list).
  destruct (T p) as [| | | |d [|]| |]; try exact IH. constructor; [|exact IH]. intros X. apply heads_in in X. tauto.
Qed.
Lemma all_tiles_nodup w h : NoDup (all_tiles w h).
Proof.
  unfold all_tiles. set (n := Z.to_nat w). generalize 0%nat at 2 as k. induction n as [|n IH]; intros k; [constructor|]. cbn [seq flat_map].
  apply NoDup_app_intro.
  - apply FinFun.Injective_map_NoDup; [intros y y' E; injection E; lia|apply seq_NoDup].
  - apply IH.
  - intros p H1 H2. apply in_map_iff in H1. destruct H1 as (y & <- & _). apply in_flat_map in H2. destruct H2 as (x & Hx & H2). apply in_map_iff in H2. destruct H2 as (y' & E & _). apply in_seq in Hx. injection E. lia.
Qed.

(** parse_network gives the network of the layout. *)
Theorem parse_reads w h T L order edge net : 0 < w -> 0 < h -> valid_layout (rectangle w h) T L -> (forall l, Permutation l (order l)) ->
  parse_network w h T order edge = Some net -> exists ss, all_splitters (rectangle w h) T ss /\ network_of (rectangle w h) T L edge ss net.
Proof.
  intros Hw Hh VL Or E. pose proof (rectangle_wf w h Hw Hh) as WA. unfold parse_network in E.
  destruct (scan w h T (no_colours, 0, []) (all_tiles w h)) as [[[cm cur] sp]|] eqn:Es; [|discriminate]. cbn [obind] in E.
  destruct (read_nodes w h T edge (cm, cur) (order sp)) as [raw|] eqn:Er; [|discriminate]. cbn [obind] in E. injection E as <-.
  pose proof (scan_spec w h T L WA VL (all_tiles w h) no_colours 0 [] _ (fun p => proj1 (all_tiles_in w h p)) (Inv_start w h T L) Es) as (I0 & _ & _ & Full & Esp). cbn [app] in Esp. subst sp.
  assert (Full' : forall p, inside (rectangle w h) p -> ~ is_splitter_tile (T p) -> cm p <> None) by (intros p Hp; apply Full; apply all_tiles_in; exact Hp).
  set (ps := order (heads T (all_tiles w h))) in *.
  assert (Nd : NoDup ps) by (eapply Permutation_NoDup; [apply Or|]; apply heads_nodup, all_tiles_nodup).
  assert (Hin : forall p, In p ps <-> inside (rectangle w h) p /\ exists d, T p = Splitter d true).
  { intros p. rewrite <- all_tiles_in, <- heads_in. split; apply Permutation_in; [apply Permutation_sym|]; apply Or. }
  destruct (read_nodes_spec w h T L edge VL cm cur Full' ps cm cur _ [] raw (NI_start w h T L cm cur I0) Nd) as (cm' & cur' & G & done & _ & N & F).
  - intros p Hp. apply Hin in Hp. tauto.
  - intros p d out b _ _ [].
  - exact Er.
  - assert (All : forall p d, inside (rectangle w h) p -> T p = Splitter d true -> In p ps) by (intros p d Hp Tp; apply Hin; eauto).
    exists (map (pair_of T) ps). split.
    + eapply splitters_read; eassumption.
    + eapply network_read; eassumption.
Qed.
