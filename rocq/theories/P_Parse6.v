(** Proofs about parse_network: the layout is built as the network says. *)
From Coq Require Import ZArith List Bool Lia Permutation.
From Verif Require Import Spec_Tile Spec_Layout M_Json M_Tile M_Dict M_Network M_Template Spec_Network Spec_Balancer Spec_Flow Spec_Interchange Spec_Parse M_Parse P_Tile P_Layout P_List P_Template P_Walk P_Trace P_Uniq P_Grid P_Parse4.
Import ListNotations.
Open Scope Z_scope.

Lemma finite_choice {X Y} (dec : forall x x' : X, {x = x'} + {x <> x'}) (R : X -> Y -> Prop) (y0 : Y) : forall l : list X,
  (forall x, In x l -> exists y, R x y) -> exists f, forall x, In x l -> R x (f x).
Proof.
  induction l as [|x l IH]; intros H; [exists (fun _ => y0); intros x []|].
  destruct IH as (f & Hf); [intros x' Hx; apply H; right; exact Hx|]. destruct (H x (or_introl eq_refl)) as (y & Hy).
  exists (fun z => if dec z x then y else f z). intros z Hz. destruct (dec z x) as [->|N]; [exact Hy|]. destruct Hz as [->|Hz]; [contradiction|auto].
Qed.
Lemma sink_dec (k k' : sink) : {k = k'} + {k <> k'}.
Proof. decide equality; try apply Nat.eq_dec; apply Bool.bool_dec. Qed.

Section Realise.
  Variables (A : area) (T : layout) (L : Z) (edge : bool).
  Hypothesis WA : wf_area A.
  Hypothesis VL : valid_layout A T L.
  Variables (ss : list (pos * pos)) (net : network).
  Hypothesis SS : all_splitters A T ss.
  Hypothesis NO : network_of A T L edge ss net.
  Variables (ins outs : list pos).
  Hypothesis Ins : counted_inlets A T edge ins.
  Hypothesis Outs : outlets A T outs.
  Hypothesis NT : no_through A T L.
  Hypothesis NF : none_face_out A T edge.

  Let oc : Z := Z.of_nat (length net) + 1.
  Let n := length ins.
  Let m := length outs.
  Let P : placement := {| pl_splitters := ss; pl_in := fun _ => false; pl_out := fun _ => false; pl_inputs := ins; pl_outputs := outs |}.

  Lemma ss_at i s : nth_error ss i = Some s -> is_splitter_at A T s.
  Proof. intros H. apply SS. eapply nth_error_In; exact H. Qed.
  Lemma ss_net i s : nth_error ss i = Some s -> exists nd, nth_error net i = Some nd.
  Proof. intros H. destruct (nth_error net i) as [nd|] eqn:E; [eauto|]. apply nth_error_None in E. rewrite (proj1 NO) in E. apply nth_error_None in E. congruence. Qed.
  Lemma net_ss i nd : nth_error net i = Some nd -> exists s, nth_error ss i = Some s.
  Proof. intros H. destruct (nth_error ss i) as [s|] eqn:E; [eauto|]. apply nth_error_None in E. rewrite <- (proj1 NO) in E. apply nth_error_None in E. congruence. Qed.
  Lemma ss_inj i j s s' b b' : nth_error ss i = Some s -> nth_error ss j = Some s' -> half s b = half s' b' -> i = j /\ b = b'.
  Proof.
    intros Hi Hj E. destruct (ss_at _ _ Hi) as (I1 & I2 & d & T1 & T2 & N1). destruct (ss_at _ _ Hj) as (J1 & J2 & e & U1 & U2 & N2).
    assert (b = b') by (destruct b, b'; cbn [half] in E; congruence). subst b'. split; [|reflexivity].
    assert (E1 : fst s = fst s').
    { destruct b; cbn [half] in E; [|exact E]. assert (d = e) by congruence. subst e. apply (neighbour_back A _ _ _ WA) in N1; [|exact I1]. apply (neighbour_back A _ _ _ WA) in N2; [|exact J1]. congruence. }
    destruct SS as (Nd & _). rewrite NoDup_nth_error in Nd. apply Nd.
    - rewrite map_length. apply nth_error_Some. congruence.
    - rewrite !nth_error_map, Hi, Hj. cbn. congruence.
  Qed.
  Lemma ss_all p : inside A p -> is_splitter_tile (T p) -> exists j s b, nth_error ss j = Some s /\ p = half s b.
  Proof.
    intros Hp Sp. destruct (T p) as [| | | |d h| |] eqn:Tp; try contradiction.
    assert (X : forall q, inside A q -> T q = Splitter d true -> exists j s, nth_error ss j = Some s /\ fst s = q).
    { intros q Hq Tq. destruct SS as (_ & _ & H). specialize (H q d Hq Tq). apply in_map_iff in H. destruct H as (s & E & Hs). apply In_nth_error in Hs. destruct Hs as [j Hj]. eauto. }
    destruct h.
    - destruct (X p Hp Tp) as (j & s & Hj & E). exists j, s, false. cbn [half]. split; [exact Hj|congruence].
    - pose proof VL as (_ & Pair & _). destruct (Pair p d false Hp Tp) as (q & Eq & Tq). cbn [mate_side negb] in Eq, Tq.
      assert (Hq : inside A q) by (eapply ahead_inside; exact Eq). destruct (X q Hq Tq) as (j & s & Hj & E). exists j, s, true. split; [exact Hj|].
      cbn [half]. apply (neighbour_back A _ _ _ WA) in Eq; [|exact Hp]. replace (opposite (clockwise d)) with (anticlockwise d) in Eq by (destruct d; reflexivity).
      destruct (ss_at _ _ Hj) as (I1 & I2 & e & T1 & T2 & N1). rewrite E in *. assert (e = d) by congruence. subst e. congruence.
  Qed.

  Lemma at_index {X} (l : list X) x : In x l -> exists j, (j < length l)%nat /\ nth_error l j = Some x.
  Proof. intros H. apply In_nth_error in H. destruct H as (j & Hj). exists j. split; [apply nth_error_Some; congruence|exact Hj]. Qed.
  Lemma source_in j p : nth_error ins j = Some p -> source_colour net 0 n (FromInput j) = Some 0 /\ start_of P (FromInput j) = Some (Enter p).
  Proof. intros H. cbn [source_colour start_of P pl_inputs]. rewrite H. assert (X : (j < n)%nat) by (apply nth_error_Some; congruence). apply Nat.ltb_lt in X. rewrite X. split; reflexivity. Qed.
  Lemma sink_out j p : nth_error outs j = Some p -> sink_colour net oc m (ToOutput j) = Some oc /\ finish_of P (ToOutput j) = Some (Leave p).
  Proof. intros H. cbn [sink_colour finish_of P pl_outputs]. rewrite H. assert (X : (j < m)%nat) by (apply nth_error_Some; congruence). apply Nat.ltb_lt in X. rewrite X. split; reflexivity. Qed.
  Lemma source_at i s b : nth_error ss i = Some s -> start_of P (FromSplitter i b) = Some (Exit (half s b)).
  Proof. intros H. cbn [start_of P pl_splitters pl_out]. rewrite H, xorb_false_r. reflexivity. Qed.
  Lemma sink_at i s b : nth_error ss i = Some s -> finish_of P (ToSplitter i b) = Some (Entrance (half s b)).
  Proof. intros H. cbn [finish_of P pl_splitters pl_in]. rewrite H, xorb_false_r. reflexivity. Qed.

  Lemma exit_inside p f : joined A T L (Exit p) f -> inside A p /\ is_splitter_tile (T p).
  Proof. intros (q & r & (Hp & d & h & Tp & _) & _). split; [exact Hp|]. rewrite Tp. exact Logic.I. Qed.
  Lemma entrance_inside p s : joined A T L s (Entrance p) -> inside A p /\ is_splitter_tile (T p).
  Proof. intros (q & r & _ & _ & (_ & Hp & Sp)). auto. Qed.
  Lemma leave_in p s : joined A T L s (Leave p) -> In p outs.
  Proof. intros (q & r & _ & _ & R). pose proof R as (-> & _). apply Outs. exact R. Qed.
  Lemma faces_no_line p f : faces_out A T p -> ~ joined A T L (Exit p) f.
  Proof. intros (d & h & Tp & En) (q & r & (_ & d' & h' & Tp' & En' & _) & _). congruence. Qed.

  (** The colour of the start of a line is the colour of its end. *)
  Lemma line_colours i s b f : nth_error ss i = Some s -> joined A T L (Exit (half s b)) f ->
    source_colour net 0 n (FromSplitter i b) = Some (match f with Leave _ => oc | Entrance _ => Z.of_nat i + 1 end).
  Proof.
    intros Hi J. destruct (ss_net i s Hi) as (nd & Hn). destruct (proj2 NO i s nd b Hi Hn) as [_ O]. cbn [source_colour]. rewrite Hn. unfold oc. rewrite (proj1 NO).
    inversion O as [q J' E|Ee Fo E|q J' E|X1 X2 E].
    - pose proof (joined_fun A T L _ _ _ J J') as X. subst f. reflexivity.
    - exfalso. exact (faces_no_line _ _ Fo J).
    - pose proof (joined_fun A T L _ _ _ J J') as X. subst f. reflexivity.
    - exfalso. exact (X1 f J).
  Qed.
  Lemma line_sink i s b st : nth_error ss i = Some s -> joined A T L st (Entrance (half s b)) -> (edge = false -> st <> Enter (half s b)) ->
    exists c, sink_colour net oc m (ToSplitter i b) = Some c /\ match st with Enter _ => c = 0 | Exit y => exists j sj bj, nth_error ss j = Some sj /\ y = half sj bj /\ c = Z.of_nat j + 1 end.
  Proof.
    intros Hi J Nb. destruct (ss_net i s Hi) as (nd & Hn). destruct (proj2 NO i s nd b Hi Hn) as [I _]. cbn [sink_colour]. rewrite Hn.
    inversion I as [q J' Hq E|j sj bj Hj J' E|X E].
    - pose proof (joined_inj A T L WA VL _ _ _ J J') as Y. subst st. eauto.
    - pose proof (joined_inj A T L WA VL _ _ _ J J') as Y. subst st. exists (Z.of_nat j + 1). split; [reflexivity|]. eauto 6.
    - exfalso. destruct (X st J) as [Ee Es]. exact (Nb Ee Es).
  Qed.

  Definition good (k : sink) (s : source) : Prop :=
    exists c st f, sink_colour net oc m k = Some c /\ source_colour net 0 n s = Some c /\ start_of P s = Some st /\ finish_of P k = Some f /\ joined A T L st f.

  Lemma sink_fed k : sink_colour net oc m k <> None -> exists s, good k s.
  Proof.
    intros Hk. destruct k as [j|i b].
    - cbn [sink_colour] in Hk. destruct (Nat.ltb_spec j m) as [Hj|]; [|contradiction]. destruct (nth_error outs j) as [p|] eqn:Ep; [|apply nth_error_None in Ep; unfold m in Hj; lia].
      destruct (sink_out j p Ep) as [C F]. assert (R : reaches A T (Leave p) p) by (apply Outs; eapply nth_error_In; exact Ep).
      destruct (outlet_joined A T L WA VL p R) as ([q|y] & J); [exfalso; exact (NT q p J)|].
      destruct (exit_inside _ _ J) as [Iy Sy]. destruct (ss_all y Iy Sy) as (i & s & b & Hi & ->). exists (FromSplitter i b), oc, (Exit (half s b)), (Leave p).
      split; [exact C|]. split; [exact (line_colours i s b _ Hi J)|]. split; [apply source_at; exact Hi|]. auto.
    - cbn [sink_colour] in Hk. destruct (nth_error net i) as [nd|] eqn:Hn; [|contradiction]. destruct (net_ss i nd Hn) as (s & Hi). destruct (proj2 NO i s nd b Hi Hn) as [I _].
      assert (C : sink_colour net oc m (ToSplitter i b) = pick (fst nd) b) by (cbn [sink_colour]; rewrite Hn; reflexivity).
      inversion I as [q J Hq E|j sj bj Hj J E|X E].
      + assert (Bq : begins A T (Enter q) q) by (destruct J as (q' & r & B & _); assert (q' = q) by apply B; subst q'; exact B).
        assert (Hin : In q ins).
        { apply Ins. split; [exact Bq|]. destruct J as (q' & r & B & Ca & R). assert (q' = q) by apply B. subst q'. destruct (T q) eqn:Tq; try (right; intros []; fail). left. apply Hq.
          assert (r = half s b) by apply R. subst r. inversion Ca as [x Ex|x y z S C'|x y z S C']; subst; [reflexivity| |]; exfalso; destruct S as (_ & S).
          - destruct S as (Ns & _). apply Ns. rewrite Tq. exact Logic.I.
          - destruct S as (d' & Te & _). congruence. }
        destruct (at_index ins q Hin) as (j & _ & Hj). destruct (source_in j q Hj) as [C2 S2]. exists (FromInput j), 0, (Enter q), (Entrance (half s b)).
        split; [rewrite C; symmetry; exact E|]. split; [exact C2|]. split; [exact S2|]. split; [apply sink_at; exact Hi|exact J].
      + exists (FromSplitter j bj), (Z.of_nat j + 1), (Exit (half sj bj)), (Entrance (half s b)). split; [rewrite C; symmetry; exact E|].
        split; [exact (line_colours j sj bj _ Hj J)|]. split; [apply source_at; exact Hj|]. split; [apply sink_at; exact Hi|exact J].
      + exfalso. apply Hk. symmetry. exact E.
  Qed.

  Definition all_sinks : list sink := (map ToOutput (seq 0 m) ++ flat_map (fun i => [ToSplitter i false; ToSplitter i true]) (seq 0 (length net)))%list.
  Lemma all_sinks_in k : sink_colour net oc m k <> None -> In k all_sinks.
  Proof.
    intros Hk. unfold all_sinks. apply in_app_iff. destruct k as [j|i b]; cbn [sink_colour] in Hk.
    - left. destruct (Nat.ltb_spec j m); [|contradiction]. apply in_map. apply in_seq. lia.
    - right. destruct (nth_error net i) eqn:E; [|contradiction]. assert (X : (i < length net)%nat) by (apply nth_error_Some; congruence). apply in_flat_map. exists i. split; [apply in_seq; lia|]. destruct b; cbn; auto.
  Qed.

  Lemma start_inj s s' st : start_of P s = Some st -> start_of P s' = Some st -> s = s'.
  Proof.
    destruct s as [j|i b], s' as [j'|i' b']; cbn [start_of P pl_inputs pl_splitters pl_out]; rewrite ?xorb_false_r.
    - destruct (nth_error ins j) as [p|] eqn:E1; [|discriminate]. destruct (nth_error ins j') as [p'|] eqn:E2; [|discriminate]. cbn [option_map]. intros [= <-] [= <-].
      f_equal. apply (proj1 (NoDup_nth_error ins) (proj1 Ins)); [apply nth_error_Some; congruence|congruence].
    - destruct (nth_error ins j); [|discriminate]. destruct (nth_error ss i'); [|discriminate]. cbn [option_map]. intros [= <-]. discriminate.
    - destruct (nth_error ins j'); [|discriminate]. destruct (nth_error ss i); [|discriminate]. cbn [option_map]. intros [= <-]. discriminate.
    - destruct (nth_error ss i) as [s|] eqn:E1; [|discriminate]. destruct (nth_error ss i') as [s'|] eqn:E2; [|discriminate]. cbn [option_map]. intros [= <-] [= E].
      destruct (ss_inj i i' s s' b b' E1 E2 (eq_sym E)) as [-> ->]. reflexivity.
  Qed.
  Lemma finish_inj k k' f : finish_of P k = Some f -> finish_of P k' = Some f -> k = k'.
  Proof.
    destruct k as [j|i b], k' as [j'|i' b']; cbn [finish_of P pl_outputs pl_splitters pl_in]; rewrite ?xorb_false_r.
    - destruct (nth_error outs j) as [p|] eqn:E1; [|discriminate]. destruct (nth_error outs j') as [p'|] eqn:E2; [|discriminate]. cbn [option_map]. intros [= <-] [= <-].
      f_equal. apply (proj1 (NoDup_nth_error outs) (proj1 Outs)); [apply nth_error_Some; congruence|congruence].
    - destruct (nth_error outs j); [|discriminate]. destruct (nth_error ss i'); [|discriminate]. cbn [option_map]. intros [= <-]. discriminate.
    - destruct (nth_error outs j'); [|discriminate]. destruct (nth_error ss i); [|discriminate]. cbn [option_map]. intros [= <-]. discriminate.
    - destruct (nth_error ss i) as [s|] eqn:E1; [|discriminate]. destruct (nth_error ss i') as [s'|] eqn:E2; [|discriminate]. cbn [option_map]. intros [= <-] [= E].
      destruct (ss_inj i i' s s' b b' E1 E2 (eq_sym E)) as [-> ->]. reflexivity.
  Qed.

  Lemma source_used s : source_colour net 0 n s <> None -> exists k st f, sink_colour net oc m k <> None /\ start_of P s = Some st /\ finish_of P k = Some f /\ joined A T L st f.
  Proof.
    intros Hs.
    assert (To : forall st f, joined A T L st f -> (forall p, st = Enter p -> In p ins) -> exists k, sink_colour net oc m k <> None /\ finish_of P k = Some f).
    { intros st [p|y] J Hin.
      - destruct (at_index outs p (leave_in p st J)) as (j & _ & Hj). destruct (sink_out j p Hj) as [C F]. exists (ToOutput j). split; [congruence|exact F].
      - destruct (entrance_inside _ _ J) as [Iy Sy]. destruct (ss_all y Iy Sy) as (i & s' & b & Hi & ->). exists (ToSplitter i b). split; [|apply sink_at; exact Hi].
        destruct (line_sink i s' b st Hi J) as (c & C & _); [|congruence]. intros Ee ->. destruct (proj1 (proj2 Ins _) (Hin _ eq_refl)) as [_ [X|X]]; [congruence|contradiction]. }
    destruct s as [j|i b]; cbn [source_colour] in Hs.
    - destruct (Nat.ltb_spec j n) as [Hj|]; [|contradiction]. destruct (nth_error ins j) as [p|] eqn:Ep; [|apply nth_error_None in Ep; unfold n in Hj; lia].
      destruct (source_in j p Ep) as [_ S]. assert (Bp : begins A T (Enter p) p) by (apply Ins; eapply nth_error_In; exact Ep).
      destruct (trace_forward A T L WA VL _ _ Bp) as (f & r & C & R). assert (J : joined A T L (Enter p) f) by (exists p, r; auto).
      destruct (To _ _ J) as (k & Hk & F); [intros p' [= <-]; eapply nth_error_In; exact Ep|]. exists k, (Enter p), f. auto.
    - destruct (nth_error net i) as [nd|] eqn:Hn; [|contradiction]. destruct (net_ss i nd Hn) as (s & Hi). destruct (proj2 NO i s nd b Hi Hn) as [_ O].
      assert (X : exists f, joined A T L (Exit (half s b)) f).
      { inversion O as [q J' E|Ee Fo E|q J' E|X1 X2 E]; eauto; exfalso.
        - destruct (ss_at i s Hi) as (I1 & I2 & _). apply (NF Ee (half s b)); [destruct b; assumption|exact Fo].
        - apply Hs. symmetry. exact E. }
      destruct X as (f & J). destruct (To _ _ J) as (k & Hk & F); [discriminate|]. exists k, (Exit (half s b)), f. split; [exact Hk|]. split; [apply source_at; exact Hi|auto].
  Qed.

  Theorem read_realises : exists w, realises_by A T L net 0 n oc m P w.
  Proof.
    destruct (finite_choice sink_dec (fun k s => sink_colour net oc m k <> None -> good k s) (FromInput 0) all_sinks) as (w & Hw).
    { intros k _. destruct (sink_colour net oc m k) as [c|] eqn:E; [|exists (FromInput 0); congruence]. destruct (sink_fed k ltac:(congruence)) as (s & G). exists s. auto. }
    assert (G : forall k, sink_colour net oc m k <> None -> good k (w k)) by (intros k Hk; apply Hw; [apply all_sinks_in; exact Hk|exact Hk]).
    exists w. destruct SS as (S1 & S2 & S3).
    split; [symmetry; apply NO|]. split; [exact S1|]. split; [exact S2|]. split; [exact S3|]. split; [reflexivity|]. split; [apply Ins|].
    split; [intros p Hp; apply Ins; exact Hp|]. split.
    { intros p Hp. assert (D : is_splitter_tile (T p) \/ ~ is_splitter_tile (T p)) by (destruct (T p); cbn; auto).
      destruct D as [D|D]; [right; exact D|]. left. apply (proj2 (proj2 Ins p)). auto. }
    split; [reflexivity|]. split; [apply Outs|]. split; [apply Outs|]. split; [|].
    - split; [|split].
      + intros k c Hk. destruct (G k ltac:(congruence)) as (c' & st & f & E1 & E2 & _). congruence.
      + intros k k' Hk Hk' E. destruct (G k Hk) as (c & st & f & _ & _ & E1 & E2 & J), (G k' Hk') as (c' & st' & f' & _ & _ & E1' & E2' & J'). rewrite E in E1. assert (st' = st) by congruence. subst st'.
        pose proof (joined_fun A T L _ _ _ J J') as X. subst f'. eapply finish_inj; eassumption.
      + intros s Hs. destruct (source_used s Hs) as (k & st & f & Hk & E1 & E2 & J). exists k. split; [exact Hk|]. destruct (G k Hk) as (c' & st' & f' & _ & _ & E1' & E2' & J'). assert (f' = f) by congruence. subst f'.
        pose proof (joined_inj A T L WA VL _ _ _ J J') as X. subst st'. eapply start_inj; eassumption.
    - intros k Hk. destruct (G k Hk) as (c & st & f & _ & _ & E1 & E2 & J). eauto.
  Qed.
End Realise.
