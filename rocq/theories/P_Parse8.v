(** Proofs about parse_network: a balanced layout is read as a network that balances. *)
From Coq Require Import ZArith QArith List Bool Lia Lqa Permutation.
From Verif Require Import P_Network P_Network2 P_Benes P_Similar P_Wiring.
From Verif Require Import Spec_Tile Spec_Layout M_Json M_Tile M_Dict M_Network M_Template Spec_Network Spec_Balancer Spec_Flow Spec_Interchange Spec_Parse M_Parse P_Tile P_Layout P_List P_Template P_Walk P_Trace P_Uniq P_Grid P_Flow P_Lossless P_Parse4 P_Parse6 P_Parse7.
Import ListNotations.
Open Scope Z_scope.

Lemma start_dec (s t : start) : {s = t} + {s <> t}.
Proof. decide equality; apply pos_dec. Qed.
Lemma finish_dec (s t : finish) : {s = t} + {s <> t}.
Proof. decide equality; apply pos_dec. Qed.
Lemma source_dec (s t : source) : {s = t} + {s <> t}.
Proof. decide equality; try apply Nat.eq_dec; apply Bool.bool_dec. Qed.

Lemma qsum_ext {X} (f g : X -> Q) l : (forall x, In x l -> f x == g x)%Q -> (fold_right Qplus 0 (map f l) == fold_right Qplus 0 (map g l))%Q.
Proof. induction l as [|x l IH]; intros H; [reflexivity|]. cbn [map fold_right]. rewrite (H x (or_introl eq_refl)), IH; [reflexivity|]. intros y Hy. apply H. right. exact Hy. Qed.

Section Converse.
  Variables (A : area) (T : layout) (L : Z).
  Hypothesis WA : wf_area A.
  Hypothesis VL : valid_layout A T L.
  Variables (net : network) (ic oc : Z) (n m : nat) (P : placement) (w : sink -> source).
  Hypothesis HR : realises_by A T L net ic n oc m P w.
  Hypothesis Cm : complete net.
  (** Which belts have the same colour. *)
  Hypothesis Own : forall i b j b' c, source_colour net ic n (FromSplitter i b) = Some c -> source_colour net ic n (FromSplitter j b') = Some c -> c <> oc -> i = j.
  Hypothesis Nio : ic <> oc.
  Hypothesis NoProd : forall i b, source_colour net ic n (FromSplitter i b) <> Some ic.
  Hypothesis NoCons : forall i b, sink_colour net oc m (ToSplitter i b) <> Some oc.
  Hypothesis BL : balanced_layout A T L.

  Lemma all_used i nd b : nth_error net i = Some nd -> sink_colour net oc m (ToSplitter i b) <> None /\ source_colour net ic n (FromSplitter i b) <> None.
  Proof. intros Hi. destruct (Cm nd) as (C1 & C2 & C3 & C4); [eapply nth_error_In; eauto|]. cbn [sink_colour source_colour]. rewrite Hi. destruct b; cbn [pick]; auto. Qed.
  Lemma all_inlets p : begins A T (Enter p) p -> In p (pl_inputs P).
  Proof.
    intros B. pose proof HR as (_ & _ & _ & _ & _ & _ & _ & Hinc & _). destruct (Hinc p B) as [H|Sp]; [exact H|].
    destruct (trace_forward A T L WA VL _ _ B) as (f & r & C & R). assert (J : joined A T L (Enter p) f) by (exists p, r; auto).
    destruct (complete_lines A T L net ic n oc m P w WA VL Cm HR _ _ J) as (k & Hk & F). destruct HR as (_ & _ & _ & _ & _ & _ & _ & _ & _ & _ & _ & _ & Hj).
    destruct (Hj k Hk) as (s & f' & E1 & E2 & J'). assert (f' = f) by congruence. subst f'. pose proof (joined_inj A T L WA VL _ _ _ J J') as X. subst s.
    destruct (w k) as [j|i b]; cbn [start_of] in E1.
    - destruct (nth_error (pl_inputs P) j) as [q|] eqn:Eq; [|discriminate]. cbn [option_map] in E1. assert (q = p) by congruence. subst q. eapply nth_error_In; exact Eq.
    - destruct (nth_error (pl_splitters P) i); discriminate.
  Qed.
  Lemma inlets_listed : inlets A T (pl_inputs P).
  Proof. split; [apply HR|]. intros p. split; [apply HR|apply all_inlets]. Qed.
  Lemma outlets_listed : outlets A T (pl_outputs P).
  Proof. split; apply HR. Qed.

  Lemma source_kind s c : source_colour net ic n s = Some c -> c <> ic -> exists i b, s = FromSplitter i b.
  Proof. destruct s as [j|i b]; [|eauto]. cbn [source_colour]. destruct (j <? n)%nat; [congruence|discriminate]. Qed.
  Lemma source_input s : source_colour net ic n s = Some ic -> exists j, s = FromInput j /\ (j < n)%nat.
  Proof. destruct s as [j|i b]; intros H; [|exfalso; exact (NoProd i b H)]. cbn [source_colour] in H. destruct (Nat.ltb_spec j n); [eauto|discriminate]. Qed.
  Lemma sink_output k : sink_colour net oc m k = Some oc -> exists j, k = ToOutput j /\ (j < m)%nat.
  Proof. destruct k as [j|i b]; intros H; [|exfalso; exact (NoCons i b H)]. cbn [sink_colour] in H. destruct (Nat.ltb_spec j m); [eauto|discriminate]. Qed.

  Variables (w' : sink -> source) (flow : source -> Q).
  Hypothesis W' : wiring net ic n oc m w'.
  Hypothesis St : steady net ic n oc m w' flow.

  Lemma steady_two i nd b : nth_error net i = Some nd -> (2 * flow (FromSplitter i b) == flow (w' (ToSplitter i false)) + flow (w' (ToSplitter i true)))%Q.
  Proof.
    intros Hi. destruct (all_used i nd b Hi) as [_ U]. pose proof (St i b U) as H. unfold outputs_of, arriving in H.
    destruct (all_used i nd false Hi) as [F1 F2], (all_used i nd true Hi) as [G1 G2].
    destruct (source_colour net ic n (FromSplitter i false)); [|contradiction]. destruct (source_colour net ic n (FromSplitter i true)); [|contradiction].
    destruct (sink_colour net oc m (ToSplitter i false)); [|contradiction]. destruct (sink_colour net oc m (ToSplitter i true)); [|contradiction].
    exact H.
  Qed.
  Lemma same_flow i nd b b' : nth_error net i = Some nd -> (flow (FromSplitter i b) == flow (FromSplitter i b'))%Q.
  Proof. intros Hi. pose proof (steady_two i nd b Hi). pose proof (steady_two i nd b' Hi). lra. Qed.

  Lemma network_share j : (j < m)%nat -> (inject_Z (Z.of_nat m) * flow (w' (ToOutput j)) == total_input n flow)%Q.
  Proof.
    intros Hj. pose proof HR as (Hlen & Hnd & Hsp & Hall & Hin & Hind & Hinb & Hinc & Hout & Houtd & Houti & (W1 & W2 & W3) & Hjoin).
    (* the end of the line of each input *)
    destruct (finite_choice source_dec (fun s k => sink_colour net oc m k = Some ic /\ w k = s) (ToOutput 0) (map FromInput (seq 0 n))) as (v & Hv).
    { intros s Hs. apply in_map_iff in Hs. destruct Hs as (i & <- & Hi). apply in_seq in Hi.
      assert (C : source_colour net ic n (FromInput i) = Some ic) by (cbn [source_colour]; destruct (Nat.ltb_spec i n); [reflexivity|lia]).
      destruct (W3 (FromInput i) ltac:(congruence)) as (k & Hk & E). exists k. split; [|exact E]. destruct (sink_colour net oc m k) as [c|] eqn:Ek; [|contradiction].
      rewrite <- C, <- E. symmetry. apply W1. exact Ek. }
    set (starts := (map Enter (pl_inputs P) ++ flat_map (fun s : pos * pos => [Exit (fst s); Exit (snd s)]) (pl_splitters P))%list).
    set (finishes := (map Leave (pl_outputs P) ++ flat_map (fun s : pos * pos => [Entrance (fst s); Entrance (snd s)]) (pl_splitters P))%list).
    assert (Sin : forall src st, start_of P src = Some st -> In st starts).
    { intros src st E. apply in_app_iff. destruct src as [i|i b]; cbn [start_of] in E.
      - left. destruct (nth_error (pl_inputs P) i) eqn:Ei; [|discriminate]. apply Some_inj in E. subst st. apply in_map. eapply nth_error_In; exact Ei.
      - right. destruct (nth_error (pl_splitters P) i) as [s|] eqn:Ei; [|discriminate]. apply Some_inj in E. subst st. apply in_flat_map. exists s. split; [eapply nth_error_In; exact Ei|]. destruct (xorb b _); cbn; auto. }
    assert (Fin : forall k f, finish_of P k = Some f -> In f finishes).
    { intros k f E. apply in_app_iff. destruct k as [i|i b]; cbn [finish_of] in E.
      - left. destruct (nth_error (pl_outputs P) i) eqn:Ei; [|discriminate]. apply Some_inj in E. subst f. apply in_map. eapply nth_error_In; exact Ei.
      - right. destruct (nth_error (pl_splitters P) i) as [s|] eqn:Ei; [|discriminate]. apply Some_inj in E. subst f. apply in_flat_map. exists s. split; [eapply nth_error_In; exact Ei|]. destruct (xorb b _); cbn; auto. }
    destruct (finite_choice start_dec (fun st src => start_of P src = Some st) (FromInput 0) starts) as (g & Hg).
    { intros st Hs. apply in_app_iff in Hs. destruct Hs as [Hs|Hs].
      - apply in_map_iff in Hs. destruct Hs as (p & <- & Hp). apply In_nth_error in Hp. destruct Hp as (i & Hi). exists (FromInput i). cbn [start_of]. rewrite Hi. reflexivity.
      - apply in_flat_map in Hs. destruct Hs as (s & Hs & He). apply In_nth_error in Hs. destruct Hs as (i & Hi).
        assert (X : exists b, st = Exit (half s b)) by (destruct He as [<-|[<-|[]]]; [exists false|exists true]; reflexivity). destruct X as (b & ->).
        exists (FromSplitter i (xorb b (pl_out P i))). cbn [start_of]. rewrite Hi. cbn [option_map]. rewrite xorb_assoc, xorb_nilpotent, xorb_false_r. reflexivity. }
    destruct (finite_choice finish_dec (fun f k => finish_of P k = Some f) (ToOutput 0) finishes) as (h & Hh).
    { intros f Hs. apply in_app_iff in Hs. destruct Hs as [Hs|Hs].
      - apply in_map_iff in Hs. destruct Hs as (p & <- & Hp). apply In_nth_error in Hp. destruct Hp as (i & Hi). exists (ToOutput i). cbn [finish_of]. rewrite Hi. reflexivity.
      - apply in_flat_map in Hs. destruct Hs as (s & Hs & He). apply In_nth_error in Hs. destruct Hs as (i & Hi).
        assert (X : exists b, f = Entrance (half s b)) by (destruct He as [<-|[<-|[]]]; [exists false|exists true]; reflexivity). destruct X as (b & ->).
        exists (ToSplitter i (xorb b (pl_in P i))). cbn [finish_of]. rewrite Hi. cbn [option_map]. rewrite xorb_assoc, xorb_nilpotent, xorb_false_r. reflexivity. }
    assert (Geq : forall src st, start_of P src = Some st -> g st = src).
    { intros src st E. apply (starts_inj A WA T L net ic oc n m P w HR _ _ st); [apply Hg; apply (Sin src); exact E|exact E]. }
    assert (Heq : forall k f, finish_of P k = Some f -> h f = k).
    { intros k f E. apply (finishes_inj A WA T L net ic oc n m P w HR _ _ f); [apply Hh; apply (Fin k); exact E|exact E]. }
    set (into := fun st => match g st with FromInput i => flow (w' (v (FromInput i))) | src => flow src end).
    set (from := fun f => match h f with ToOutput i => flow (w (ToOutput i)) | k => flow (w' k) end).
    assert (SL : steady_layout A T L into from).
    { split.
      - intros st f J. destruct (complete_lines A T L net ic n oc m P w WA VL Cm HR _ _ J) as (k & Hk & F). destruct (Hjoin k Hk) as (st' & f' & E1 & E2 & J').
        assert (f' = f) by congruence. subst f'. pose proof (joined_inj A T L WA VL _ _ _ J J') as X. subst st'. unfold into, from. rewrite (Geq _ _ E1), (Heq _ _ F).
        destruct (sink_colour net oc m k) as [c|] eqn:Ek; [|contradiction]. pose proof (W1 k c Ek) as Es. destruct W' as (V1 & V2 & V3). pose proof (V1 k c Ek) as Es'.
        destruct k as [i|i b].
        + assert (c = oc) by (cbn [sink_colour] in Ek; destruct (i <? m)%nat; congruence). subst c. destruct (source_kind _ _ Es) as (i' & b' & E); [congruence|]. rewrite E. reflexivity.
        + destruct (w (ToSplitter i b)) as [i'|i' b'] eqn:E.
          * assert (Hi' : (i' < n)%nat) by (cbn [source_colour] in Es; destruct (Nat.ltb_spec i' n); [assumption|discriminate]).
            destruct (Hv (FromInput i')) as [Hv1 Hv2]; [apply in_map, in_seq; lia|]. assert (X : v (FromInput i') = ToSplitter i b) by (apply W2; congruence). rewrite X. reflexivity.
          * assert (c <> ic) by (intros ->; exact (NoProd _ _ Es)). assert (c <> oc) by (intros ->; exact (NoCons _ _ Ek)).
            destruct (source_kind _ _ Es') as (j' & c' & E'); [assumption|]. rewrite E' in Es' |- *. pose proof (Own _ _ _ _ _ Es Es' ltac:(assumption)) as X. subst j'.
            cbn [source_colour] in Es. destruct (nth_error net i') as [nd|] eqn:Hi'; [|discriminate]. exact (same_flow i' nd c' b' Hi').
      - intros s Hs. destruct Hs as (I1 & I2 & d & T1 & T2 & N1).
        destruct (halves_all A WA T L VL net ic oc n m P w HR (fst s) d true I1 T1) as (i & s' & Hi & Es & _). cbn [negb half] in Es.
        assert (s' = s). { destruct (Hsp s' (nth_error_In _ _ Hi)) as (_ & _ & d' & T1' & _ & N1'). rewrite <- Es in T1', N1'. assert (d' = d) by congruence. subst d'.
          destruct s as [a b], s' as [a' b']. cbn [fst snd] in *. congruence. } subst s'. clear Es.
        destruct (spl_el A T L net ic oc n m P w HR i s Hi) as (nd & Hn).
        assert (E1 : forall b, into (Exit (half s b)) = flow (FromSplitter i (xorb b (pl_out P i)))).
        { intros b. unfold into. rewrite (Geq (FromSplitter i (xorb b (pl_out P i)))); [reflexivity|]. cbn [start_of]. rewrite Hi. cbn [option_map]. rewrite xorb_assoc, xorb_nilpotent, xorb_false_r. reflexivity. }
        assert (E2 : forall b, from (Entrance (half s b)) = flow (w' (ToSplitter i (xorb b (pl_in P i))))).
        { intros b. unfold from. rewrite (Heq (ToSplitter i (xorb b (pl_in P i)))); [reflexivity|]. cbn [finish_of]. rewrite Hi. cbn [option_map]. rewrite xorb_assoc, xorb_nilpotent, xorb_false_r. reflexivity. }
        pose proof (E1 false) as X1. pose proof (E1 true) as X2. pose proof (E2 false) as Y1. pose proof (E2 true) as Y2. cbn [half] in X1, X2, Y1, Y2. rewrite X1, X2, Y1, Y2.
        pose proof (steady_two i nd false Hn) as Q1. pose proof (same_flow i nd false true Hn) as Q2. destruct (pl_out P i), (pl_in P i); cbn [xorb]; split; lra. }
    (* the output that carries this belt *)
    assert (Cj : sink_colour net oc m (ToOutput j) = Some oc) by (cbn [sink_colour]; destruct (Nat.ltb_spec j m); [reflexivity|lia]).
    destruct W' as (V1 & V2 & V3). pose proof (V1 _ _ Cj) as Cs. destruct (W3 (w' (ToOutput j)) ltac:(congruence)) as (k & Hk & Ek).
    assert (Ck : sink_colour net oc m k = Some oc). { destruct (sink_colour net oc m k) as [c|] eqn:E; [|contradiction]. pose proof (W1 k c E). congruence. }
    destruct (sink_output k Ck) as (j' & -> & Hj'). rewrite <- Ek.
    destruct (nth_error (pl_outputs P) j') as [p|] eqn:Ep; [|apply nth_error_None in Ep; lia].
    pose proof (BL into from (pl_inputs P) (pl_outputs P) SL inlets_listed outlets_listed p (nth_error_In _ _ Ep)) as Q.
    assert (Ef : from (Leave p) = flow (w (ToOutput j'))).
    { unfold from. rewrite (Heq (ToOutput j')); [reflexivity|]. cbn [finish_of]. rewrite Ep. reflexivity. }
    rewrite Ef, Hout in Q. rewrite Q. clear Q Ef.
    (* the sum of the inputs *)
    rewrite <- (qsum_nth _ (fun q => into (Enter q)) (pl_inputs P) (fun i => flow (w' (v (FromInput i))))).
    2:{ intros i q Hi. unfold into. rewrite (Geq (FromInput i)); [reflexivity|]. cbn [start_of]. rewrite Hi. reflexivity. }
    rewrite Hin. unfold total_input. rewrite <- (map_map (fun i => w' (v (FromInput i))) flow), <- (map_map FromInput flow). apply qsum_perm. apply Permutation_map.
    apply Permutation_sym. apply NoDup_Permutation_bis.
    - apply FinFun.Injective_map_NoDup; [intros a b [= E]; exact E|apply seq_NoDup].
    - rewrite !map_length. lia.
    - intros s Hs. apply in_map_iff in Hs. destruct Hs as (i & <- & Hi). apply in_seq in Hi.
      assert (C : source_colour net ic n (FromInput i) = Some ic) by (cbn [source_colour]; destruct (Nat.ltb_spec i n); [reflexivity|lia]).
      destruct (V3 (FromInput i) ltac:(congruence)) as (k' & Hk' & E'). destruct (sink_colour net oc m k') as [c|] eqn:Ec; [|contradiction].
      pose proof (V1 _ _ Ec) as X. rewrite E' in X. assert (c = ic) by congruence. subst c. pose proof (W1 _ _ Ec) as Y. destruct (source_input _ Y) as (i' & Ei' & Hi').
      apply in_map_iff. exists i'. split; [|apply in_seq; lia]. destruct (Hv (FromInput i')) as [Hv1 Hv2]; [apply in_map, in_seq; lia|].
      assert (Z1 : v (FromInput i') = k') by (apply W2; congruence). rewrite Z1. exact E'.
  Qed.
End Converse.

(** ** The colours of a network that was read *)
Section Read.
  Variables (A : area) (T : layout) (L : Z) (edge : bool).
  Hypothesis WA : wf_area A.
  Hypothesis VL : valid_layout A T L.
  Variables (ss : list (pos * pos)) (net : network).
  Hypothesis SS : all_splitters A T ss.
  Hypothesis NO : network_of A T L edge ss net.
  Variables (ins outs : list pos).
  Hypothesis Ins : counted_inlets A T edge ins.
  Hypothesis Outs : outlets A T outs.
  Hypothesis NT : no_through A T L.
  Hypothesis NF : none_face_out A T edge.
  Let k := Z.of_nat (length net).

  Lemma read_source n i b c : source_colour net 0 n (FromSplitter i b) = Some c -> (c = Z.of_nat i + 1 \/ c = k + 1) /\ Z.of_nat i + 1 <= k.
  Proof using NO.
    cbn [source_colour]. intros H. destruct (nth_error net i) as [nd|] eqn:Hn; [|discriminate].
    assert (Li : (i < length net)%nat) by (apply nth_error_Some; congruence). split; [|unfold k; lia].
    destruct (nth_error ss i) as [s|] eqn:Hi; [|apply nth_error_None in Hi; rewrite <- (proj1 NO) in Hi; lia].
    destruct (proj2 NO i s nd b Hi Hn) as [_ O]. rewrite H in O. unfold k. rewrite (proj1 NO). inversion O; auto.
  Qed.
  Lemma read_sink oc m i b c : sink_colour net oc m (ToSplitter i b) = Some c -> 0 <= c <= k.
  Proof using NO.
    cbn [sink_colour]. intros H. destruct (nth_error net i) as [nd|] eqn:Hn; [|discriminate].
    assert (Li : (i < length net)%nat) by (apply nth_error_Some; congruence).
    destruct (nth_error ss i) as [s|] eqn:Hi; [|apply nth_error_None in Hi; rewrite <- (proj1 NO) in Hi; lia].
    destruct (proj2 NO i s nd b Hi Hn) as [I _]. rewrite H in I. unfold k. inversion I as [q J Hq E|j sj bj Hj J E|]; [lia|].
    assert ((j < length ss)%nat) by (apply nth_error_Some; congruence). rewrite (proj1 NO). lia.
  Qed.
  Theorem read_balance : complete net -> (balances net 0 (length ins) (k + 1) (length outs) <-> balanced_layout A T L).
  Proof.
    intros Cm. destruct (read_realises A T L edge WA VL ss net SS NO ins outs Ins Outs NT NF) as (w & R). split.
    - intros B. exact (realised_balanced A T L net _ _ _ _ _ w WA VL Cm B R).
    - intros BL w' flow W' S j Hj. refine (network_share A T L WA VL net 0 (k + 1) _ _ _ w R Cm _ _ _ _ BL w' flow W' S j Hj).
      + intros i b i' b' c H1 H2 Nc. destruct (read_source _ _ _ _ H1) as [[E1|E1] _], (read_source _ _ _ _ H2) as [[E2|E2] _]; lia.
      + unfold k. lia.
      + intros i b H. destruct (read_source _ _ _ _ H) as [_ _]. destruct (read_source _ _ _ _ H) as [[E|E] _]; unfold k in E; lia.
      + intros i b H. apply read_sink in H. lia.
  Qed.
End Read.

Lemma complete_similar net listed tidy : Forall2 same_node net listed -> Permutation listed tidy -> (complete net <-> complete tidy).
Proof.
  intros F Pm. transitivity (complete listed).
  - clear Pm. assert (E : forall l : network, complete l <-> Forall (fun nd : splitter => fst (fst nd) <> None /\ snd (fst nd) <> None /\ fst (snd nd) <> None /\ snd (snd nd) <> None) l) by (intros l; unfold complete; rewrite Forall_forall; reflexivity).
    rewrite !E. clear E. induction F as [|x y l r H F IH]; [split; constructor|]. rewrite !Forall_cons_iff, IH.
    assert (X : (fst (fst x) <> None /\ snd (fst x) <> None /\ fst (snd x) <> None /\ snd (snd x) <> None) <-> (fst (fst y) <> None /\ snd (fst y) <> None /\ fst (snd y) <> None /\ snd (snd y) <> None)).
    { destruct H as [[-> | ->] [-> | ->]]; cbn [fst snd]; tauto. }
    rewrite X. reflexivity.
  - unfold complete. split; intros H nd Hnd; apply H; [apply (Permutation_in _ (Permutation_sym Pm)); exact Hnd|apply (Permutation_in _ Pm); exact Hnd].
Qed.
