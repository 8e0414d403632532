(** A layout that realises a complete balancing network balances. *)
From Coq Require Import ZArith QArith List Bool Lia Permutation.
From Verif Require Import Spec_Tile Spec_Layout M_Network Spec_Network Spec_Balancer P_Layout P_List P_Walk P_Trace.
Import ListNotations.
Local Open Scope nat_scope.

Lemma qsum_perm l k : Permutation l k -> (fold_right Qplus 0 l == fold_right Qplus 0 k)%Q.
Proof.
  induction 1 as [|x l k _ IH|x y l|l k r _ IH1 _ IH2]; cbn [fold_right].
  - reflexivity.
  - rewrite IH. reflexivity.
  - rewrite !Qplus_assoc, (Qplus_comm y x). reflexivity.
  - rewrite IH1. exact IH2.
Qed.
Lemma qsum_nth (A : Type) (f : A -> Q) (l : list A) : forall h : nat -> Q,
  (forall j x, nth_error l j = Some x -> h j == f x)%Q ->
  (fold_right Qplus 0 (map h (seq 0 (length l))) == fold_right Qplus 0 (map f l))%Q.
Proof.
  induction l as [|x l IH]; intros h H; [reflexivity|]. cbn [length seq map fold_right]. rewrite (H 0%nat x eq_refl).
  rewrite <- seq_shift, map_map. rewrite (IH (fun j => h (S j))); [reflexivity|]. intros j y Hj. apply (H (S j) y Hj).
Qed.

Theorem realised_balanced A T L net ic n oc m P w :
  wf_area A -> valid_layout A T L -> complete net -> balances net ic n oc m ->
  realises_by A T L net ic n oc m P w -> balanced_layout A T L.
Proof.
  intros WA VL Cm Bal (Hlen & Hnd & Hsp & Hall & Hin & Hind & Hinb & Hinc & Hout & Houtd & Houti & Ww & Hjoin).
  intros into from ins outs (St1 & St2) [Ni Ii] [No Io] p Hp.
  set (flow := fun s => match start_of P s with Some x => into x | None => 0%Q end).
  assert (Mem : forall i nd, nth_error net i = Some nd -> exists s, nth_error (pl_splitters P) i = Some s /\ is_splitter_at A T s).
  { intros i nd Hi. destruct (nth_error (pl_splitters P) i) as [s|] eqn:E.
    - exists s. split; [reflexivity|]. apply Hsp. eapply nth_error_In; eauto.
    - apply nth_error_None in E. assert (i < length net) by (apply nth_error_Some; congruence). lia. }
  assert (Used : forall i nd b, nth_error net i = Some nd -> sink_colour net oc m (ToSplitter i b) <> None /\ source_colour net ic n (FromSplitter i b) <> None).
  { intros i nd b Hi. destruct (Cm nd) as (C1 & C2 & C3 & C4); [eapply nth_error_In; eauto|]. cbn [sink_colour source_colour]. rewrite Hi. destruct b; cbn [pick]; auto. }
  assert (Deliver : forall k, sink_colour net oc m k <> None -> exists f, finish_of P k = Some f /\ (from f == flow (w k))%Q).
  { intros k Hk. destruct (Hjoin k Hk) as (s & f & E1 & E2 & J). exists f. split; [exact E2|]. unfold flow. rewrite E1. apply St1. exact J. }
  assert (Sw : steady net ic n oc m w flow).
  { intros i b Hb. cbn [source_colour] in Hb. destruct (nth_error net i) as [nd|] eqn:Hi; [|congruence]. clear Hb.
    destruct (Mem i nd Hi) as (s & Es & Sp). destruct (St2 s Sp) as [Q1 Q2].
    assert (O2 : outputs_of net ic n i = 2%Z).
    { unfold outputs_of. destruct (Used i nd false Hi) as [_ U1]. destruct (Used i nd true Hi) as [_ U2].
      destruct (source_colour net ic n (FromSplitter i false)); [|congruence]. destruct (source_colour net ic n (FromSplitter i true)); [reflexivity|congruence]. }
    assert (Ar : forall c, (arriving net oc m w flow i c == from (Entrance (half s (xorb c (pl_in P i)))))%Q).
    { intros c. destruct (Used i nd c Hi) as [U _]. unfold arriving. destruct (Deliver _ U) as (f & Ef & Q). cbn [finish_of] in Ef. rewrite Es in Ef. cbn in Ef.
      destruct (sink_colour net oc m (ToSplitter i c)); [|congruence]. injection Ef as <-. symmetry. exact Q. }
    rewrite O2, !Ar. unfold flow. cbn [start_of]. rewrite Es. cbn [option_map].
    assert (X1 : (into (Exit (half s (xorb b (pl_out P i)))) == into (Exit (fst s)))%Q) by (destruct (xorb b (pl_out P i)); cbn [half]; [symmetry; exact Q1|reflexivity]).
    rewrite X1. setoid_replace (inject_Z 2 * into (Exit (fst s)))%Q with (into (Exit (fst s)) + into (Exit (fst s)))%Q by ring.
    rewrite Q1 at 2. rewrite Q2. destruct (pl_in P i); cbn [xorb half]; [apply Qplus_comm|reflexivity]. }
  assert (Pi : Permutation ins (pl_inputs P)).
  { apply NoDup_Permutation; auto. intros q. rewrite Ii. split; [|apply Hinb]. intros Bq.
    destruct (Hinc q Bq) as [|Sq]; [assumption|].
    destruct Bq as (_ & Hq & d & Td & Nd). destruct (T q) as [| | | |e h| |] eqn:Tq; try contradiction.
    (* the splitter that q belongs to *)
    assert (X : exists i s nd c, nth_error (pl_splitters P) i = Some s /\ nth_error net i = Some nd /\ half s c = q).
    { assert (Y : exists s, In s (pl_splitters P) /\ exists c, half s c = q).
      { destruct h.
        - pose proof (Hall q e Hq Tq) as Hi. apply in_map_iff in Hi. destruct Hi as (s & <- & Hs). exists s. split; [exact Hs|]. exists false. reflexivity.
        - destruct VL as (_ & Vp & _). destruct (Vp q e false Hq Tq) as (r & Nr & Tr).
          pose proof (ahead_inside _ _ _ _ _ Nr) as Hr. pose proof (Hall r e Hr Tr) as Hi. apply in_map_iff in Hi. destruct Hi as (s & Es & Hs).
          exists s. split; [exact Hs|]. exists true. cbn [half]. destruct (Hsp s Hs) as (_ & _ & d' & T1 & T2 & N1). rewrite Es in T1, N1.
          cbn [negb] in Tr. rewrite Tr in T1. injection T1 as <-. pose proof (neighbour_back _ _ _ _ WA Hq Nr) as Bk.
          replace (opposite (mate_side e false)) with (anticlockwise e) in Bk by (destruct e; reflexivity). rewrite Bk in N1. congruence. }
      destruct Y as (s & Hs & c & Ec). apply In_nth_error in Hs. destruct Hs as [i Hi]. exists i, s.
      assert (Lt : i < length net) by (rewrite <- Hlen; apply nth_error_Some; congruence). apply nth_error_Some in Lt. destruct (nth_error net i) as [nd|]; [|congruence].
      exists nd, c. auto. }
    destruct X as (i & s & nd & c & Es & En & Ec).
    destruct (Used i nd (xorb c (pl_in P i)) En) as [U _]. destruct (Hjoin _ U) as (s0 & f & E1 & E2 & J).
    cbn [finish_of] in E2. rewrite Es in E2. cbn in E2. rewrite xorb_assoc, xorb_nilpotent, xorb_false_r, Ec in E2. injection E2 as <-.
    assert (J' : joined A T L (Enter q) (Entrance q)).
    { exists q, q. split; [|split; [constructor|]].
      - split; [reflexivity|]. split; [exact Hq|]. exists d. rewrite Tq. split; assumption.
      - split; [reflexivity|]. split; [exact Hq|]. rewrite Tq. exact Logic.I. }
    pose proof (joined_inj A T L WA VL _ _ _ J J') as ->. destruct (w _) as [j|j b] eqn:Ew; cbn [start_of] in E1.
    - destruct (nth_error (pl_inputs P) j) as [r|] eqn:Er; [|discriminate]. cbn in E1. injection E1 as ->. eapply nth_error_In; eauto.
    - destruct (nth_error (pl_splitters P) j); discriminate. }
  assert (Po : length outs = m).
  { rewrite <- Hout. apply Permutation_length. apply NoDup_Permutation; auto. intros q. rewrite Io. symmetry. apply Houti. }
  rewrite Po. assert (Hj : In p (pl_outputs P)) by (apply Houti, Io; exact Hp). apply In_nth_error in Hj. destruct Hj as [j Hj].
  assert (Lt : j < m) by (rewrite <- Hout; apply nth_error_Some; congruence).
  assert (U : sink_colour net oc m (ToOutput j) <> None) by (cbn [sink_colour]; apply Nat.ltb_lt in Lt; rewrite Lt; discriminate).
  destruct (Deliver _ U) as (f & Ef & Q). cbn [finish_of] in Ef. rewrite Hj in Ef. cbn in Ef. injection Ef as <-. rewrite Q.
  rewrite (Bal w flow Ww Sw j Lt). unfold total_input. rewrite <- Hin.
  rewrite (qsum_nth _ (fun q => into (Enter q)) (pl_inputs P)).
  - apply qsum_perm. apply Permutation_map. symmetry. exact Pi.
  - intros i q Hi. unfold flow. cbn [start_of]. rewrite Hi. reflexivity.
Qed.
