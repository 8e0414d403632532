(** Proofs about parse_network: the network read and the layout balance alike. *)
From Coq Require Import ZArith QArith List Bool Lia Lqa Permutation.
From Verif Require Import P_Network P_Network2 P_Benes P_Similar P_Wiring.
From Verif Require Import Spec_Tile Spec_Layout M_Json M_Tile M_Dict M_Network M_Template Spec_Network Spec_Balancer Spec_Flow Spec_Interchange Spec_Parse M_Parse P_Tile P_Layout P_List P_Template P_Walk P_Trace P_Uniq P_Grid P_Flow P_Parse4 P_Parse6.
Import ListNotations.
Open Scope Z_scope.

(** ** Counting the belts of a wiring *)
Lemma sinks_from_length net c : forall s, Z.of_nat (length (sinks_from s net c)) = consumed net c.
Proof.
  induction net as [|nd net IH]; intros s; [reflexivity|]. cbn [sinks_from]. rewrite !app_length, !Nat2Z.inj_add, IH, consumed_cons.
  destruct (is_colour_cases c (fst (fst nd))) as [-> | ->], (is_colour_cases c (snd (fst nd))) as [-> | ->]; cbn [Z.eqb Pos.eqb length]; lia.
Qed.
Lemma sources_from_length net c : forall s, Z.of_nat (length (sources_from s net c)) = produced net c.
Proof.
  induction net as [|nd net IH]; intros s; [reflexivity|]. cbn [sources_from]. rewrite !app_length, !Nat2Z.inj_add, IH, produced_cons.
  destruct (is_colour_cases c (fst (snd nd))) as [-> | ->], (is_colour_cases c (snd (snd nd))) as [-> | ->]; cbn [Z.eqb Pos.eqb length]; lia.
Qed.
Lemma wiring_counts net ic n oc m w c : wiring net ic n oc m w ->
  (if c =? oc then Z.of_nat m else 0) + consumed net c = (if c =? ic then Z.of_nat n else 0) + produced net c.
Proof.
  intros W. pose proof (Permutation_length (wired net ic oc n m w W c)) as H. rewrite map_length in H. unfold sinks, sources in H. rewrite !app_length in H.
  apply (f_equal Z.of_nat) in H. rewrite !Nat2Z.inj_add, sinks_from_length, sources_from_length in H.
  destruct (c =? oc), (c =? ic); rewrite ?map_length, ?seq_length in H; cbn [length] in H; lia.
Qed.
Lemma wiring_ends net ic n oc m w : wiring net ic n oc m w -> ic <> oc -> (0 < n)%nat -> (0 < m)%nat -> has_ends net ic (Z.of_nat n) oc (Z.of_nat m).
Proof.
  intros W N Hn Hm. pose proof (fun c => wiring_counts _ _ _ _ _ _ c W) as H. split; [lia|]. split; [|split].
  - specialize (H ic). rewrite Z.eqb_refl in H. destruct (Z.eqb_spec ic oc); [contradiction|lia].
  - specialize (H oc). rewrite Z.eqb_refl in H. destruct (Z.eqb_spec oc ic); [congruence|lia].
  - intros c N1 N2. specialize (H c). destruct (Z.eqb_spec c oc); [contradiction|]. destruct (Z.eqb_spec c ic); [contradiction|lia].
Qed.

(** ** Renaming colours *)
Lemma recolour_nth f net i : nth_error (recolour f net) i = option_map (fun n : splitter => ((option_map f (fst (fst n)), option_map f (snd (fst n))),
                            (option_map f (fst (snd n)), option_map f (snd (snd n))))) (nth_error net i).
Proof. apply nth_error_map. Qed.
Lemma recolour_sink f net oc m k : sink_colour (recolour f net) (f oc) m k = option_map f (sink_colour net oc m k).
Proof. destruct k as [j|i b]; cbn [sink_colour]; [destruct (j <? m)%nat; reflexivity|]. rewrite recolour_nth. destruct (nth_error net i); [|reflexivity]. destruct b; reflexivity. Qed.
Lemma recolour_source f net ic n s : source_colour (recolour f net) (f ic) n s = option_map f (source_colour net ic n s).
Proof. destruct s as [j|i b]; cbn [source_colour]; [destruct (j <? n)%nat; reflexivity|]. rewrite recolour_nth. destruct (nth_error net i); [|reflexivity]. destruct b; reflexivity. Qed.
Lemma option_map_none (f : Z -> Z) (o : colour) : @option_map Z Z f o <> (None : colour) :> colour <-> o <> None.
Proof. destruct o; cbn; split; congruence. Qed.
Lemma recolour_realises f A T L net ic n oc m : realises A T L net ic n oc m -> realises A T L (recolour f net) (f ic) n (f oc) m.
Proof.
  intros (P & w & R1 & R2 & R3 & R4 & R5 & R6 & R7 & R8 & R9 & R10 & R11 & (W1 & W2 & W3) & R12). exists P, w. unfold realises_by.
  split; [unfold recolour; rewrite map_length; exact R1|]. repeat (split; [assumption|]). split.
  - split; [|split].
    + intros k c. rewrite recolour_sink, recolour_source. destruct (sink_colour net oc m k) as [d|] eqn:E; [|discriminate]. rewrite (W1 k d E). auto.
    + intros k k' Hk Hk'. rewrite recolour_sink, option_map_none in Hk, Hk'. auto.
    + intros s Hs. rewrite recolour_source, option_map_none in Hs. destruct (W3 s Hs) as (k & Hk & E). exists k. rewrite recolour_sink, option_map_none. auto.
  - intros k Hk. rewrite recolour_sink, option_map_none in Hk. auto.
Qed.
Lemma recolour_complete f net : complete (recolour f net) <-> complete net.
Proof.
  unfold complete, recolour. split; intros H nd Hnd.
  - specialize (H _ (in_map _ _ _ Hnd)). cbn [fst snd] in H. rewrite !option_map_none in H. exact H.
  - apply in_map_iff in Hnd. destruct Hnd as (x & <- & Hx). cbn [fst snd]. rewrite !option_map_none. auto.
Qed.
Lemma recolour_balances f net ic n oc m : (forall c d, has_colour net c -> has_colour net d -> f c = f d -> c = d) ->
  has_colour net ic -> has_colour net oc -> balances net ic n oc m -> balances (recolour f net) (f ic) n (f oc) m.
Proof.
  intros Inj Hic Hoc Bal w flow (W1 & W2 & W3) St. apply Bal.
  - assert (Col : forall i nd b c, nth_error net i = Some nd -> pick (fst nd) b = Some c \/ pick (snd nd) b = Some c -> has_colour net c).
    { intros i nd b c Hi Hc. unfold has_colour, consumed, produced. rewrite !occurs_in, !in_flat_map. apply nth_error_In in Hi.
      destruct Hc as [Hc|Hc]; [left|right]; exists nd; (split; [exact Hi|]); destruct b; cbn [pick] in Hc; rewrite Hc; cbn [In]; auto. }
    split; [|split].
    + intros k c Hk. pose proof (W1 k (f c)) as H. rewrite recolour_sink, recolour_source, Hk in H. specialize (H eq_refl).
      destruct (source_colour net ic n (w k)) as [d|] eqn:Ed; [|discriminate]. cbn [option_map] in H. f_equal. apply Inj; [| |congruence].
      * destruct (w k) as [j|i b]; cbn [source_colour] in Ed; [destruct (j <? n)%nat; congruence|]. destruct (nth_error net i) as [nd|] eqn:Hi; [|discriminate]. eapply Col; eauto.
      * destruct k as [j|i b]; cbn [sink_colour] in Hk; [destruct (j <? m)%nat; congruence|]. destruct (nth_error net i) as [nd|] eqn:Hi; [|discriminate]. eapply Col; eauto.
    + intros k k' Hk Hk'. apply W2; rewrite recolour_sink, option_map_none; assumption.
    + intros s Hs. destruct (W3 s) as (k & Hk & E); [rewrite recolour_source, option_map_none; exact Hs|]. rewrite recolour_sink, option_map_none in Hk. eauto.
  - intros i b Hb. specialize (St i b). rewrite recolour_source, option_map_none in St. specialize (St Hb).
    unfold outputs_of, arriving in *. rewrite !recolour_source, !recolour_sink in St.
    destruct (source_colour net ic n (FromSplitter i false)), (source_colour net ic n (FromSplitter i true)), (sink_colour net oc m (ToSplitter i false)), (sink_colour net oc m (ToSplitter i true)); exact St.
Qed.
