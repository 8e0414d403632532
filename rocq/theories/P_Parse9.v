(** Proofs about parse_network: a layout that is built as a network says can be
    read, and no belt is missing in what is read. *)
From Coq Require Import ZArith QArith List Bool Lia Permutation.
From Verif Require Import P_Network P_Network2 P_Benes P_Similar P_Wiring.
From Verif Require Import Spec_Tile Spec_Layout M_Json M_Tile M_Dict M_Network M_Template Spec_Network Spec_Balancer Spec_Flow Spec_Interchange Spec_Parse M_Parse P_Tile P_Layout P_List P_Template P_Walk P_Trace P_Uniq P_Grid P_Flow P_Lossless P_Parse2 P_Parse4 P_Parse6 P_Parse7 P_Parse8.
Import ListNotations.
Open Scope Z_scope.

Section Built.
  Variables (wd ht : Z) (T : Z * Z -> tile) (L : Z).
  Let A := rectangle wd ht.
  Hypothesis WA : wf_area A.
  Hypothesis VL : valid_layout A T L.
  Variables (net : network) (ic oc : Z) (n m : nat) (P : placement) (w : sink -> source).
  Hypothesis HR : realises_by A T L net ic n oc m P w.
  Hypothesis Cm : complete net.

  Lemma exit_used p d h : inside A p -> T p = Splitter d h -> exists f, joined A T L (Exit p) f.
  Proof.
    intros Hp Tp. destruct (halves_all A WA T L VL net ic oc n m P w HR p d h Hp Tp) as (j & s & Hj & -> & _). destruct (spl_el A T L net ic oc n m P w HR j s Hj) as (nd & En).
    destruct (all_used net ic oc n m Cm j nd (xorb (negb h) (pl_out P j)) En) as [_ U]. destruct (source_colour net ic n _) as [c|] eqn:Ec; [|contradiction].
    destruct (source_line A T L net ic oc n m P w HR _ c Ec) as (k & st & f & _ & _ & Es & _ & J). exists f. cbn [start_of] in Es. rewrite Hj in Es. cbn [option_map] in Es.
    rewrite xorb_assoc, xorb_nilpotent, xorb_false_r in Es. apply Some_inj in Es. subst st. exact J.
  Qed.
  Lemma entrance_used p d h : inside A p -> T p = Splitter d h -> exists s, joined A T L s (Entrance p).
  Proof.
    intros Hp Tp. destruct (halves_all A WA T L VL net ic oc n m P w HR p d h Hp Tp) as (j & s & Hj & -> & _). destruct (spl_el A T L net ic oc n m P w HR j s Hj) as (nd & En).
    destruct (all_used net ic oc n m Cm j nd (xorb (negb h) (pl_in P j)) En) as [U _]. destruct (sink_colour net oc m _) as [c|] eqn:Ec; [|contradiction].
    destruct (belt_line A T L net ic oc n m P w HR _ c Ec) as (st & f & _ & Es & J & _). exists st. cbn [finish_of] in Es. rewrite Hj in Es. cbn [option_map] in Es.
    rewrite xorb_assoc, xorb_nilpotent, xorb_false_r in Es. apply Some_inj in Es. subst f. exact J.
  Qed.
  Lemma built_through : ic <> oc -> no_through A T L.
  Proof.
    intros N p q J. destruct (complete_lines A T L net ic n oc m P w WA VL Cm HR _ _ J) as (k & Hk & F).
    destruct (sink_colour net oc m k) as [c|] eqn:Ec; [|contradiction]. destruct (belt_line A T L net ic oc n m P w HR _ c Ec) as (st & f & Es & Ef & J' & Sc).
    assert (f = Leave q) by congruence. subst f. pose proof (joined_inj A T L WA VL _ _ _ J J') as X. subst st.
    destruct k as [j|i b]; [|cbn [finish_of] in F; destruct (nth_error (pl_splitters P) i); discriminate].
    cbn [sink_colour] in Ec. destruct (j <? m)%nat; [|discriminate]. apply Some_inj in Ec. subst c.
    destruct (w (ToOutput j)) as [i|i b]; [|cbn [start_of] in Es; destruct (nth_error (pl_splitters P) i); discriminate].
    cbn [source_colour] in Sc. destruct (i <? n)%nat; [|discriminate]. apply Some_inj in Sc. congruence.
  Qed.
  Lemma built_face edge : none_face_out A T edge.
  Proof. intros _ p Hp F. destruct F as (d & h & Tp & En). destruct (exit_used p d h Hp Tp) as (f & q & r & (_ & d' & h' & Tp' & En' & _) & _). congruence. Qed.
  Lemma built_gaps : no_gaps A T.
  Proof.
    intros p d h q Hp Tp [En|En] Eq.
    - destruct (exit_used p d h Hp Tp) as (f & q' & r & (_ & d' & h' & Tp' & En' & Tk) & _). rewrite Tp in Tp'. injection Tp' as <- <-. assert (q' = q) by congruence. subst q'. rewrite Eq in Tk. exact Tk.
    - destruct (entrance_used p d h Hp Tp) as (s & q0 & r & B & C & (-> & _)). destruct (carried_inv A T L _ _ C) as [->|(y & S & _)].
      + destruct s as [p'|p']; cbn [begins] in B.
        * destruct B as (-> & _ & d' & Tk & En'). rewrite Tp in Tk. cbn in Tk. subst d'. congruence.
        * destruct B as (Ip & d' & h' & Tp' & En' & Tk). rewrite Tp in Tk. cbn in Tk. subst d'. apply (neighbour_back A _ _ _ WA Ip) in En'. assert (p' = q) by congruence. subst p'. congruence.
      + destruct (into_splitter wd ht T L WA VL p d h y Hp Tp S) as (Ey & Iy & Cy & _). apply (behind wd ht) in En. destruct En as [En _]. assert (X : T y = Empty) by congruence. rewrite X in Cy. exact Cy.
  Qed.
  Lemma built_inlets edge : edge = true \/ (forall p, begins A T (Enter p) p -> ~ is_splitter_tile (T p)) -> counted_inlets A T edge (pl_inputs P).
  Proof.
    intros He. destruct (inlets_listed A T L WA VL net ic oc n m P w HR Cm) as [Nd In']. split; [exact Nd|]. intros p. rewrite In'. split; [|tauto].
    intros B. split; [exact B|]. destruct He as [He|He]; [left; exact He|right; auto].
  Qed.
  Lemma built_complete edge ss raw : edge = true \/ (forall p, begins A T (Enter p) p -> ~ is_splitter_tile (T p)) -> all_splitters A T ss -> network_of A T L edge ss raw -> complete raw.
  Proof.
    intros He (_ & At & _) (Len & NO) nd Hnd. apply In_nth_error in Hnd. destruct Hnd as [i Hi].
    destruct (nth_error ss i) as [s|] eqn:Es; [|apply nth_error_None in Es; rewrite <- Len in Es; apply nth_error_None in Es; congruence].
    assert (X : forall b, pick (fst nd) b <> None /\ pick (snd nd) b <> None).
    { intros b. destruct (NO i s nd b Es Hi) as [Hin Hout].
      assert (Hp : inside A (half s b) /\ exists d h, T (half s b) = Splitter d h) by (destruct (At s (nth_error_In _ _ Es)) as (I1 & I2 & d & T1 & T2 & _); destruct b; cbn [half]; eauto).
      destruct Hp as (Hp & d & h & Tp). destruct (exit_used _ d h Hp Tp) as (f & Jf), (entrance_used _ d h Hp Tp) as (st & Js). split.
      - inversion Hin as [q J N E|j s' b' Ej J E|N E]; try discriminate. exfalso. destruct (N st Js) as [E1 E2]. subst edge st. destruct He as [He|He]; [discriminate|].
        destruct Js as (q & r & B & C & R). assert (q = half s b) by apply B. subst q. apply (He (half s b) B). rewrite Tp. exact Logic.I.
      - inversion Hout as [q J E|E1 E2 E|q J E|N N' E]; try discriminate. exfalso. exact (N f Jf). }
    destruct (X false) as [X1 X2], (X true) as [X3 X4]. auto.
  Qed.
End Built.
