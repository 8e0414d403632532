(** Proofs about parse_network: what is read of a layout all of whose splitters
    are connected on all four sides. *)
From Coq Require Import ZArith List Bool Lia Permutation.
From Verif Require Import P_Network P_Network2 P_Benes P_Similar P_Wiring T_Network.
From Verif Require Import Spec_Tile Spec_Layout M_Json M_Tile M_Dict M_Network M_Template Spec_Network Spec_Balancer Spec_Flow Spec_Interchange Spec_Pow2 Spec_Free Spec_Parse M_Parse P_Tile P_Layout P_List P_Template P_Walk P_Trace P_Uniq P_Grid P_Flow P_Lossless
  P_Edge P_Frame P_Parse2 P_Parse4 P_Parse6 P_Parse7 P_Parse8 T_Parse.
Import ListNotations.
Open Scope Z_scope.

Section Connected.
  Variables (wd ht : Z) (T : layout) (L : Z).
  Let A := rectangle wd ht.
  Hypothesis Hw : 0 < wd.
  Hypothesis Hh : 0 < ht.
  Hypothesis VL : valid_layout A T L.
  Hypothesis Con : forall p d b, inside A p -> T p = Splitter d b ->
    (exists q, neighbour A p d = Some q /\ takes (T q) d) /\ exists q, neighbour A p (opposite d) = Some q /\ pushes (T q) d.
  Let WA : wf_area A := rectangle_wf wd ht Hw Hh.

  Lemma con_exit p d h : inside A p -> T p = Splitter d h -> exists f, joined A T L (Exit p) f.
  Proof.
    intros Hp Tp. destruct (Con p d h Hp Tp) as [(q & En & Tk) _].
    assert (B : begins A T (Exit p) q) by (split; [exact Hp|]; exists d, h; auto). destruct (trace_forward A T L WA VL _ _ B) as (f & r & C & R). exists f, q, r. auto.
  Qed.
  Lemma con_entrance p d h : inside A p -> T p = Splitter d h -> exists s, joined A T L s (Entrance p).
  Proof.
    intros Hp Tp. destruct (Con p d h Hp Tp) as [_ (q & En & Pu)].
    assert (F : fed A T p) by (split; [exact Hp|]; right; exists d; split; [rewrite Tp; reflexivity|]; rewrite En; exact Pu).
    destruct (trace_back A T L WA VL p F) as (s & q' & B & C).
    - intros y S. apply (step_conv wd ht T L) in S. rewrite Tp in S. contradiction.
    - exists s, q', p. split; [exact B|]. split; [exact C|]. split; [reflexivity|]. split; [exact Hp|]. rewrite Tp. exact Logic.I.
  Qed.
  Lemma con_face edge : none_face_out A T edge.
  Proof. intros _ p Hp (d & h & Tp & En). destruct (Con p d h Hp Tp) as [(q & E & _) _]. congruence. Qed.
  Lemma con_gaps : no_gaps A T.
  Proof.
    intros p d h q Hp Tp [En|En] Eq; destruct (Con p d h Hp Tp) as [(q1 & E1 & Tk) (q2 & E2 & Pu)].
    - assert (q1 = q) by congruence. subst q1. rewrite Eq in Tk. exact Tk.
    - assert (q2 = q) by congruence. subst q2. rewrite Eq in Pu. exact Pu.
  Qed.
  Lemma con_complete edge ss raw : all_splitters A T ss -> network_of A T L edge ss raw -> complete raw.
  Proof.
    intros (_ & At & _) (Len & NO) nd Hnd. apply In_nth_error in Hnd. destruct Hnd as [i Hi].
    destruct (nth_error ss i) as [s|] eqn:Es; [|apply nth_error_None in Es; rewrite <- Len in Es; apply nth_error_None in Es; congruence].
    assert (X : forall b, pick (fst nd) b <> None /\ pick (snd nd) b <> None).
    { intros b. destruct (NO i s nd b Es Hi) as [Hin Hout].
      assert (Hp : inside A (half s b) /\ exists d h, T (half s b) = Splitter d h) by (destruct (At s (nth_error_In _ _ Es)) as (I1 & I2 & d & T1 & T2 & _); destruct b; cbn [half]; eauto).
      destruct Hp as (Hp & d & h & Tp). destruct (con_exit _ d h Hp Tp) as (f & Jf), (con_entrance _ d h Hp Tp) as (st & Js). split.
      - inversion Hin as [q J N E|j s' b' Ej J E|N E]; try discriminate. exfalso. destruct (N st Js) as [_ E2]. subst st.
        destruct Js as (q & r & B & _). destruct B as (-> & _ & d' & Tk & En). rewrite Tp in Tk. cbn in Tk. subst d'. destruct (Con _ d h Hp Tp) as [_ (q2 & E2 & _)]. congruence.
      - inversion Hout as [q J E|E1 E2 E|q J E|N N' E]; try discriminate. exfalso. exact (N f Jf). }
    destruct (X false) as [X1 X2], (X true) as [X3 X4]. auto.
  Qed.
  Lemma con_inlet p : begins A T (Enter p) p -> ~ is_splitter_tile (T p).
  Proof.
    intros (_ & Hp & d & Tk & En) S. destruct (T p) as [| | | | d' h| | ] eqn:Tp; try contradiction. cbn in Tk. subst d'.
    destruct (Con p d h Hp Tp) as [_ (q & E & _)]. congruence.
  Qed.

  (** What the command prints for it. *)
  Lemma con_read order sets edge ins outs : (forall l, Permutation l (order l)) -> (forall l, Permutation (sets l) l) ->
    inlets A T ins -> outlets A T outs -> ins <> [] -> outs <> [] -> no_through A T L ->
    (parse_command wd ht T order sets edge <> None <-> ~ late_top_tunnel A T L) /\
    forall net, parse_command wd ht T order sets edge = Some net -> complete net /\
      (exists ss, all_splitters A T ss /\ length net = length ss) /\
      exists ic oc, get_input_output_colours net = Some ((ic, Z.of_nat (length ins)), (oc, Z.of_nat (length outs))) /\
        realises A T L net ic (length ins) oc (length outs) /\
        (balances net ic (length ins) oc (length outs) <-> balanced_layout A T L).
  Proof.
    intros Ho Hs Ins Outs Ni No NT.
    assert (Raw : forall raw, parse_network wd ht T order edge = Some raw -> exists net, parse_command wd ht T order sets edge = Some net /\ complete net /\ exists ss, all_splitters A T ss /\ length net = length ss).
    { intros raw Er. destruct (C96_reads wd ht T L order edge raw Hw Hh VL Ho Er) as (ss & SS & NO). pose proof (con_complete edge ss raw SS NO) as Cr.
      destruct (C29_tidy sets raw Hs) as (fixed & tidy & listed & Ef & Et & F2 & Pm & _). destruct (C29_fix_colours sets raw Hs) as (f & top & Ef' & _).
      assert (fixed = recolour f raw) by congruence. subst fixed. exists tidy. split; [unfold parse_command; rewrite Er; exact Et|]. split.
      - apply (complete_similar _ _ _ F2 Pm). apply recolour_complete. exact Cr.
      - exists ss. split; [exact SS|]. destruct NO as [<- _]. rewrite <- (Permutation_length Pm).
        assert (X : forall (l k : network), Forall2 same_node l k -> length l = length k) by (induction 1; cbn; congruence).
        rewrite <- (X _ _ F2). unfold recolour. apply map_length. }
    split.
    - split.
      + intros N. apply (C97_readable wd ht T L order edge Hw Hh VL Ho). unfold parse_command in N. destruct (parse_network wd ht T order edge) as [raw|]; [eauto|contradiction].
      + intros Nl. destruct (proj2 (C97_readable wd ht T L order edge Hw Hh VL Ho)) as (raw & Er); [split; [exact con_gaps|exact Nl]|]. destruct (Raw raw Er) as (net & -> & _). discriminate.
    - intros net Ep. assert (Er : exists raw, parse_network wd ht T order edge = Some raw) by (unfold parse_command in Ep; destruct (parse_network wd ht T order edge) as [raw|]; [eauto|discriminate]).
      destruct Er as (raw & Er). destruct (Raw raw Er) as (net' & Ep' & Cm & SS). assert (net' = net) by congruence. subst net'. split; [exact Cm|]. split; [exact SS|].
      assert (Ci : counted_inlets A T edge ins).
      { destruct Ins as [N1 N2]. split; [exact N1|]. intros p. rewrite N2. split; [|tauto]. intros B. split; [exact B|]. right. apply con_inlet. exact B. }
      destruct (C98_printed wd ht T L order sets edge net ins outs Hw Hh VL Ho Hs Ep Ci Outs NT (con_face edge) Ni No) as (ic & oc & Ee & R & B).
      exists ic, oc. split; [exact Ee|]. split; [exact R|]. exact (B Cm).
  Qed.
End Connected.

(** The balancers without a network. *)
Section Open.
  Variables (w h L n : Z) (T : layout) (i j : Z) (F : Z -> pos -> Z).
  Hypothesis Hw : 0 < w.
  Hypothesis Hh : 0 < h.
  Hypothesis Hn : 2 <= n.
  Hypothesis Op : open_part w h L n T i j.
  Hypothesis Me : measured w h L n T i j F.
  Let A := rectangle w h.

  Lemma rows_at x k m p : In p (rows x k m) <-> fst p = x /\ k <= snd p < k + m.
  Proof.
    unfold rows. rewrite in_map_iff. split.
    - intros (y & <- & Hy). apply in_seq in Hy. cbn [fst snd]. lia.
    - intros [E H]. destruct p as [x' y]. cbn [fst snd] in *. subst x'. exists (Z.to_nat (y - k)). split; [apply pair_equal_spec; split; lia|]. apply in_seq. lia.
  Qed.
  Lemma units_pos : 0 < units n.
  Proof.
    unfold units. pose proof (Z.lcm_nonneg n (2 ^ Z.log2_up n)). pose proof (Z.lcm_eq_0 n (2 ^ Z.log2_up n)) as E.
    pose proof (Z.pow_pos_nonneg 2 (Z.log2_up n) ltac:(lia) (Z.log2_up_nonneg n)). lia.
  Qed.
  Lemma open_through : no_through A T L.
  Proof.
    intros p q (p' & q' & B & C & R). pose proof B as (E & B1). subst p'. pose proof R as (E & R1). subst q'.
    assert (Ip : In p (rows 0 i n)) by (apply (proj2 (op_inlets _ _ _ _ _ _ _ Op)); split; [reflexivity|exact B1]).
    assert (Iq : In q (rows (w - 1) j n)) by (apply (proj2 (op_outlets _ _ _ _ _ _ _ Op)); split; [reflexivity|exact R1]).
    apply rows_at in Ip, Iq. destruct p as [x y], q as [x' y']. cbn [fst snd] in *. destruct Ip as [-> Hy], Iq as [-> Hy'].
    pose proof (me_lines _ _ _ _ _ _ _ _ Me 0 _ _ ltac:(lia) C) as X. pose proof (me_first _ _ _ _ _ _ _ _ Me 0 y ltac:(lia) Hy) as X1. pose proof (me_last _ _ _ _ _ _ _ _ Me 0 y' ltac:(lia) Hy') as X2.
    rewrite <- X, X1 in X2. pose proof units_pos. destruct (y mod n =? 0); nia.
  Qed.
End Open.

(** The balancers for powers of two, between their columns of splitters. *)
Section Framed.
  Variables (w h L : Z) (T : layout) (S : pos -> Z -> bool).
  Hypothesis Hw : 0 < w.
  Hypothesis Hj : exists j, 0 < j /\ h = 2 ^ j.
  Hypothesis Inn : inner_part w h L T.
  Hypothesis Gr : grouped w h L T S.
  Let A := rectangle w h.
  Let B := rectangle (w + 4) h.
  Let F := framed w T.

  Lemma fh : 0 < h.
  Proof. destruct Hj as (j & J & ->). apply Z.pow_pos_nonneg; lia. Qed.
  Lemma fe : h mod 2 = 0.
  Proof. destruct Hj as (j & J & ->). replace j with (Z.succ (j - 1)) by lia. rewrite Z.pow_succ_r by lia. rewrite Z.mul_comm. apply Z.mod_mul. lia. Qed.
  Lemma f_in p : begins A T (Enter p) p -> fst p = 0.
  Proof. intros H. apply (proj2 (in_inlets _ _ _ _ Inn)) in H. apply rows_at in H. apply H. Qed.
  Lemma f_out p : reaches A T (Leave p) p -> fst p = w - 1.
  Proof. intros H. apply (proj2 (in_outlets _ _ _ _ Inn)) in H. apply rows_at in H. apply H. Qed.

  Lemma framed_inlets : inlets B F (rows 0 0 h).
  Proof.
    split.
    - unfold rows. apply FinFun.Injective_map_NoDup; [|apply seq_NoDup]. intros a b E. injection E. lia.
    - intros p. rewrite rows_at. pose proof (framed_inlet w h T L Hw (in_first _ _ _ _ Inn) f_in p) as X. change (begins B F (Enter p) p <-> fst p = 0 /\ 0 <= snd p < h) in X. rewrite X. lia.
  Qed.
  Lemma framed_outlets : outlets B F (rows (w + 3) 0 h).
  Proof.
    split.
    - unfold rows. apply FinFun.Injective_map_NoDup; [|apply seq_NoDup]. intros a b E. injection E. lia.
    - intros p. rewrite rows_at. pose proof (framed_outlet w h T L Hw (in_last _ _ _ _ Inn) f_out p) as X. change (reaches B F (Leave p) p <-> fst p = w + 3 /\ 0 <= snd p < h) in X. rewrite X. lia.
  Qed.
  Lemma framed_connected p d b : inside B p -> F p = Splitter d b ->
    (exists q, neighbour B p d = Some q /\ takes (F q) d) /\ exists q, neighbour B p (opposite d) = Some q /\ pushes (F q) d.
  Proof.
    intros Hp Tp. destruct (cells_of w h T p Hp) as [[C1 C]|[[C1 C]|[[C1 C]|[[C1 C]|(r & Hr & -> & C)]]]]; fold F in C; rewrite C in Tp.
    - discriminate.
    - discriminate.
    - injection Tp as <- <-. destruct p as [x y]. cbn [fst] in C1. subst x. destruct Hp as [_ Py]. change (0 <= y < h) in Py. split.
      + exists (2, y). split; [apply (next_right w h 1 y); lia|]. unfold F. rewrite (inner_first w h T Hw (in_first _ _ _ _ Inn) y Py). reflexivity.
      + exists (0, y). split; [exact (step_B w h 1 y LEFT ltac:(lia) ltac:(lia))|]. unfold F. rewrite (outer w T Hw) by auto. reflexivity.
    - injection Tp as <- <-. destruct p as [x y]. cbn [fst] in C1. subst x. destruct Hp as [_ Py]. change (0 <= y < h) in Py. split.
      + exists (w + 2 + 1, y). split; [apply (next_right w h (w + 2) y); lia|]. unfold F. rewrite (outer w T Hw) by lia. reflexivity.
      + exists (w + 1, y). split; [etransitivity; [exact (step_B w h (w + 2) y LEFT ltac:(lia) ltac:(lia))|]; destruct (Z.eqb_spec (w + 2) 0); [lia|]; apply f_equal, pair_equal_spec; split; lia|].
        unfold F. rewrite (inner_last w h T Hw (in_last _ _ _ _ Inn) y Py). reflexivity.
    - destruct (in_connected _ _ _ _ Inn r d b Hr Tp) as [(q & En & Tk) (q' & En' & Pu)]. split.
      + exists (sh q). split; [apply ahead_sh; exact En|]. unfold F. rewrite (framed_sh w h T q) by (eapply neighbour_inside; exact En). exact Tk.
      + exists (sh q'). split; [apply ahead_sh; exact En'|]. unfold F. rewrite (framed_sh w h T q') by (eapply neighbour_inside; exact En'). exact Pu.
  Qed.
  Lemma framed_ok : valid_layout B F L.
  Proof. apply (framed_valid w h T L Hw fe (in_first _ _ _ _ Inn) (in_last _ _ _ _ Inn) (in_valid _ _ _ _ Inn)). Qed.
  Lemma framed_through : no_through B F L.
  Proof.
    intros p q J. pose proof J as (p' & q' & Bg & _). pose proof Bg as (E & B1). subst p'.
    assert (Ip : In p (rows 0 0 h)) by (apply (proj2 framed_inlets); split; [reflexivity|exact B1]). apply rows_at in Ip. destruct p as [x y]. cbn [fst snd] in Ip. destruct Ip as [-> Hy].
    pose proof (enter_column w h T L Hw y Hy : joined B F L _ _) as J'.
    pose proof (joined_fun B F L _ _ _ J J') as X. discriminate.
  Qed.

  (** How many splitters there are. *)
  Lemma mate_fun s s' : is_splitter_at A T s -> is_splitter_at A T s' -> fst s = fst s' -> s = s'.
  Proof.
    intros (_ & _ & d & T1 & _ & E1) (_ & _ & d' & T1' & _ & E1') E. destruct s as [p q], s' as [p' q']. cbn [fst snd] in *. subst p'. rewrite T1 in T1'. injection T1' as <-. congruence.
  Qed.
  Definition level (k : nat) (p : pos) : Prop := exists s i, is_splitter_at A T s /\ fst s = p /\ 0 <= i < Z.of_nat k /\ members h (S p) = 2 ^ i.
  Lemma levels_listed k : Z.of_nat k <= Z.max 0 (Z.log2 h - 2) -> exists hs, NoDup hs /\ (forall p, In p hs <-> level k p) /\ Z.of_nat (length hs) = Z.of_nat k * (h / 2).
  Proof.
    induction k as [|k IH]; intros Hk.
    - exists []. split; [constructor|]. split; [|reflexivity]. intros p. split; [intros []|]. intros (s & i & _ & _ & Hi & _). lia.
    - destruct IH as (hs & Nd & In1 & Len); [lia|]. destruct (gr_levels _ _ _ _ _ Gr (Z.of_nat k) ltac:(lia)) as (sp & Nsp & In2 & Len2).
      exists (map fst sp ++ hs). split; [|split].
      + apply NoDup_app_intro.
        * revert Nsp. assert (X : forall s, In s sp -> is_splitter_at A T s) by (intros s Hs; apply In2; exact Hs). clear -X. induction sp as [|s sp IHs]; intros N; [constructor|].
          inversion N as [|? ? Ns N']; subst. cbn [map]. constructor; [|apply IHs; [intros; apply X; right; assumption|exact N']].
          intros Hi. apply in_map_iff in Hi. destruct Hi as (s' & E & Hi). apply Ns. rewrite (mate_fun s s'); [exact Hi|apply X; left; reflexivity|apply X; right; exact Hi|congruence].
        * exact Nd.
        * intros p H1 H2. apply In1 in H2. destruct H2 as (_ & i & _ & _ & Hi & Ei). apply in_map_iff in H1. destruct H1 as (s & <- & Hs). apply In2 in Hs. destruct Hs as [_ Es].
          rewrite Es in Ei. apply Z.pow_inj_r in Ei; lia.
      + intros p. rewrite in_app_iff, In1. split.
        * intros [H|(s & i & H)]; [|exists s, i; intuition lia]. apply in_map_iff in H. destruct H as (s & <- & Hs). apply In2 in Hs. destruct Hs as [As Es]. exists s, (Z.of_nat k). repeat (split; [first [assumption|reflexivity|lia]|]). exact Es.
        * intros (s & i & As & <- & Hi & Ei). destruct (Z.eq_dec i (Z.of_nat k)) as [->|Nk].
          -- left. apply in_map, In2. split; [exact As|exact Ei].
          -- right. exists s, i. repeat (split; [first [assumption|reflexivity|lia]|]). exact Ei.
      + rewrite app_length, map_length, Nat2Z.inj_add, Len, Len2. lia.
  Qed.
  Lemma inner_heads : exists hs, NoDup hs /\ (forall p, In p hs <-> inside A p /\ exists d, T p = Splitter d true) /\ Z.of_nat (length hs) = Z.max 0 (Z.log2 h - 2) * (h / 2).
  Proof.
    destruct (levels_listed (Z.to_nat (Z.max 0 (Z.log2 h - 2))) ltac:(lia)) as (hs & Nd & Hi & Len). exists hs. split; [exact Nd|]. split; [|rewrite Len; f_equal; lia].
    intros p. rewrite Hi. split.
    - intros (s & i & (Hp & _ & d & Tp & _) & <- & _). eauto.
    - intros (Hp & d & Tp). destruct (in_valid _ _ _ _ Inn) as (_ & Mate & _). destruct (Mate p d true Hp Tp) as (q & Eq & Tq).
      assert (As : is_splitter_at A T (p, q)). { split; [exact Hp|]. split; [eapply ahead_inside; exact Eq|]. exists d. cbn [fst snd]. repeat (split; [assumption|]). exact Eq. }
      destruct (gr_sizes _ _ _ _ _ Gr _ As) as (i & Hi' & Es & _). cbn [fst] in Es. exists (p, q), i. repeat (split; [first [assumption|reflexivity|lia]|]). exact Es.
  Qed.
  Lemma framed_count ss : all_splitters B F ss -> Z.of_nat (length ss) = Z.max 2 (Z.log2 h) * (h / 2).
  Proof.
    intros (Nss & At & All). destruct inner_heads as (hs & Nd & Hi & Len).
    set (heads (x : Z) := map (fun k => (x, 2 * Z.of_nat k + 1)) (seq 0 (Z.to_nat (h / 2)))).
    assert (Cin : forall x p, In p (heads x) <-> fst p = x /\ 0 <= snd p < h /\ Z.odd (snd p) = true).
    { intros x [a b]. unfold heads. rewrite in_map_iff. pose proof (Z.div_mod h 2 ltac:(lia)) as D. rewrite fe in D. cbn [fst snd]. split.
      - intros (k & E & Hk). apply in_seq in Hk. apply pair_equal_spec in E. destruct E as [<- <-]. split; [reflexivity|]. split; [lia|]. rewrite Z.odd_add, Z.odd_mul. reflexivity.
      - intros (-> & Hb & Ho). pose proof (odd_spec b Ho) as M. pose proof (Z.div_mod b 2 ltac:(lia)) as D'. exists (Z.to_nat (b / 2)).
        assert (0 <= b / 2) by (apply Z.div_pos; lia). split; [apply pair_equal_spec; split; lia|]. apply in_seq. lia. }
    assert (Cnd : forall x, NoDup (heads x)). { intros x. apply FinFun.Injective_map_NoDup; [|apply seq_NoDup]. intros a b E. apply pair_equal_spec in E. lia. }
    assert (Clen : forall x, Z.of_nat (length (heads x)) = h / 2) by (intros x; unfold heads; rewrite map_length, seq_length; pose proof fh; apply Z2Nat.id, Z.div_pos; lia).
    assert (P : Permutation (map fst ss) (heads 1 ++ heads (w + 2) ++ map sh hs)).
    { apply NoDup_Permutation; [exact Nss| |].
      - apply NoDup_app_intro; [apply Cnd| |].
        + apply NoDup_app_intro; [apply Cnd| |].
          * apply FinFun.Injective_map_NoDup; [|exact Nd]. intros [a b] [a' b'] E. unfold sh in E. cbn [fst snd] in E. injection E as E1 E2. apply pair_equal_spec; split; lia.
          * intros p H1 H2. apply Cin in H1. apply in_map_iff in H2. destruct H2 as (r & <- & Hr). apply Hi in Hr. destruct Hr as [[Hr _] _]. change (0 <= fst r < w) in Hr. unfold sh in H1. cbn [fst snd] in H1. lia.
        + intros p H1 H2. apply Cin in H1. apply in_app_iff in H2. destruct H2 as [H2|H2]; [apply Cin in H2; lia|].
          apply in_map_iff in H2. destruct H2 as (r & <- & Hr). apply Hi in Hr. destruct Hr as [[Hr _] _]. change (0 <= fst r < w) in Hr. unfold sh in H1. cbn [fst snd] in H1. lia.
      - intros p. assert (X : In p (map fst ss) <-> inside B p /\ exists d, F p = Splitter d true).
        { split; [|intros (Hp & d & Tp); exact (All p d Hp Tp)]. intros H. apply in_map_iff in H. destruct H as (s & <- & Hs). destruct (At s Hs) as (Hp & _ & d & Tp & _). eauto. }
        rewrite X, !in_app_iff, !Cin. split.
        + intros (Hp & d & Tp). pose proof Hp as [_ Py]. change (0 <= snd p < h) in Py. destruct (cells_of w h T p Hp) as [[C1 C]|[[C1 C]|[[C1 C]|[[C1 C]|(r & Hr & -> & C)]]]]; fold F in C; rewrite C in Tp; try discriminate.
          * left. injection Tp as _ Ho. auto.
          * right. left. injection Tp as _ Ho. auto.
          * right. right. apply in_map, Hi. eauto.
        + intros [(E & Py & Ho)|[(E & Py & Ho)|H]].
          * destruct p as [x y]. cbn [fst snd] in *. subst x. split; [apply column_inside; lia|]. exists RIGHT. unfold F. rewrite (column w T Hw) by auto. rewrite Ho. reflexivity.
          * destruct p as [x y]. cbn [fst snd] in *. subst x. split; [apply column_inside; lia|]. exists RIGHT. unfold F. rewrite (column w T Hw) by auto. rewrite Ho. reflexivity.
          * apply in_map_iff in H. destruct H as (r & <- & Hr). apply Hi in Hr. destruct Hr as (Hr & d & Tr). split; [apply (inside_sh w h); exact Hr|]. exists d. unfold F. rewrite (framed_sh w h T r Hr). exact Tr. }
    apply Permutation_length in P. rewrite map_length, !app_length, map_length in P. rewrite P, !Nat2Z.inj_add, !Clen, Len. pose proof (Z.div_pos h 2 ltac:(pose proof fh; lia) ltac:(lia)).
    destruct (Z.max_spec 2 (Z.log2 h)) as [[? ->]|[? ->]], (Z.max_spec 0 (Z.log2 h - 2)) as [[? ->]|[? ->]]; lia.
  Qed.
End Framed.
