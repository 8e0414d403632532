(** The layouts that belt_balancer_net_free.py finds for as many outputs as
    inputs, exactly. *)
From Coq Require Import String ZArith QArith List Bool Lia.
From Verif Require Import P_Network P_Network2 P_Benes P_Nonneg P_Similar T_Network.
From Verif Require Import Spec_Cnf Spec_Tile Spec_Layout Spec_Pattern Spec_Main M_Json M_Tile M_Util M_Card M_Network Spec_Network M_Template M_Grid M_Oracle M_Balancer M_Optimise M_NetFree M_Main M_Partial
  Spec_Balancer Spec_Flow Spec_Interchange Spec_Pow2 Spec_Free P_Cnf P_Util P_Util2 P_Util3 P_Card P_Tile P_Layout P_List P_Template P_Walk P_Grid P_GridSound P_GridComplete P_Transport T_Grid T_Enumerate P_GridOk P_Gen P_Trace P_Uniq P_FlowWitness
  P_NetArith P_NetClause P_NetVars P_NetEnds P_NetShape P_Balancer T_Lossless P_NetFree P_NetTotal P_Connect P_Main P_Pow2Exact P_FreeNum P_FreeWitness.
From Verif Require P_Lossless.
Import ListNotations.
Open Scope Z_scope.

(** ** Numbers *)
Lemma next_power_log n : 0 < n -> next_power_of_two n = 2 ^ Z.log2_up n.
Proof.
  intros Hn. destruct (next_power_of_two_least n) as (k & Hk & -> & Ub & Lst). pose proof (Z.log2_up_nonneg n) as L0.
  assert (n <= 2 ^ Z.log2_up n). { destruct (Z.eq_dec n 1) as [->|]; [cbn; lia|]. apply (Z.log2_up_spec n). lia. }
  apply Z.le_antisymm; [apply Lst; assumption|]. apply Z.pow_le_mono_r; [lia|]. apply Z.log2_up_le_pow2; assumption.
Qed.
Lemma units_full n : 0 < n -> units n = full_flow n /\ n * denominator n = full_flow n.
Proof.
  intros Hn. split; [|reflexivity]. unfold units, full_flow, denominator, Z.lcm. rewrite (next_power_log n Hn), (Z.gcd_comm (2 ^ _)).
  apply Z.abs_eq. apply Z.mul_nonneg_nonneg; [lia|]. apply Z.div_pos; [apply Z.pow_nonneg; lia|].
  pose proof (Z.gcd_nonneg n (2 ^ Z.log2_up n)). assert (Z.gcd n (2 ^ Z.log2_up n) <> 0) by (intros C; apply Z.gcd_eq_0_l in C; lia). lia.
Qed.
(** Among [n] numbers that follow each other there is one that is [c] modulo [n]. *)
Lemma residue n i c : 0 < n -> 0 <= c < n -> exists y, i <= y < i + n /\ y mod n = c.
Proof.
  intros Hn Hc. exists (i + (c - i) mod n). pose proof (Z.mod_pos_bound (c - i) n Hn). split; [lia|].
  rewrite Zplus_mod_idemp_r. replace (i + (c - i)) with c by lia. apply Z.mod_small. exact Hc.
Qed.

(** ** A layout and its flows as a solution *)
Section Complete.
  Variables (w h : Z) (ul : option Z) (n : Z).
  Hypothesis Hw : 0 < w.
  Hypothesis Hh : 0 < h.
  Hypothesis Hn : 0 < n.
  Hypothesis Hul : match ul with Some l => 1 <= l | None => True end.
  Notation g := (n_to_n_grid w h ul n).
  Notation f := (n_flows n).
  Notation A := (garea g).
  Notation ML := (max_hidden g).
  Notation full := (full_flow n).
  Notation B := (fl_bits f).
  Variables (T : layout) (i j : Z) (F : Z -> pos -> Z).
  Hypothesis Op : open_part w h ML n T i j.
  Hypothesis Me : measured w h ML n T i j F.
  Lemma fc_ul : match ul with Some l => 0 <= l | None => True end.
  Proof. destruct ul; [lia|exact Logic.I]. Qed.
  Let W : wf_grid g := n_to_n_wf w h ul n Hw Hh fc_ul.
  Let VL : valid_layout A T ML := op_valid _ _ _ _ _ _ _ Op.

  (** The flows; cells of the outer columns that are empty carry what the clauses
      want. *)
  Definition flow_at (c : nat) (p : pos) : Z :=
    if fst p =? 0 then (if snd p mod n =? Z.of_nat c then full else 0) else if fst p =? w - 1 then denominator n else F (Z.of_nat c) p.
  Notation G := flow_at.
  Lemma fc_index c : (c < fl_count f)%nat <-> 0 <= Z.of_nat c < n - 1.
  Proof. cbn [n_flows fl_count]. lia. Qed.
  Lemma g_same c p : (c < fl_count f)%nat -> inside A p -> T p <> Empty -> G c p = F (Z.of_nat c) p.
  Proof.
    intros Hc Hp Ne. apply fc_index in Hc. destruct p as [x y]. destruct Hp as [Hx Hy]. change (aw A) with w in Hx. change (ah A) with h in Hy. cbn [fst snd] in Hx, Hy.
    destruct (units_full n Hn) as [U1 U2]. unfold flow_at. cbn [fst snd]. destruct (Z.eqb_spec x 0) as [->|N0].
    - destruct (op_first _ _ _ _ _ _ _ Op) as [_ E]. specialize (E y Hy). cbv beta in E.
      destruct ((i <=? y) && (y <? i + n)) eqn:Ei; [|congruence]. apply andb_true_iff in Ei. rewrite Z.leb_le, Z.ltb_lt in Ei. symmetry. rewrite <- U1. apply (me_first _ _ _ _ _ _ _ _ Me); lia.
    - destruct (Z.eqb_spec x (w - 1)) as [->|N1]; [|reflexivity]. destruct (op_last _ _ _ _ _ _ _ Op) as [_ E]. specialize (E y Hy). cbv beta in E.
      destruct ((j <=? y) && (y <? j + n)) eqn:Ei; [|congruence]. apply andb_true_iff in Ei. rewrite Z.leb_le, Z.ltb_lt in Ei.
      pose proof (me_last _ _ _ _ _ _ _ _ Me (Z.of_nat c) y Hc ltac:(lia)) as X. rewrite U1, <- U2 in X. apply Z.mul_cancel_l in X; lia.
  Qed.
  Lemma g_range c p : (c < fl_count f)%nat -> inside A p -> 0 <= G c p <= full.
  Proof.
    intros Hc Hp. destruct (denominator_exact n Hn) as (D0 & _ & F0 & _). destruct (units_full n Hn) as [U1 U2]. unfold flow_at. destruct (fst p =? 0); [destruct (_ =? _); lia|]. destruct (fst p =? w - 1); [nia|].
    rewrite <- U1. apply (me_range _ _ _ _ _ _ _ _ Me); [apply fc_index; exact Hc|exact Hp].
  Qed.
  Lemma taken p d : takes (T p) d -> T p <> Empty.
  Proof. intros H E. rewrite E in H. exact H. Qed.
  Lemma given p d : pushes (T p) d -> T p <> Empty.
  Proof. intros H E. rewrite E in H. exact H. Qed.
  Lemma g_hands c p q : (c < fl_count f)%nat -> hands_on A T p q -> G c p = G c q.
  Proof.
    intros Hc Hq. pose proof Hq as (Hp & Ns & d & P & E). assert (Iq : inside A q) by (eapply ahead_inside; exact E).
    assert (Ne : T q <> Empty). { pose proof VL as (_ & _ & Or & _). apply (taken q d). apply (Or p d q Hp P Ns E). }
    rewrite (g_same c p Hc Hp (given p d P)), (g_same c q Hc Iq Ne).
    apply (me_lines _ _ _ _ _ _ _ _ Me); [apply fc_index; exact Hc|]. eapply carried_belt; [exact Hq|constructor].
  Qed.
  Lemma g_under c p q : (c < fl_count f)%nat -> sends_under A T ML p q -> G c p = G c q.
  Proof.
    intros Hc Hq. pose proof Hq as (Hp & d & Tp & Tq & k & Hk & E & _). assert (Iq : inside A q) by (eapply ahead_inside; exact E).
    rewrite (g_same c p Hc Hp), (g_same c q Hc Iq) by congruence.
    apply (me_lines _ _ _ _ _ _ _ _ Me); [apply fc_index; exact Hc|]. eapply carried_under; [exact Hq|constructor].
  Qed.

  Definition mate_flow (c : nat) (p : pos) : Z :=
    match T p with Splitter d true => match neighbour A p (anticlockwise d) with Some q => G c q | None => 0 end | _ => 0 end.
  Definition carry_bits (c : nat) (p : pos) : list bool :=
    ripple (tl (bits_of B (G c p))) (tl (bits_of B (mate_flow c p))) (hd false (bits_of B (G c p))).
  Notation X := (fun c p => tq g T ML (G c) RIGHT p).
  Notation Y := (fun c p => tq g T ML (G c) UP p).
  (** [z]: the values of the variables that are not those of the grid. *)
  Variable z : assignment.
  Definition flow_values (v : Z) : bool :=
    if (0 <? v) && (v <=? grid_size g) then group_value f G mate_flow carry_bits X Y (var_owner g v) (Z.to_nat (var_offset g v - 20)) else z v.
  Definition free_view : assignment := plain_view g T ML flow_values.
  Notation a := free_view.
  Notation V p := (view_of a (tile_at g p)).

  Lemma fc_size : tile_size g = 20 + Z.of_nat (4 * (fl_count f * fl_bits f) + fl_count f * fl_cbits f).
  Proof.
    unfold tile_size, tile_template. cbn [n_to_n_grid gcolours gextras app]. rewrite <- (group_count "flow" [""; "_diff"; "_carry"; "_ux"; "_uy"]%string f eq_refl).
    cbn [variable_count fold_right snd shape_size]. lia.
  Qed.
  Lemma fc_glen : match glen g with Some l => 1 <= l /\ ML <= l | None => True end.
  Proof. unfold max_hidden. cbn [n_to_n_grid glen]. clear VL W Me Op. destruct ul; [lia|exact Logic.I]. Qed.
  Let PFacts := plain_facts g W eq_refl eq_refl eq_refl T ML flow_values fc_glen VL.
  Lemma fc_solves : solves g (EBool true) a.
  Proof. exact (proj1 PFacts). Qed.
  Lemma fc_reads : reads g a T.
  Proof. exact (proj1 (proj2 PFacts)). Qed.
  Lemma fc_con p d : inside A p -> (vi (V p) d = true <-> gets A T p d) /\ (vo (V p) d = true <-> gives A T p d).
  Proof. exact (proj2 (proj2 (proj2 PFacts)) p d). Qed.
  Lemma fc_values p o : inside A p -> (o < 4 * (fl_count f * fl_bits f) + fl_count f * fl_cbits f)%nat ->
    a (flow_base g f p + 1 + Z.of_nat o) = group_value f G mate_flow carry_bits X Y p o.
  Proof.
    intros Hp Ho. pose proof (proj1 (proj2 (proj2 PFacts)) p (Z.of_nat o) Hp ltac:(lia)) as E. pose proof fc_size as Sz. assert (Cb : colour_bits g = 0%nat) by reflexivity. rewrite Cb in E. specialize (E ltac:(lia)).
    unfold flow_base. change (fl_off f) with 0%nat. rewrite Z.add_0_r. etransitivity; [exact E|]. unfold flow_values, extras_base. rewrite Cb.
    replace (tile_base g p + 20 + 3 * Z.of_nat 0 + 1 + Z.of_nat o) with (tile_base g p + 1 + (20 + Z.of_nat o)) by lia.
    destruct (owner_offset g p (20 + Z.of_nat o) W Hp ltac:(lia)) as (Rg & -> & ->). change (gtop g) with 0 in Rg.
    rewrite (proj2 (Z.ltb_lt _ _) (proj1 Rg)), (proj2 (Z.leb_le _ _)) by (unfold grid_size; change (gtop g) with 0; apply Rg). cbn [andb]. f_equal. lia.
  Qed.
  Let Fb p (Hp : inside A p) : 0 <= flow_base g f p := flow_base_nonneg g W f p Hp.
  Lemma fc_fits : full < 2 ^ Z.of_nat B /\ (0 < B)%nat.
  Proof.
    destruct (denominator_exact n Hn) as (_ & _ & F0 & _). split; [apply (fits full); lia|apply (some_bits full); lia].
  Qed.
  Lemma fc_flow p c : inside A p -> (c < fl_count f)%nat -> value a (flow g f p c) = G c p.
  Proof.
    intros Hp Hc. apply (num_flow g f G mate_flow carry_bits X Y a fc_values Fb p c Hp Hc). pose proof (g_range c p Hc Hp). pose proof fc_fits. lia.
  Qed.

  Lemma connected_splitter p d b : inside A p -> T p = Splitter d b -> vi (V p) d = true /\ vo (V p) d = true.
  Proof.
    intros Hp Tp. destruct (op_connected _ _ _ _ _ _ _ Op p d b Hp Tp) as [(q & Eq & Tq) (r & Er & Tr)]. destruct (fc_con p d Hp) as [C1 C2]. split.
    - apply C1. split; [rewrite Tp; reflexivity|]. intros r' Er'. assert (r' = r) by (apply Some_inj; exact (eq_trans (eq_sym Er') Er)). subst r'. exact Tr.
    - apply C2. split; [rewrite Tp; reflexivity|]. intros q' Eq'. assert (q' = q) by (apply Some_inj; exact (eq_trans (eq_sym Eq') Eq)). subst q'. exact Tq.
  Qed.
  Lemma splitter_of p : inside A p -> vs (V p) = true -> exists d b, T p = Splitter d b.
  Proof.
    intros Hp Vs. pose proof (seen g W a (proj1 fc_solves) T fc_reads p Hp) as (_ & _ & _ & Ss & _). rewrite Ss in Vs. destruct (T p); try discriminate. eauto.
  Qed.
  Lemma head_splits p : inside A p -> vh (V p) = true -> exists d, T p = Splitter d true.
  Proof.
    intros Hp Vh. pose proof (seen g W a (proj1 fc_solves) T fc_reads p Hp) as (_ & _ & _ & _ & _ & _ & Sh). rewrite Vh in Sh. destruct (T p) as [| |i' o|d b|d b|d c|x y]; try discriminate. exists d. rewrite <- Sh. reflexivity.
  Qed.
  Lemma border p d b : inside A p -> T p = Splitter d b -> neighbour A p d <> None /\ neighbour A p (opposite d) <> None.
  Proof.
    intros Hp Tp. destruct (op_connected _ _ _ _ _ _ _ Op p d b Hp Tp) as [(q & Eq & _) (r & Er & _)]. change (Spec_Interchange.rectangle w h) with A in Eq, Er. rewrite Eq, Er. split; discriminate.
  Qed.

  Lemma fc_moved moved : transport_quantity g (all_flow g f) (flow_ux g f) (flow_uy g f) = Some moved -> sat a moved = true.
  Proof.
    intros Em. destruct (transport_sat g W a (all_flow g f) (flow_ux g f) (flow_uy g f) _ (all_flow_ok g W f) (flow_ux_ok g W f) (flow_uy_ok g W f)) as (cs & E & Q).
    assert (cs = moved) by (apply Some_inj; exact (eq_trans (eq_sym E) Em)). subst cs. apply Q. clear E Q. intros p d Hp q En. assert (Hq : inside A q) by (eapply ahead_inside; exact En).
    assert (U : forall r, inside A r -> values a (qu (flow_ux g f) (flow_uy g f) d r) = flat_map (fun c => bits_of B (tq g T ML (G c) d r)) (seq 0 (fl_count f))).
    { intros r Hr. unfold qu. destruct d; cbn [is_horizontal].
      - apply (val_ux g f G mate_flow carry_bits X Y a fc_values Fb r Hr).
      - apply (val_uy g f G mate_flow carry_bits X Y a fc_values Fb r Hr).
      - apply (val_ux g f G mate_flow carry_bits X Y a fc_values Fb r Hr).
      - apply (val_uy g f G mate_flow carry_bits X Y a fc_values Fb r Hr). }
    assert (Av : forall r, inside A r -> values a (all_flow g f r) = flat_map (fun c => bits_of B (G c r)) (seq 0 (fl_count f))) by (intros r Hr; apply (val_all g f G mate_flow carry_bits X Y a fc_values Fb r Hr)).
    assert (Sm : forall (u v : nat -> Z), (forall c, (c < fl_count f)%nat -> u c = v c) -> flat_map (fun c => bits_of B (u c)) (seq 0 (fl_count f)) = flat_map (fun c => bits_of B (v c)) (seq 0 (fl_count f))).
    { intros u v H. rewrite !flat_map_concat_map. f_equal. apply map_ext_in. intros c Hc. apply in_seq in Hc. rewrite H by lia. reflexivity. }
    assert (Tr : forall c, (c < fl_count f)%nat -> _) by (intros c Hc; exact (plain_transport g W T ML flow_values VL (G c) (fun p q => g_hands c p q Hc) (fun p q => g_under c p q Hc) p d q Hp En)).
    unfold value. rewrite !U, !Av by assumption. split; [|split; [|split]].
    - intros H1 H2. f_equal. apply Sm. intros c Hc. apply (proj1 (Tr c Hc)); assumption.
    - intros H1. f_equal. apply Sm. intros c Hc. apply (proj1 (proj2 (Tr c Hc))); assumption.
    - intros H1 H2 H3. f_equal. apply Sm. intros c Hc. apply (proj1 (proj2 (proj2 (Tr c Hc)))); assumption.
    - intros H1 H2 H3. f_equal. apply Sm. intros c Hc. apply (proj2 (proj2 (proj2 (Tr c Hc)))); assumption.
  Qed.

  Lemma nth_all {E} (l : list E) x : map (fun i => nth i l x) (seq 0 (List.length l)) = l.
  Proof.
    apply (nth_ext _ _ x x); [rewrite map_length, seq_length; reflexivity|]. intros k Hk. rewrite map_length, seq_length in Hk.
    rewrite (nth_indep _ x (nth 0 l x)) by (rewrite map_length, seq_length; exact Hk). rewrite (map_nth (fun i => nth i l x) (seq 0 (List.length l)) 0%nat k), seq_nth by exact Hk. reflexivity.
  Qed.
  Lemma tl_length {E} (l : list E) : List.length (tl l) = (List.length l - 1)%nat.
  Proof. destruct l; cbn; lia. Qed.
  Lemma fc_splitter p d k : inside A p -> splitter_flow g f p d = Some k -> sat a k = true.
  Proof.
    intros Hp E. unfold splitter_flow in E. destruct (block_of g p d) as [[[p10 p01] p11]|] eqn:Eb; [|apply Some_inj in E; subst k; reflexivity].
    pose proof (tile_at_ok g p W Hp) as Ok.
    (* what the splitter is *)
    assert (Sp : evl a (is_splitter_head (tile_at g p)) = true -> evl a (input_dir (tile_at g p) d) = true ->
      inside A p01 /\ inside A p10 /\ inside A p11 /\ (forall c, (c < fl_count f)%nat -> mate_flow c p = G c p01 /\ 2 * G c p10 = G c p + G c p01 /\ G c p11 = G c p10) /\
      exists c, (c < fl_count f)%nat /\ G c p <> G c p01).
    { intros Vh Vi. change (vh (V p) = true) in Vh. change (vi (V p) d = true) in Vi. destruct (head_splits p Hp Vh) as [e Tp].
      destruct (splitter_seen g W a (proj1 fc_solves) T fc_reads p e true Hp Tp) as (_ & _ & Oi & _). pose proof (Oi d Vi) as Ed. subst e.
      destruct (splitter_halves A T ML (WA g W) VL p d true Hp Tp) as (s & Hin & Eh). apply (proj1 (splitter_list_at A T ML VL s)) in Hin. pose proof Hin as (_ & _ & d2 & D1 & D2 & D3).
      destruct (splitter_block g W T border s Hin) as (d' & q10 & q11 & T1 & T2 & P1 & P2 & P3 & P4 & N1 & N2 & Eb'). subst p. assert (d' = d) by congruence. subst d'. assert (d2 = d) by congruence. subst d2.
      assert (Eq : Some (q10, snd s, q11) = Some (p10, p01, p11)) by (exact (eq_trans (eq_sym Eb') Eb)). apply Some_inj in Eq. assert (q10 = p10) by congruence. assert (q11 = p11) by congruence. assert (snd s = p01) by congruence. subst q10 q11 p01.
      split; [exact P2|]. split; [exact P3|]. split; [exact P4|].
      assert (Ne : T (fst s) <> Empty /\ T (snd s) <> Empty) by (rewrite T1, T2; split; discriminate).
      assert (Ne10 : T p10 <> Empty).
      { destruct (op_connected _ _ _ _ _ _ _ Op (fst s) d true P1 T1) as [(q & Eq' & Tq) _]. assert (q = p10) by (apply Some_inj; exact (eq_trans (eq_sym Eq') N1)). subst q. exact (taken p10 d Tq). }
      assert (Ne11 : T p11 <> Empty).
      { destruct (op_connected _ _ _ _ _ _ _ Op (snd s) d false P2 T2) as [(q & Eq' & Tq) _]. assert (q = p11) by (apply Some_inj; exact (eq_trans (eq_sym Eq') N2)). subst q. exact (taken p11 d Tq). }
      split.
      - intros c Hc. split.
        + unfold mate_flow. rewrite T1, D3. reflexivity.
        + rewrite (g_same c _ Hc P1), (g_same c _ Hc P2), (g_same c _ Hc P3), (g_same c _ Hc P4) by tauto. apply (me_halves _ _ _ _ _ _ _ _ Me (Z.of_nat c) s d p10 p11); try assumption. apply fc_index. exact Hc.
      - destruct (me_useful _ _ _ _ _ _ _ _ Me s Hin) as (c & Hc & Nq). exists (Z.to_nat c). assert (Hc' : (Z.to_nat c < fl_count f)%nat) by (apply fc_index; rewrite Z2Nat.id by lia; exact Hc). split; [exact Hc'|].
        rewrite (g_same _ _ Hc' P1), (g_same _ _ Hc' P2) by tauto. rewrite Z2Nat.id by lia. exact Nq. }
    destruct (for_components f _) as [cs|] eqn:Ec; [|discriminate]. cbn [obind] in E. apply Some_inj in E. subst k. rewrite sat_app_iff. split.
    - apply (sat_oflat a _ _ _ Ec). intros c Hin. destruct (oflat_each _ _ _ Ec c Hin) as (k & Ek). exists k. split; [exact Ek|]. apply in_seq in Hin. assert (Hc : (c < fl_count f)%nat) by lia.
      destruct (halve _ _ _ _ _) as [hv|] eqn:Eh; [|discriminate]. cbn [obind] in Ek. apply Some_inj in Ek. subst k. rewrite sat_implies2 by apply Ok. intros Vh Vi.
      destruct (Sp Vh Vi) as (P01 & P10 & P11 & Hv & _). destruct (Hv c Hc) as (Em & E1 & E2).
      apply (halve_given a (flow g f p c) (flow g f p01 c) (flow g f p10 c) (flow g f p11 c) (flow_carry g f p c) hv); try (apply flow_nonzero; assumption); try (apply flow_carry_nonzero; assumption); try exact Eh.
      + rewrite flow_length. rewrite (val_carry g f G mate_flow carry_bits X Y a fc_values Fb p c Hp Hc), !(val_flow g f G mate_flow carry_bits X Y a fc_values Fb _ c) by assumption.
        assert (Lk : List.length (carry_bits c p) = fl_cbits f).
        { unfold carry_bits. rewrite ripple_length by (rewrite !tl_length, !bits_of_length; reflexivity). rewrite tl_length, bits_of_length. reflexivity. }
        rewrite <- Lk at 1. rewrite nth_all. rewrite firstn_all2 by (rewrite Lk; cbn [n_flows fl_cbits fl_bits]; lia). unfold carry_bits. rewrite Em. reflexivity.
      + rewrite !fc_flow by assumption. lia.
      + rewrite !fc_flow by assumption. exact E2.
    - apply differ_given.
      + constructor; [apply Ok|]. constructor; [apply Ok|constructor].
      + apply (all_flow_ok g W f p Hp).
      + assert (I01 : inside A p01).
        { unfold block_of in Eb. destruct (get_tile_instance_offset _ _ _ (dx d) _) as [r1|]; [|discriminate]. destruct (get_tile_instance_offset (geo g) (fst p) (snd p) (dx (next d)) (dy (next d))) as [r2|] eqn:E2; [|discriminate].
          destruct (get_tile_instance_offset _ _ _ (dx d + _) _) as [r3|]; [|discriminate]. apply Some_inj in Eb. assert (r2 = p01) by congruence. subst r2. rewrite (offset_neighbour g W) in E2. eapply ahead_inside. exact E2. }
        apply (all_flow_ok g W f p01 I01).
      + apply (flow_diff_ok g W f p Hp).
      + unfold all_flow. rewrite !components_length. reflexivity.
      + unfold all_flow, flow_diff. rewrite !components_length. reflexivity.
      + intros Pre. destruct (Sp (Pre _ (or_introl eq_refl)) (Pre _ (or_intror (or_introl eq_refl)))) as (P01 & P10 & P11 & Hv & (c & Hc & Nq)).
        rewrite (val_diff g f G mate_flow carry_bits X Y a fc_values Fb p Hp), !(val_all g f G mate_flow carry_bits X Y a fc_values Fb) by assumption. split.
        * unfold bits_of. rewrite (xor_components B (fl_count f) (fun c i => Z.testbit (G c p) (Z.of_nat i)) (fun c i => Z.testbit (G c p01) (Z.of_nat i))).
          rewrite !flat_map_concat_map. f_equal. apply map_ext_in. intros x Hx. apply in_seq in Hx. rewrite (proj1 (Hv x ltac:(lia))). reflexivity.
        * intros Ev. apply Nq. rewrite <- (fc_flow p c Hp Hc), <- (fc_flow p01 c P01 Hc). apply (components_equal a _ _ B (fl_count f) Ev c Hc).
  Qed.

  Lemma fc_straight y : 0 <= y < h -> ~ is_splitter_tile (T (0, y)) /\ ~ is_splitter_tile (T (w - 1, y)).
  Proof.
    intros Hy. destruct (op_first _ _ _ _ _ _ _ Op) as [_ E1]. destruct (op_last _ _ _ _ _ _ _ Op) as [_ E2]. specialize (E1 y Hy). specialize (E2 y Hy). cbv beta in E1, E2. rewrite E1, E2. split; intros Q; [destruct ((i <=? y) && (y <? i + n)) | destruct ((j <=? y) && (y <? j + n))]; exact Q.
  Qed.
  Lemma fc_edge v x y cs : inside A (x, y) -> ~ is_splitter_tile (T (x, y)) -> (forall c, (c < fl_count f)%nat -> G c (x, y) = v y c /\ 0 <= v y c <= full) -> edge_flow g [(f, v)] x y = Some cs -> sat a cs = true.
  Proof.
    intros Hp Ns Hv E. unfold edge_flow in E. cbn [omap fst snd] in E. destruct (for_components f _) as [k|] eqn:Ek; [|discriminate]. cbn [obind] in E. apply Some_inj in E. subst cs. cbn [List.concat]. rewrite app_nil_r.
    pose proof (tile_at_ok g _ W Hp) as Ok. rewrite sat_cons_iff, satc_one. split.
    - rewrite P_Cnf.evl_neg by apply Ok. apply negb_true_iff. change (vs (V (x, y)) = false). pose proof (seen g W a (proj1 fc_solves) T fc_reads _ Hp) as (_ & _ & _ & Ss & _). rewrite Ss. destruct (T (x, y)); try reflexivity. contradiction Ns. exact Logic.I.
    - apply (sat_oflat a _ _ _ Ek). intros c Hin. destruct (oflat_each _ _ _ Ek c Hin) as (k' & Ek'). exists k'. split; [exact Ek'|]. apply in_seq in Hin. assert (Hc : (c < fl_count f)%nat) by lia. destruct (Hv c Hc) as [E1 E2].
      apply (set_number_spec _ _ _ (flow_nonzero g W f (x, y) c Hp) Ek'). rewrite (fc_flow _ c Hp Hc), E1. symmetry. apply Z.mod_small. unfold len. rewrite flow_length. pose proof fc_fits. lia.
  Qed.
  (** With one column there is one input. *)
  Lemma fc_one c : w = 1 -> (c < fl_count f)%nat -> False.
  Proof.
    intros W1 Hc. apply fc_index in Hc. destruct (residue n j (Z.of_nat c) Hn ltac:(lia)) as (y & Hy & Ey). destruct (units_full n Hn) as [U1 U2]. destruct (denominator_exact n Hn) as (_ & _ & F0 & _).
    pose proof (me_last _ _ _ _ _ _ _ _ Me (Z.of_nat c) y Hc Hy) as E1. rewrite W1 in E1. change (1 - 1) with 0 in E1.
    assert (Hy' : i <= y < i + n).
    { destruct (op_last _ _ _ _ _ _ _ Op) as [R1 E]. destruct (op_first _ _ _ _ _ _ _ Op) as [R2 E']. specialize (E y ltac:(lia)). specialize (E' y ltac:(lia)). cbv beta in E, E'. rewrite W1 in E. change (1 - 1) with 0 in E.
      rewrite E' in E. destruct (Z.leb_spec j y), (Z.ltb_spec y (j + n)), (Z.leb_spec i y), (Z.ltb_spec y (i + n)); cbn [andb] in E; try lia; discriminate. }
    pose proof (me_first _ _ _ _ _ _ _ _ Me (Z.of_nat c) y Hc Hy') as E2. rewrite Ey, Z.eqb_refl in E2. rewrite E2 in E1. nia.
  Qed.
  Lemma fc_left y c : 0 <= y < h -> G c (0, y) = source_flow n full y c.
  Proof. reflexivity. Qed.
  Lemma fc_right y c : (c < fl_count f)%nat -> G c (w - 1, y) = denominator n.
  Proof.
    intros Hc. unfold flow_at. cbn [fst snd]. destruct (Z.eqb_spec (w - 1) 0) as [E|]; [exfalso; apply (fc_one c); [lia|exact Hc]|]. rewrite Z.eqb_refl. reflexivity.
  Qed.
  Theorem fc_created created : create_n_to_n_balancer w h ul n = Some (g, created) -> sat a created = true.
  Proof.
    intros E. unfold create_n_to_n_balancer in E. rewrite (proj2 (Z.ltb_lt 0 w) Hw), (proj2 (Z.ltb_lt 0 h) Hh), (proj2 (Z.ltb_lt 0 n) Hn) in E. cbn [negb andb] in E.
    destruct (init_clauses g) as [init|] eqn:Ei; [|discriminate]. cbn [obind] in E.
    destruct (oflat _ (iterate_tiles (geo g))) as [tiles|] eqn:Et; [|discriminate]. cbn [obind] in E.
    destruct (transport_quantity _ _ _ _) as [moved|] eqn:Em; [|discriminate]. cbn [obind] in E.
    destruct (oflat _ (cells w h)) as [splitters|] eqn:Esp; [|discriminate]. cbn [obind] in E.
    destruct (oflat (edge_flow g _ 0) (range h)) as [first|] eqn:Ef; [|discriminate]. cbn [obind] in E.
    destruct (oflat (edge_flow g _ (w - 1)) (range h)) as [final|] eqn:El; [|discriminate]. cbn [obind] in E. apply Some_inj in E.
    assert (Ec : created = (init ++ block_underground_through_edges g (EBool true) ++ prevent_bad_undergrounding g ++ tiles ++ moved ++ splitters ++ first ++ final)%list) by congruence.
    rewrite Ec. clear E Ec. destruct fc_solves as ((init' & Ei' & Si) & Ix & Ug & Be & Ln). destruct (denominator_exact n Hn) as (D0 & _ & F0 & _).
    assert (Left : forall y, 0 <= y < h -> inside A (0, y)) by (intros y Hy; split; cbn [garea area_of aw ah fst snd]; cbn; lia).
    assert (Right : forall y, 0 <= y < h -> inside A (w - 1, y)) by (intros y Hy; split; cbn [garea area_of aw ah fst snd]; cbn; lia).
    rewrite !sat_app_iff. repeat (match goal with |- _ /\ _ => split end).
    - assert (init' = init) by (apply Some_inj; exact (eq_trans (eq_sym Ei') Ei)). subst init'. exact Si.
    - exact Be.
    - exact Ug.
    - apply (sat_oflat a _ _ _ Et). intros p Hin. destruct (oflat_each _ _ _ Et p Hin) as (k & Ek). exists k. split; [exact Ek|]. cbv beta zeta in Ek. apply iterate_tiles_in in Hin. change (inside A p) in Hin.
      destruct (for_components f _) as [bd|] eqn:Eb; [|discriminate]. cbn [obind] in Ek. apply Some_inj in Ek. subst k. pose proof (tile_at_ok g p W Hin) as Ok. rewrite sat_app_iff. split.
      + rewrite sat_implies1 by apply Ok. intros Vs. change (vs (V p) = true) in Vs. destruct (splitter_of p Hin Vs) as (d & b & Tp). destruct (connected_splitter p d b Hin Tp) as [Vi Vo].
        rewrite !sat_cons_iff. unfold inputs, outputs. rewrite !satc_dirs. split; [exists d; exact Vi|]. split; [exists d; exact Vo|reflexivity].
      + apply (sat_oflat a _ _ _ Eb). intros c Hc. destruct (oflat_each _ _ _ Eb c Hc) as (k & Ek). exists k. split; [exact Ek|]. apply in_seq in Hc.
        apply (set_maximum_spec _ _ _ (flow_nonzero g W f p c Hin) Ek). rewrite fc_flow by (try exact Hin; lia). apply (g_range c p); [lia|exact Hin].
    - apply fc_moved. exact Em.
    - apply (sat_oflat a _ _ _ Esp). intros p Hin. destruct (oflat_each _ _ _ Esp p Hin) as (k & Ek). exists k. split; [exact Ek|]. change (cells w h) with (iterate_tiles (geo g)) in Hin. apply iterate_tiles_in in Hin. change (inside A p) in Hin.
      apply (sat_oflat a _ _ _ Ek). intros d Hd. destruct (oflat_each _ _ _ Ek d Hd) as (k' & Ek'). exists k'. split; [exact Ek'|]. exact (fc_splitter p d k' Hin Ek').
    - apply (sat_oflat a _ _ _ Ef). intros y Hin. destruct (oflat_each _ _ _ Ef y Hin) as (k & Ek). exists k. split; [exact Ek|]. apply range_in in Hin. apply (fc_edge (source_flow n full) 0 y k (Left y Hin)); [apply fc_straight; exact Hin| |exact Ek].
      intros c Hc. split; [apply fc_left; exact Hin|]. unfold source_flow. destruct (_ =? _); lia.
    - apply (sat_oflat a _ _ _ El). intros y Hin. destruct (oflat_each _ _ _ El y Hin) as (k & Ek). exists k. split; [exact Ek|]. apply range_in in Hin. apply (fc_edge (fun _ _ => denominator n) (w - 1) y k (Right y Hin)); [apply fc_straight; exact Hin| |exact Ek].
      intros c Hc. split; [apply fc_right; exact Hc|]. unfold full_flow. nia.
  Qed.

  Lemma edge_none d (p : pos) : inside A p -> (neighbour A p d = None <-> match d with RIGHT => fst p = w - 1 | LEFT => fst p = 0 | UP => snd p = 0 | DOWN => snd p = h - 1 end).
  Proof.
    intros Hp. split.
    - intros N. apply (neighbour_none A p d (WA g W) Hp) in N. destruct N as [_ N]. exact N.
    - intros N. unfold neighbour, ahead, place. change (wrapx A) with false. change (wrapy A) with false. cbv iota. destruct (insideb A _) eqn:Ei; [|reflexivity]. apply insideb_iff in Ei. exfalso.
      destruct Hp as [P1 P2], Ei as [Q1 Q2]. destruct p as [x y]. change (aw A) with w in *. change (ah A) with h in *. cbn [fst snd] in *. destruct d; cbn [step_x step_y] in *; lia.
  Qed.
  Lemma far_in (p : pos) d k q : ahead A p d k = Some q -> inside A q /\ q = far p d k.
  Proof.
    unfold ahead, far, place. change (wrapx A) with false. change (wrapy A) with false. cbv iota. destruct (insideb A _) eqn:Ei; [|discriminate]. intros Eq. apply Some_inj in Eq. apply insideb_iff in Ei. split; [rewrite <- Eq; exact Ei|symmetry; exact Eq].
  Qed.
  Lemma end_rows (x k : Z) : Spec_Flow.straight_ends T (fun y => (x, y)) h n k -> forall y, k <= y < k + n -> 0 <= y < h /\ T (x, y) = Belt RIGHT RIGHT.
  Proof.
    intros [Rg E] y Hy. specialize (E y ltac:(lia)). cbv beta in E. split; [lia|]. rewrite E. destruct (Z.leb_spec k y), (Z.ltb_spec y (k + n)); try lia. reflexivity.
  Qed.
  Lemma fc_belts : sat a (block_belts_through_edges g (EPair false true)) = true.
  Proof.
    apply (C50_block_belts g a (EPair false true) T W (proj1 fc_solves) fc_reads). intros p d Hp He'. assert (Nd : neighbour A p d = None).
    { apply (edge_none d p Hp). destruct d; cbn in He'; destruct He' as [Q1 Q2]; try discriminate; exact Q2. }
    assert (Vd : d = UP \/ d = DOWN) by (destruct d; cbn in He'; destruct He' as [Q1 Q2]; try discriminate; tauto).
    assert (Vo : opposite d <> RIGHT /\ d <> RIGHT) by (destruct Vd; subst d; split; discriminate).
    assert (K1 : ~ takes (T p) (opposite d)).
    { intros K. assert (Bg : begins A T (Enter p) p). { split; [reflexivity|]. split; [exact Hp|]. exists (opposite d). rewrite opposite_opposite. split; assumption. }
      apply (proj2 (op_inlets _ _ _ _ _ _ _ Op)), rows_in in Bg; [|lia]. destruct Bg as [X1 X2]. destruct p as [x y]. cbn [fst snd] in *. subst x.
      destruct (end_rows 0 i (op_first _ _ _ _ _ _ _ Op) y X2) as [_ Et]. rewrite Et in K. cbn in K. apply (proj1 Vo). congruence. }
    assert (NS : T p <> Splitter d true /\ T p <> Splitter d false).
    { split; intros E; exact (proj1 (border p d _ Hp E) Nd). }
    assert (K2 : ~ pushes (T p) d).
    { intros K. assert (Ns : ~ is_splitter_tile (T p)).
      { intros Sp. destruct (T p) as [| | | |e b| |] eqn:Tp; try contradiction. cbn in K. subst e. destruct b; tauto. }
      assert (Bg : reaches A T (Leave p) p). { split; [reflexivity|]. split; [exact Hp|]. split; [exact Ns|]. exists d. split; assumption. }
      apply (proj2 (op_outlets _ _ _ _ _ _ _ Op)), rows_in in Bg; [|lia]. destruct Bg as [X1 X2]. destruct p as [x y]. cbn [fst snd] in *. subst x.
      destruct (end_rows (w - 1) j (op_last _ _ _ _ _ _ _ Op) y X2) as [_ Et]. rewrite Et in K. cbn in K. apply (proj2 Vo). congruence. }
    split; [exact K1|]. split; [exact K2|]. pose proof VL as (_ & _ & _ & _ & _ & _ & Ent & Ex). apply (edge_none d p Hp) in Nd. split; intros Et.
    - destruct (Ent p d Hp Et) as (q & _ & k & Hk & Eq & _). destruct (far_in _ _ _ _ Eq) as [Hq ->]. destruct Hp as [P1 P2], Hq as [Q1 Q2]. unfold far in *. change (aw A) with w in *. change (ah A) with h in *. cbn [fst snd] in *. destruct Vd; subst d; cbn [step_x step_y] in *; lia.
    - destruct (Ex p _ Hp Et) as (q & Hq & _ & k & Hk & Eq & _). destruct (far_in _ _ _ _ Eq) as [_ Ep]. destruct q as [qx qy], p as [x y]. unfold far in Ep. destruct Hp as [P1 P2], Hq as [Q1 Q2]. change (aw A) with w in *. change (ah A) with h in *. cbn [fst snd] in *.
      injection Ep as E1 E2. destruct Vd; subst d; cbn [opposite step_x step_y] in *; lia.
  Qed.
End Complete.

(** ** The list of calls *)
Lemma free_wishes l partial g x : In x (wishes (free_options l partial) g) <-> x = prevent_double_edge_belts g \/ In x (wishes (fast_options l partial) g).
Proof.
  unfold wishes, wishes1, wishes2, wishes3, whenp. cbn [free_options fast_options o_edge_belts o_glue o_fast o_expand o_mergeable o_patterns o_partial orb app In]. intuition congruence.
Qed.
Lemma free_split w h l n al partial g cs top : net_free_main w h l n n al partial = Some (g, cs, top) ->
  0 < w /\ 0 < h /\ 0 < n /\ (l = -1 \/ 1 <= l) /\ g = n_to_n_grid w h (length_option l) n /\
  (forall x, In x (wishes (free_options l partial) g) -> exists c, x = Some c) /\
  exists created ends, create_n_to_n_balancer w h (length_option l) n = Some (g, created) /\ setup_free_ends g n n al (grid_top g) = Some (ends, top) /\
    forall a, sat a cs = true <-> sat a created = true /\ sat a ends = true /\ sat a (block_belts_through_edges g (EPair false true)) = true /\
      forall x, In x (wishes (free_options l partial) g) -> granted a x.
Proof.
  unfold net_free_main. intros H. destruct (with_partial_split _ _ _ _ _ H) as (cs0 & Ep & Pt & Sp). clear H. unfold net_free in Ep.
  destruct (create_n_to_m_balancer w h (length_option l) n n) as [[g' created]|] eqn:Ec; [|discriminate]. cbn [obind] in Ep.
  assert (Ec' : create_n_to_n_balancer w h (length_option l) n = Some (g', created)).
  { unfold create_n_to_m_balancer in Ec. destruct (negb _); [discriminate|]. rewrite Z.eqb_refl in Ec. exact Ec. }
  assert (G : g' = n_to_n_grid w h (length_option l) n /\ 0 < w /\ 0 < h /\ 0 < n).
  { unfold create_n_to_n_balancer in Ec'. destruct (Z.ltb_spec 0 w), (Z.ltb_spec 0 h), (Z.ltb_spec 0 n); cbn [negb andb] in Ec'; try discriminate.
    destruct (init_clauses _) as [init|]; [|discriminate]. cbn [obind] in Ec'. destruct (oflat _ _) as [k1|]; [|discriminate]. cbn [obind] in Ec'. destruct (transport_quantity _ _ _ _) as [k2|]; [|discriminate]. cbn [obind] in Ec'.
    destruct (oflat _ (cells w h)) as [k3|]; [|discriminate]. cbn [obind] in Ec'. destruct (oflat _ (range h)) as [k4|]; [|discriminate]. cbn [obind] in Ec'. destruct (oflat _ (range h)) as [k5|]; [|discriminate]. cbn [obind] in Ec'.
    apply Some_inj in Ec'. split; [congruence|auto]. }
  destruct G as (Eg & Hw & Hh & Hn). assert (Gl : glen g' = length_option l) by (rewrite Eg; reflexivity).
  rewrite !seq_gen_cons in Ep. destruct (setup_free_ends g' n n al (grid_top g')) as [[ends t1]|] eqn:Ee; [|discriminate]. cbn [pure obind] in Ep.
  destruct (enforce_maximum_underground_length g') as [lc|] eqn:El; [|discriminate]. cbn [pure obind] in Ep.
  destruct (expand_underground g' 1 0 (Some (width (geo g') - 2)) None) as [xc|] eqn:Ex; [|discriminate]. cbn [pure obind] in Ep.
  destruct (prevent_double_edge_belts g') as [dc|] eqn:Ed; [|discriminate]. cbn [pure obind seq_gen] in Ep.
  apply Some_inj in Ep. assert (Egg : g' = g) by congruence. revert Eg. subst g'. intros Eg. assert (t1 = top) by congruence. subst t1.
  assert (Ecs : cs0 = (created ++ ends ++ block_belts_through_edges g (EPair false true) ++ prevent_intersection g ++ lc ++ xc ++ apply_generic_optimisations g ++ dc ++ [])%list) by congruence.
  split; [exact Hw|]. split; [exact Hh|]. split; [exact Hn|]. split; [|split; [exact Eg|split]].
  - unfold enforce_maximum_underground_length in El. rewrite Gl in El. unfold length_option in El. destruct (Z.eqb_spec l (-1)); [left; assumption|]. destruct (Z.leb_spec 1 l); [lia|discriminate].
  - intros x Hx. apply free_wishes in Hx. destruct Hx as [->|Hx]; [eauto|]. unfold wishes, wishes1, wishes2, wishes3, whenp in Hx. cbn [fast_options o_edge_belts o_glue o_fast o_expand o_mergeable o_patterns o_partial orb app] in Hx.
    repeat (destruct Hx as [<-|Hx]; [first [eexists; reflexivity|eauto]|]). destruct partial as [G|]; [|destruct Hx]. destruct Hx as [<-|[]]. apply Pt. reflexivity.
  - exists created, ends. split; [exact Ec'|]. split; [exact Ee|]. intros a. rewrite Sp. rewrite Ecs, !sat_app_iff. change (sat a []) with true.
    assert (X1 : granted a (enforce_maximum_underground_length g) <-> sat a lc = true) by (rewrite El; apply granted_some).
    assert (X2 : granted a (expand_underground g 1 0 (Some (width (geo g) - 2)) None) <-> sat a xc = true) by (rewrite Ex; apply granted_some).
    assert (X3 : granted a (prevent_double_edge_belts g) <-> sat a dc = true) by (rewrite Ed; apply granted_some).
    pose proof (generic_wishes l partial g a) as Gw.
    assert (Y : (forall x, In x (wishes (free_options l partial) g) -> granted a x) <-> granted a (prevent_double_edge_belts g) /\ forall x, In x (wishes (fast_options l partial) g) -> granted a x).
    { split.
      - intros Q. split; [apply Q, free_wishes; left; reflexivity|intros x Hx; apply Q, free_wishes; right; exact Hx].
      - intros [Q1 Q2] x Hx. apply free_wishes in Hx. destruct Hx as [->|Hx]; auto. }
    rewrite Y, Gw, X1, X2, X3. tauto.
Qed.

(** ** Solutions *)
Lemma free_known w h l n al partial g cs top a : net_free_main w h l n n al partial = Some (g, cs, top) -> sat a cs = true -> net_parts w h (length_option l) n n al g a.
Proof.
  unfold net_free_main. intros H Sa. destruct (with_partial_split _ _ _ _ _ H) as (cs0 & Ep & _ & Sp). apply Sp in Sa. apply net_free_parts. exists cs0, top. split; [exact Ep|apply Sa].
Qed.
Section Sound.
  Variables (w h n : Z) (ul : option Z) (al : bool) (g : grid) (a : assignment).
  Hypothesis Hul : match ul with Some l => 0 <= l | None => True end.
  Hypothesis Sol : net_parts w h ul n n al g a.
  Hypothesis Gg : g = n_to_n_grid w h ul n.
  Variable T : layout.
  Hypothesis R : reads g a T.
  Let Fa := nn_facts w h n ul al g a Hul Sol.
  Let W : wf_grid g := nn_wf _ _ _ _ _ Fa.
  Notation f := (n_flows n).
  Notation ML := (max_hidden g).
  Let So := nn_solves w h n ul al g a Hul Sol.
  Let Full := nn_full w h n ul al g a Hul Sol T R.
  Lemma same_area : garea g = Spec_Interchange.rectangle w h.
  Proof. rewrite Gg. reflexivity. Qed.
  Lemma free_sound : exists i j, open_part w h ML n T i j /\ (al = true -> i = j) /\ measured w h ML n T i j (fun c p => value a (flow g f p (Z.to_nat c))).
  Proof.
    pose proof (nn_size _ _ _ _ _ Fa) as Hn. destruct (nn_ends w h n ul al g a Hul Sol T R) as (i & j & E1 & E2 & E3). exists i, j. destruct (units_full n Hn) as [U1 U2].
    assert (Ar := same_area). pose proof (nn_border w h n ul al g a Hul Sol T R) as Bd.
    split; [|split; [exact E3|]].
    - constructor; try assumption; rewrite <- Ar.
      + exact (closed_valid g W a So T R).
      + rewrite <- (nn_hg _ _ _ _ _ Fa) in E1, E2. rewrite <- (nn_wd _ _ _ _ _ Fa) in E2.
        exact (entries_list g W (nn_cx _ _ _ _ _ Fa) (nn_cy _ _ _ _ _ Fa) a So T R (nn_belts w h n ul al g a Hul Sol) (nn_edge w h n ul al g a Hul Sol T R) n n i j Hn E1 E2).
      + rewrite <- (nn_hg _ _ _ _ _ Fa) in E1, E2. rewrite <- (nn_wd _ _ _ _ _ Fa) in E2. rewrite <- (nn_wd _ _ _ _ _ Fa).
        exact (departures_list g W (nn_cx _ _ _ _ _ Fa) (nn_cy _ _ _ _ _ Fa) a So T R (nn_belts w h n ul al g a Hul Sol) n n i j Hn E1 E2).
      + intros p d b Hp Tp. destruct (Full p d b Hp Tp) as [I O]. destruct (Bd p d b Hp Tp) as [N1 N2].
        pose proof (full_gets g W a So T R Full p d Hp) as G1. pose proof (full_gives g W a So T R Full p d Hp) as G2. apply G1 in I. apply G2 in O. split.
        * destruct (neighbour (garea g) p d) as [q|] eqn:Eq; [|contradiction]. exists q. split; [reflexivity|]. apply (proj2 O q Eq).
        * destruct (neighbour (garea g) p (opposite d)) as [q|] eqn:Eq; [|contradiction]. exists q. split; [reflexivity|]. apply (proj2 I q Eq).
    - constructor; rewrite <- ?Ar.
      + intros c p Hc Hp. split; [apply value_bound|]. rewrite U1. apply (nn_max _ _ _ _ _ Fa); [exact Hp|cbn [n_flows fl_count]; lia].
      + intros c p q Hc C. destruct (nn_moved _ _ _ _ _ Fa) as (moved & Em & Sm). apply (flow_carried g W a f T R So moved Em Sm ML (Z.to_nat c) p q); [cbn [n_flows fl_count]; lia|exact C].
      + intros c y Hc Hy. destruct E1 as [Rg _]. destruct (nn_first _ _ _ _ _ Fa y ltac:(lia)) as [_ H]. rewrite (H (Z.to_nat c)) by (cbn [n_flows fl_count]; lia). rewrite Z2Nat.id, U1 by lia. reflexivity.
      + intros c y Hc Hy. destruct E2 as [Rg _]. destruct (nn_final _ _ _ _ _ Fa y ltac:(lia)) as [_ H]. rewrite (H (Z.to_nat c)) by (cbn [n_flows fl_count]; lia). rewrite U1. exact U2.
      + intros c s d p q Hc Hs T1 N1 N2. pose proof (nn_halves w h n ul al g a Hul Sol T R s Hs d p q T1 N1 N2 (Z.to_nat c)) as X. assert (Hc' : (Z.to_nat c < fl_count f)%nat) by (cbn [n_flows fl_count]; lia). destruct (X Hc') as [X1 X2]. split; [symmetry; exact X1|exact X2].
      + intros s Hs. destruct (nn_distinct w h n ul al g a Hul Sol T R s Hs) as (c & Hc & N). exists (Z.of_nat c). rewrite Nat2Z.id. split; [cbn [n_flows fl_count] in Hc; lia|exact N].
  Qed.
End Sound.

(** ** Both directions *)
Lemma view_elsewhere w h ul n T F z v : ~ 0 < v <= grid_size (n_to_n_grid w h ul n) -> free_view w h ul n T F z v = z v.
Proof.
  intros N. unfold free_view, plain_view, layout_assignment, table.
  assert (X : (0 <? v) && (v <=? grid_size (n_to_n_grid w h ul n)) = false) by (apply andb_false_iff; destruct (Z.ltb_spec 0 v), (Z.leb_spec v (grid_size (n_to_n_grid w h ul n))); tauto || lia).
  change (gtop (n_to_n_grid w h ul n)) with 0. change (0 + _) with (grid_size (n_to_n_grid w h ul n)). rewrite X. cbn [andb]. unfold flow_values. rewrite X. reflexivity.
Qed.
Lemma view_inside w h ul n T F z z' v : 0 < v <= grid_size (n_to_n_grid w h ul n) -> free_view w h ul n T F z v = free_view w h ul n T F z' v.
Proof.
  intros [N1 N2]. unfold free_view, plain_view, layout_assignment, table. destruct (_ && _); [reflexivity|]. unfold flow_values. rewrite (proj2 (Z.ltb_lt _ _) N1), (proj2 (Z.leb_le _ _) N2). reflexivity.
Qed.
Lemma sat_same a b cs : (forall v, a v = b v) -> sat a cs = sat b cs.
Proof.
  intros H. unfold sat. induction cs as [|c cs IH]; [reflexivity|]. cbn [forallb]. rewrite IH. f_equal. unfold satc. clear IH. induction c as [|l c IH]; [reflexivity|]. cbn [existsb]. rewrite IH. f_equal. unfold evl. rewrite !H. reflexivity.
Qed.
(** A layout of this form is the reading of a solution of all but the patterns. *)
Lemma n_to_m_same w h ul n : 0 < w -> 0 < h -> 0 < n -> create_n_to_m_balancer w h ul n n = create_n_to_n_balancer w h ul n.
Proof. intros Hw Hh Hn. unfold create_n_to_m_balancer. rewrite Z.eqb_refl, (proj2 (Z.ltb_lt 0 w) Hw), (proj2 (Z.ltb_lt 0 h) Hh), (proj2 (Z.ltb_lt 0 n) Hn). reflexivity. Qed.
Theorem free_parts_back w h ul n al T i j F : 0 < w -> 0 < h -> 0 < n -> match ul with Some l => 1 <= l | None => True end ->
  open_part w h (longest w h ul) n T i j -> (al = true -> i = j) -> measured w h (longest w h ul) n T i j F ->
  exists a, net_parts w h ul n n al (n_to_n_grid w h ul n) a /\ reads (n_to_n_grid w h ul n) a T.
Proof.
  intros Hw Hh Hn Hul1 Op Ali Me. assert (Hul : match ul with Some l => 0 <= l | None => True end) by (destruct ul; [lia|exact Logic.I]).
  pose proof (n_to_n_wf w h ul n Hw Hh Hul) as W. destruct (create_n_to_n_total w h ul n Hw Hh Hn Hul) as (created & Ec).
  assert (EE : exists ends t, setup_free_ends (n_to_n_grid w h ul n) n n al (grid_top (n_to_n_grid w h ul n)) = Some (ends, t)).
  { unfold setup_free_ends. destruct (setup_end _ _ _) as [[c1 s1] t1]. destruct (setup_end _ _ _) as [[c2 s2] t2]. eauto. }
  destruct EE as (ends & top & Ee).
  change (longest w h ul) with (max_hidden (n_to_n_grid w h ul n)) in Op, Me.
  pose proof (fun z => fc_solves w h ul n Hw Hh Hul1 T i j F Op Me z) as So0.
  pose proof (fun z => fc_reads w h ul n Hw Hh Hul1 T i j F Op Me z) as R0.
  pose proof (fun z => fc_created w h ul n Hw Hh Hn Hul1 T i j F Op Me z) as Cr0.
  pose proof (fun z => fc_belts w h ul n Hw Hh Hn Hul1 T i j F Op Me z) as Be0.
  pose proof (fun z z' v => view_inside w h ul n T F z z' v) as Vi. pose proof (fun z v => view_elsewhere w h ul n T F z v) as Ve.
  pose proof (fc_straight w h ul n T i j Op) as St.
  set (V := free_view w h ul n T F) in *. clearbody V. set (z0 := fun _ : Z => false).
  assert (Ht : grid_size (n_to_n_grid w h ul n) <= grid_top (n_to_n_grid w h ul n)) by (unfold grid_size, grid_top; lia).
  destruct (proj2 (free_ends (n_to_n_grid w h ul n) W (V z0) (proj1 (So0 z0)) T (R0 z0) n n (grid_top (n_to_n_grid w h ul n)) Ht St al ends top Ee)) as (b & Ab & Sb).
  { exists i, j. split; [exact (op_first _ _ _ _ _ _ _ Op)|]. split; [exact (op_last _ _ _ _ _ _ _ Op)|]. intros Ea. rewrite Z.leb_refl. rewrite (Ali Ea). lia. }
  assert (Eb : forall v, V b v = b v).
  { intros v. destruct (Z.ltb_spec 0 v), (Z.leb_spec v (grid_size (n_to_n_grid w h ul n))); try (apply Ve; lia). rewrite (Vi b z0 v ltac:(lia)). apply Ab. lia. }
  exists (V b). split; [|apply R0]. split; [exists created; split; [rewrite (n_to_m_same _ _ _ _ Hw Hh Hn); exact Ec|apply Cr0; exact Ec]|].
  split; [exists ends, top; split; [exact Ee|rewrite (sat_same _ b _ Eb); exact Sb]|]. split; [apply Be0|]. pose proof (So0 b) as (_ & Ix & _ & _ & Ln). auto.
Qed.
Theorem free_exactly w h l n al partial g cs top T : net_free_main w h l n n al partial = Some (g, cs, top) ->
  let L := longest w h (length_option l) in
  (exists a, sat a cs = true /\ reads g a T) <->
  (exists i j, open_part w h L n T i j /\ (al = true -> i = j) /\ exists F, measured w h L n T i j F) /\
  asked (free_options l partial) (Spec_Interchange.rectangle w h) 0 0 T.
Proof.
  intros Hm L. destruct (free_split w h l n al partial g cs top Hm) as (Hw & Hh & Hn & Hl & Eg & Sm & created & ends & Ec & Ee & Sat).
  assert (Hul1 : match length_option l with Some l => 1 <= l | None => True end) by (unfold length_option; destruct (Z.eqb_spec l (-1)); [exact Logic.I|lia]).
  assert (Hul : match length_option l with Some l => 0 <= l | None => True end) by (destruct (length_option l); [lia|exact Logic.I]).
  assert (W : wf_grid g) by (rewrite Eg; apply n_to_n_wf; assumption).
  assert (EL : L = max_hidden g) by (rewrite Eg; reflexivity).
  assert (Gl : glen g = main_length (free_options l partial)) by (rewrite Eg; reflexivity).
  assert (Ar : garea g = Spec_Interchange.rectangle w h) by (rewrite Eg; reflexivity).
  assert (Pl : plain_asked g T (free_options l partial) <-> asked (free_options l partial) (Spec_Interchange.rectangle w h) 0 0 T).
  { rewrite <- Ar. split.
    - intros [P1 P2 P3 P4 P5 P6 P7]. constructor; try assumption; try discriminate; exact Logic.I.
    - intros [P1 P2 P3 P4 P5 P6 P7 P8 P9]. constructor; assumption. }
  split.
  - intros (a & Sa & R). pose proof (free_known _ _ _ _ _ _ _ _ _ a Hm Sa) as Sol. split.
    + destruct (free_sound w h n (length_option l) al g a Hul Sol Eg T R) as (i & j & Op & Ali & Me). rewrite EL. eauto 8.
    + apply Pl. pose proof (nn_solves _ _ _ _ _ _ _ Hul Sol) as So. pose proof (nn_full _ _ _ _ _ _ _ Hul Sol T R) as Full.
      apply (wishes_said g W a So T R (full_gets g W a So T R Full) (full_gives g W a So T R Full) _ Gl Sm). apply Sat. exact Sa.
  - intros ((i & j & Op & Ali & F & Me) & As).
    destruct (free_parts_back w h (length_option l) n al T i j F Hw Hh Hn Hul1 Op Ali Me) as (a & Par & R). rewrite <- Eg in Par, R.
    pose proof (nn_solves _ _ _ _ _ _ _ Hul Par) as So. pose proof (nn_full _ _ _ _ _ _ _ Hul Par T R) as Full.
    exists a. split; [|exact R]. apply Sat. destruct Par as ((created' & Ec' & Sc) & (ends' & top' & Ee' & Se) & Sb & _).
    rewrite (n_to_m_same _ _ _ _ Hw Hh Hn) in Ec'. assert (created' = created) by (rewrite Ec in Ec'; apply Some_inj in Ec'; congruence). assert (ends' = ends) by (rewrite Ee in Ee'; apply Some_inj in Ee'; congruence). subst created' ends'.
    split; [exact Sc|]. split; [exact Se|]. split; [exact Sb|].
    apply (wishes_said g W a So T R (full_gets g W a So T R Full) (full_gives g W a So T R Full) _ Gl Sm). apply Pl. exact As.
Qed.

(** ** The grid, for any numbers of inputs and outputs *)
Lemma free_grid w h ul n m g created : create_n_to_m_balancer w h ul n m = Some (g, created) ->
  0 < w /\ 0 < h /\ 0 < n /\ 0 < m /\ (g = n_to_n_grid w h ul n \/ exists M, g = n_to_m_grid w h ul n m M).
Proof.
  unfold create_n_to_m_balancer. intros E. destruct (Z.ltb_spec 0 w) as [Hw|], (Z.ltb_spec 0 h) as [Hh|], (Z.ltb_spec 0 n) as [Hn|], (Z.ltb_spec 0 m) as [Hm|]; cbn [negb andb] in E; try discriminate.
  repeat (split; [assumption|]). destruct (n =? m).
  - left. unfold create_n_to_n_balancer in E. destruct (negb _); [discriminate|]. destruct (init_clauses _) as [k0|]; [|discriminate]. cbn [obind] in E. destruct (oflat _ _) as [k1|]; [|discriminate]. cbn [obind] in E. destruct (transport_quantity _ _ _ _) as [k2|]; [|discriminate]. cbn [obind] in E.
    destruct (oflat _ (cells w h)) as [k3|]; [|discriminate]. cbn [obind] in E. destruct (oflat _ (range h)) as [k4|]; [|discriminate]. cbn [obind] in E. destruct (oflat _ (range h)) as [k5|]; [|discriminate]. cbn [obind] in E. apply Some_inj in E. congruence.
  - right. destruct (max_belt_flow n m) as [M|]; [|discriminate]. cbn [obind] in E. exists M. destruct (init_clauses _) as [k0|]; [|discriminate]. cbn [obind] in E. destruct (oflat _ _) as [k1|]; [|discriminate]. cbn [obind] in E. destruct (transport_quantity _ _ _ _) as [k2|]; [|discriminate]. cbn [obind] in E.
    destruct (transport_quantity _ _ _ _) as [k6|]; [|discriminate]. cbn [obind] in E. destruct (oflat _ (cells w h)) as [k3|]; [|discriminate]. cbn [obind] in E. destruct (oflat _ (range h)) as [k4|]; [|discriminate]. cbn [obind] in E. destruct (oflat _ (range h)) as [k5|]; [|discriminate]. cbn [obind] in E. apply Some_inj in E. congruence.
Qed.
