(** The solutions of belt_balancer_net_free.py when the numbers of inputs and
    outputs differ, and their layouts. *)
From Coq Require Import String ZArith QArith List Bool Lia.
From Verif Require Import P_Network P_Network2 P_Benes P_Nonneg P_Similar T_Network.
From Verif Require Import Spec_Cnf Spec_Tile Spec_Layout Spec_Pattern Spec_Main M_Json M_Tile M_Util M_Card M_Network Spec_Network M_Template M_Grid M_Oracle M_Balancer M_Optimise M_NetFree M_Main M_Partial
  Spec_Balancer Spec_Flow Spec_Interchange Spec_Pow2 Spec_Free Spec_Share P_Cnf P_Util P_Util2 P_Util3 P_Card P_Tile P_Layout P_List P_Template P_Walk P_Grid P_GridSound P_GridComplete P_Transport T_Grid T_Enumerate P_GridOk P_Gen P_Trace P_Uniq P_FlowWitness
  P_NetArith P_NetClause P_NetVars P_NetEnds P_NetShape P_Balancer T_Lossless P_NetFree P_NetFree2 P_NetTotal P_Connect P_Main P_Pow2Exact P_FreeNum P_FreeWitness P_FreeExact P_ShareQuantity P_ShareExact.
From Verif Require P_Lossless.
Import ListNotations.
Open Scope Z_scope.

(** ** Sides, when splitters that touch are connected *)
Section Linked.
  Variable g : grid.
  Hypothesis W : wf_grid g.
  Variable a : assignment.
  Hypothesis So : solves g (EBool true) a.
  Variable T : layout.
  Hypothesis R : reads g a T.
  Notation A := (garea g).
  Notation V p := (view_of a (tile_at g p)).
  Hypothesis Bo : forall p d b, inside A p -> T p = Splitter d b -> neighbour A p d <> None /\ neighbour A p (opposite d) <> None.
  Hypothesis NT : no_touching g a T.
  Lemma linked_sides p d : inside A p -> (vi (V p) d = true -> takes (T p) d) /\ (vo (V p) d = true -> pushes (T p) d) /\
    (~ is_splitter_tile (T p) -> (takes (T p) d -> vi (V p) d = true) /\ (pushes (T p) d -> vo (V p) d = true)).
  Proof.
    intros Hp. pose proof (T_shows g a T R (proj1 (solves_init_rules g a W) (proj1 So)) p Hp) as S. destruct (T p) as [| |i o|e b|e h|e k|x y] eqn:E.
    - destruct S as ((_ & I & O) & _). rewrite I, O. cbn. intuition discriminate.
    - destruct S as (S & _). contradiction.
    - destruct S as ((_ & I & O & _) & _). cbn [takes pushes]. rewrite I, O. intuition congruence.
    - destruct b; destruct S as ((_ & I & O) & _); cbn [takes pushes]; rewrite I, O; intuition (congruence || discriminate).
    - destruct S as ((_ & _ & I & O & _) & _). cbn [takes pushes is_splitter_tile]. split; [intros X; first [apply I; exact X|symmetry; apply I; exact X]|]. split; [intros X; first [apply O; exact X|symmetry; apply O; exact X]|]. intros N. contradiction N. exact Logic.I.
    - destruct S as (S & _). contradiction.
    - destruct S as (S & _). contradiction.
  Qed.
  Lemma tile_splits t : {is_splitter_tile t} + {~ is_splitter_tile t}.
  Proof. destruct t; cbn; auto. Qed.
  Lemma linked_gives p d : inside A p -> (vo (V p) d = true <-> gives A T p d).
  Proof.
    intros Hp. destruct (linked_sides p d Hp) as (_ & O & K). unfold gives. split.
    - intros X. split; [exact (O X)|]. intros q Hq. assert (Iq : inside A q) by (eapply ahead_inside; exact Hq). apply (linked_sides q d Iq). rewrite <- (P_Realise.link g W a So p d q Hp Hq). exact X.
    - intros [P Q]. destruct (tile_splits (T p)) as [S|N]; [|apply (K N); exact P]. destruct (T p) as [| | | |e b| |] eqn:Tp; try contradiction. cbn in P. assert (e = d) by congruence. subst e.
      destruct (neighbour A p d) as [q|] eqn:Eq; [|exfalso; exact (proj1 (Bo p d b Hp Tp) Eq)]. specialize (Q q eq_refl). assert (Iq : inside A q) by (eapply ahead_inside; exact Eq).
      destruct (tile_splits (T q)) as [S'|N'].
      + destruct (T q) as [| | | |e' b'| |] eqn:Tq; try contradiction. cbn in Q. assert (e' = d) by congruence. subst e'. exact (NT p d b q b' Hp Tp Eq Tq).
      + rewrite (P_Realise.link g W a So p d q Hp Eq). apply (proj2 (proj2 (linked_sides q d Iq)) N'). exact Q.
  Qed.
  Lemma linked_gets p d : inside A p -> (vi (V p) d = true <-> gets A T p d).
  Proof.
    intros Hp. destruct (linked_sides p d Hp) as (I & _ & K). unfold gets.
    assert (Bk : forall q, neighbour A p (opposite d) = Some q -> inside A q /\ neighbour A q d = Some p).
    { intros q Hq. split; [eapply ahead_inside; exact Hq|]. pose proof (neighbour_back _ _ _ _ (WA g W) Hp Hq) as Bk. rewrite opposite_opposite in Bk. exact Bk. }
    split.
    - intros X. split; [exact (I X)|]. intros q Hq. destruct (Bk q Hq) as [Iq Nq]. apply (linked_sides q d Iq). rewrite (P_Realise.link g W a So q d p Iq Nq). exact X.
    - intros [P Q]. destruct (tile_splits (T p)) as [S|N]; [|apply (K N); exact P]. destruct (T p) as [| | | |e b| |] eqn:Tp; try contradiction. cbn in P. assert (e = d) by congruence. subst e.
      destruct (neighbour A p (opposite d)) as [q|] eqn:Eq; [|exfalso; exact (proj2 (Bo p d b Hp Tp) Eq)]. specialize (Q q eq_refl). destruct (Bk q eq_refl) as [Iq Nq]. rewrite <- (P_Realise.link g W a So q d p Iq Nq).
      destruct (tile_splits (T q)) as [S'|N'].
      + destruct (T q) as [| | | |e' b'| |] eqn:Tq; try contradiction. cbn in Q. assert (e' = d) by congruence. subst e'. exact (NT q d b' p b Iq Tq Nq Tp).
      + apply (proj2 (proj2 (linked_sides q d Iq)) N'). exact Q.
  Qed.
End Linked.

(** ** Solutions *)
Lemma created_most w h ul n m g a created M : n <> m -> match ul with Some l => 0 <= l | None => True end -> max_belt_flow n m = Some M -> create_n_to_m_balancer w h ul n m = Some (g, created) -> sat a created = true ->
  g = n_to_m_grid w h ul n m M /\ forall f p c c', f = forward_flows n M \/ f = backward_flows n m M -> inside (garea g) p -> (c < fl_count f)%nat -> (c' < fl_count f)%nat ->
    2 ^ Z.log2 M <= value a (flow g f p c) -> 2 ^ Z.log2 M <= value a (flow g f p c') -> c = c'.
Proof.
  intros Hnm Hul HM E Sa. unfold create_n_to_m_balancer in E. destruct (Z.ltb_spec 0 w) as [Hw|]; [|discriminate]. destruct (Z.ltb_spec 0 h) as [Hh|]; [|discriminate].
  destruct (Z.ltb_spec 0 n) as [Hn|]; [|discriminate]. destruct (Z.ltb_spec 0 m) as [Hm|]; [|discriminate]. cbn [negb andb] in E. rewrite (proj2 (Z.eqb_neq n m) Hnm), HM in E. cbn [obind] in E.
  pose proof (n_to_m_wf w h ul n m M Hw Hh Hul) as W. destruct (max_flow_divides n m M Hn Hm HM) as (HM0 & _).
  set (g0 := n_to_m_grid w h ul n m M) in *. clearbody g0.
  destruct (init_clauses g0) as [init|] eqn:Ei; [|discriminate]. cbn [obind] in E.
  destruct (oflat _ (iterate_tiles (geo g0))) as [tiles|] eqn:Et; [|discriminate]. cbn [obind] in E.
  destruct (transport_quantity _ _ _ _) as [mf|]; [|discriminate]. cbn [obind] in E.
  destruct (transport_quantity _ (all_flow g0 (backward_flows n m M)) _ _) as [mb|]; [|discriminate]. cbn [obind] in E.
  destruct (oflat _ (cells w h)) as [splitters|]; [|discriminate]. cbn [obind] in E.
  destruct (oflat (edge_flow g0 _ 0) (range h)) as [first|]; [|discriminate]. cbn [obind] in E.
  destruct (oflat (edge_flow g0 _ (w - 1)) (range h)) as [final|]; [|discriminate]. cbn [obind] in E.
  assert (g0 = g) by congruence. subst g0. split; [reflexivity|].
  assert (Ec : created = (init ++ block_underground_through_edges g (EBool true) ++ prevent_bad_undergrounding g ++ tiles ++ mf ++ mb ++ splitters ++ first ++ final)%list) by congruence.
  rewrite Ec, !sat_app_iff in Sa. destruct Sa as (_ & _ & _ & St & _). clear E Ec.
  intros f p c c' Hf Hp Hc Hc' L1 L2.
  assert (Q : sat a (quadratic_amo (map (fun c => last (flow g f p c) 0) (seq 0 (fl_count f)))) = true).
  { destruct (oflat_each _ _ _ Et p (proj2 (iterate_tiles_in _ _) Hp)) as (k & Ek). pose proof (proj1 (sat_oflat a _ _ _ Et) St p (proj2 (iterate_tiles_in _ _) Hp)) as (k' & Ek' & Sk'). cbv beta zeta in Ek'.
    destruct (for_components (forward_flows n M) _) as [bd|]; [|discriminate]. cbn [obind] in Ek'. destruct (for_components (backward_flows n m M) _) as [bd'|]; [|discriminate]. cbn [obind] in Ek'. apply Some_inj in Ek'. subst k'. rewrite !sat_app_iff in Sk'. destruct Hf as [-> | ->]; tauto. }
  assert (Bb : (0 < fl_bits f)%nat /\ 2 ^ Z.of_nat (fl_bits f - 1) = 2 ^ Z.log2 M).
  { pose proof (some_bits M ltac:(lia)) as Sb. assert (fl_bits f = Z.to_nat (bit_length M)) as -> by (destruct Hf as [-> | ->]; reflexivity). split; [exact Sb|]. rewrite <- (log2_bits M HM0). f_equal. lia. }
  destruct Bb as [Bp Bb]. assert (Ln : forall c, List.length (flow g f p c) = S (fl_bits f - 1)) by (intros k; rewrite flow_length; lia).
  apply quadratic_amo_sat in Q; [|apply Forall_map, Forall_forall; intros k _; apply (last_Forall nonzero); [intros E0; specialize (Ln k); rewrite E0 in Ln; discriminate|apply flow_nonzero; assumption]].
  rewrite <- (count_le1_unique a) in Q.
  assert (Nt : forall i, (i < fl_count f)%nat -> nth i (map (fun c => last (flow g f p c) 0) (seq 0 (fl_count f))) 0 = last (flow g f p i) 0).
  { intros i Hi. rewrite (nth_indep _ 0 (last (flow g f p 0%nat) 0)) by (rewrite map_length, seq_length; exact Hi). rewrite (map_nth (fun c => last (flow g f p c) 0)), seq_nth by exact Hi. reflexivity. }
  apply Q; rewrite ?map_length, ?seq_length; try assumption; rewrite Nt by assumption; apply (top_bit a _ _ (Ln _)); rewrite Bb; assumption.
Qed.

Section ShareSound.
  Variables (w h n m M : Z) (ul : option Z) (al : bool) (g : grid) (a : assignment).
  Hypothesis Hnm : n <> m.
  Hypothesis Hul : match ul with Some l => 0 <= l | None => True end.
  Hypothesis Sol : net_parts w h ul n m al g a.
  Hypothesis Fa : n_to_m_facts w h n m M g a.
  Variable T : layout.
  Hypothesis R : reads g a T.
  Hypothesis NT : no_touching g a T.
  Notation A := (garea g).
  Notation V p := (view_of a (tile_at g p)).
  Notation ff := (forward_flows n M).
  Notation fb := (backward_flows n m M).
  Notation ML := (max_hidden g).
  Let W : wf_grid g := nm_wf _ _ _ _ _ _ _ Fa.
  Let So := nm_solves w h n m M ul al g a Sol Fa.
  Let Hn := nm_n _ _ _ _ _ _ _ Fa.
  Let Hm := nm_m _ _ _ _ _ _ _ Fa.
  Let HM := nm_M _ _ _ _ _ _ _ Fa.
  Let Bd := nm_border w h n m M ul al g a Sol Fa T R.
  Lemma ss_grid : g = n_to_m_grid w h ul n m M.
  Proof. pose proof Sol as ((created & Ec & Sc) & _). exact (proj1 (created_most w h ul n m g a created M Hnm Hul HM Ec Sc)). Qed.
  Lemma ss_area : A = Spec_Interchange.rectangle w h.
  Proof. rewrite ss_grid. reflexivity. Qed.
  Lemma ss_units : share_units n m = M.
  Proof. apply Some_inj. rewrite <- HM. symmetry. apply units_flow; assumption. Qed.
  Lemma ss_fed p d b : inside A p -> T p = Splitter d b -> (Spec_Share.fed w h T p d <-> vi (V p) d = true) /\ (drained w h T p d <-> vo (V p) d = true).
  Proof.
    intros Hp Tp. rewrite (linked_gets g W a So T R Bd NT p d Hp), (linked_gives g W a So T R Bd NT p d Hp). unfold Spec_Share.fed, drained, gets, gives. rewrite <- ss_area. destruct (Bd p d b Hp Tp) as [N1 N2]. split; split.
    - intros (q & Eq & Pq). split; [rewrite Tp; reflexivity|]. intros q' Eq'. congruence.
    - intros [_ H]. destruct (neighbour A p (opposite d)) as [q|] eqn:Eq; [|contradiction]. exists q. auto.
    - intros (q & Eq & Pq). split; [rewrite Tp; reflexivity|]. intros q' Eq'. congruence.
    - intros [_ H]. destruct (neighbour A p d) as [q|] eqn:Eq; [|contradiction]. exists q. auto.
  Qed.
  (** The two sides of a splitter with four connections get different flows. *)
  Lemma ss_useful p q p10 p11 d : inside A p -> inside A q -> block_of g p d = Some (p10, q, p11) -> vh (V p) = true -> vi (V p) d = true -> vi (V q) d = true -> vo (V p) d = true -> vo (V q) d = true ->
    halved (bwd n m M g a) m p10 p11 p q -> exists c, (c < Z.to_nat n)%nat /\ fwd n M g a c p <> fwd n M g a c q.
  Proof.
    intros P1 P2 Eb Vh X1 X2 X3 X4 Hb. destruct (nm_splitter _ _ _ _ _ _ _ Fa p d P1) as (k & Ek & Sk). unfold n_to_m_splitter in Ek. rewrite Eb in Ek. cbv zeta in Ek.
    pose proof (tile_at_ok g _ W P1) as O1. pose proof (tile_at_ok g _ W P2) as O2.
    destruct (for_components ff _) as [c1|]; [|discriminate]. cbn [obind] in Ek. destruct (for_components fb _) as [c2|]; [|discriminate]. cbn [obind] in Ek.
    destruct (partial_splitter_flow g ff fb p p10 q p11 d false) as [c3|]; [|discriminate]. cbn [obind] in Ek. destruct (partial_splitter_flow g ff fb p p10 q p11 d true) as [c4|]; [|discriminate]. cbn [obind] in Ek.
    apply Some_inj in Ek. subst k. rewrite !sat_app_iff in Sk. destruct Sk as (_ & _ & _ & Sd & _ & _).
    destruct (all_flow_ok g W ff p P1) as [L1 Z1]. destruct (all_flow_ok g W fb p P1) as [L2 Z2]. destruct (all_flow_ok g W ff q P2) as [L3 Z3]. destruct (all_flow_ok g W fb q P2) as [L4 Z4]. destruct (flow_diff_ok g W ff p P1) as [L5 Z5]. destruct (flow_diff_ok g W fb p P1) as [L6 Z6].
    assert (Nv : value a (all_flow g ff p ++ all_flow g fb p)%list <> value a (all_flow g ff q ++ all_flow g fb q)%list).
    { refine (differ_sound a _ _ _ _ _ _ _ _ _ _ Sd _).
      - repeat (apply Forall_cons; [first [apply O1|apply O2]|]). apply Forall_nil.
      - apply Forall_app. auto.
      - apply Forall_app. auto.
      - apply Forall_app. auto.
      - rewrite !app_length. lia.
      - rewrite !app_length. lia.
      - intros l [<-|[<-|[<-|[<-|[<-|[]]]]]]; assumption. }
    assert (Dec : (exists c, (c < Z.to_nat n)%nat /\ fwd n M g a c p <> fwd n M g a c q) \/ forall c, (c < Z.to_nat n)%nat -> fwd n M g a c p = fwd n M g a c q).
    { assert (Q : forall k, (exists c, (c < k)%nat /\ fwd n M g a c p <> fwd n M g a c q) \/ forall c, (c < k)%nat -> fwd n M g a c p = fwd n M g a c q).
      { intros k. induction k as [|k IH]; [right; intros c Hc; lia|]. destruct IH as [(c & Hc & N)|IH]; [left; exists c; split; [lia|exact N]|].
        destruct (Z.eq_dec (fwd n M g a k p) (fwd n M g a k q)) as [E|N]; [right; intros c Hc; destruct (Nat.eq_dec c k) as [->|]; [exact E|apply IH; lia]|left; exists k; split; [lia|exact N]]. }
      apply Q. }
    destruct Dec as [D|D]; [exact D|exfalso]. apply Nv.
    assert (Sm : forall f, (forall c, (c < fl_count f)%nat -> value a (flow g f p c) = value a (flow g f q c)) -> values a (all_flow g f p) = values a (all_flow g f q)).
    { intros f H. unfold all_flow, components, values. rewrite !flat_map_concat_map, !concat_map, !map_map. f_equal. apply map_ext_in. intros c Hc. apply in_seq in Hc. apply (values_eq_value a _ _); [rewrite !component_length; reflexivity|]. apply H. lia. }
    unfold value, values. rewrite !map_app. f_equal. f_equal; apply Sm; [exact D|]. intros c Hc. symmetry. apply (Hb c Hc).
  Qed.
  Lemma share_sound : exists i j, open_sides w h ML n m T i j /\ (al = true -> if m <=? n then i <= j <= i + n - m else j <= i <= j + m - n) /\
    measured_twice w h ML n m T i j (fun c p => value a (flow g ff p (Z.to_nat c))) (fun c p => value a (flow g fb p (Z.to_nat c))).
  Proof.
    destruct (nm_ends w h n m M ul al g a Sol Fa T R) as (i & j & E1 & E2 & E3). exists i, j. pose proof ss_area as Ar. pose proof ss_units as Un. pose proof Hn as Hn'. pose proof Hm as Hm'.
    split; [|split; [exact E3|]].
    - constructor; try assumption; rewrite <- Ar.
      + exact (closed_valid g W a So T R).
      + rewrite <- (nm_hg _ _ _ _ _ _ _ Fa) in E1, E2. rewrite <- (nm_wd _ _ _ _ _ _ _ Fa) in E2.
        exact (entries_list g W (nm_cx _ _ _ _ _ _ _ Fa) (nm_cy _ _ _ _ _ _ _ Fa) a So T R (nm_belts w h n m M ul al g a Sol Fa) (nm_edge w h n m M ul al g a Sol Fa T R) n m i j Hn E1 E2).
      + rewrite <- (nm_hg _ _ _ _ _ _ _ Fa) in E1, E2. rewrite <- (nm_wd _ _ _ _ _ _ _ Fa) in E2. rewrite <- (nm_wd _ _ _ _ _ _ _ Fa).
        exact (departures_list g W (nm_cx _ _ _ _ _ _ _ Fa) (nm_cy _ _ _ _ _ _ _ Fa) a So T R (nm_belts w h n m M ul al g a Sol Fa) n m i j Hm E1 E2).
      + exact Bd.
    - destruct (forward_numbers n m M Hn Hm HM) as (F0 & F1 & F2 & F3 & F4). destruct (backward_numbers n m M Hn Hm HM) as (B0 & B1 & B2 & B3 & B4).
      constructor; rewrite <- ?Ar; rewrite ?Un.
      + intros p Hp. split; intros c Hc; (split; [apply value_bound|]); apply (nm_max _ _ _ _ _ _ _ Fa); try exact Hp; cbn; auto; lia.
      + intros p Hp. pose proof Sol as ((created & Ec & Sc) & _). destruct (created_most w h ul n m g a created M Hnm Hul HM Ec Sc) as [_ Q].
        split; intros c c' Hc Hc' L1 L2; [pose proof (Q ff p (Z.to_nat c) (Z.to_nat c') (or_introl eq_refl) Hp) as X|pose proof (Q fb p (Z.to_nat c) (Z.to_nat c') (or_intror eq_refl) Hp) as X]; cbn [forward_flows backward_flows fl_count] in X; specialize (X ltac:(lia) ltac:(lia) L1 L2); lia.
      + intros p q C. destruct (nm_moved _ _ _ _ _ _ _ Fa ff (or_introl eq_refl)) as (mv & Em & Sm). destruct (nm_moved _ _ _ _ _ _ _ Fa fb (or_intror (or_introl eq_refl))) as (mv' & Em' & Sm').
        split; intros c Hc; [apply (flow_carried g W a ff T R So mv Em Sm ML (Z.to_nat c) p q)|apply (flow_carried g W a fb T R So mv' Em' Sm' ML (Z.to_nat c) p q)]; try exact C; cbn [forward_flows backward_flows fl_count]; lia.
      + intros y Hy. destruct E1 as [Rg _]. destruct (nm_first _ _ _ _ _ _ _ Fa y ltac:(lia)) as (_ & Q1 & Q2). split; intros c Hc.
        * rewrite (Q1 (Z.to_nat c)) by lia. rewrite Z2Nat.id by lia. destruct (y mod n =? c); lia.
        * rewrite (Q2 (Z.to_nat c)) by lia. rewrite <- B0, <- B1. ring.
      + intros y Hy. destruct E2 as [Rg _]. destruct (nm_final _ _ _ _ _ _ _ Fa y ltac:(lia)) as (_ & Q1 & Q2). split; intros c Hc.
        * rewrite (Q1 (Z.to_nat c)) by lia. rewrite <- F0, <- F1. ring.
        * rewrite (Q2 (Z.to_nat c)) by lia. rewrite Z2Nat.id by lia. destruct (y mod m =? c); lia.
      + intros s d q q' Hs Ts Nq Nq'. destruct (nm_connected w h n m M ul al g a Sol Fa T R s Hs) as (e & p10 & p11 & T1 & T2 & P1 & P2 & N1 & N2 & C).
        assert (e = d) by congruence. subst e. assert (p10 = q) by congruence. assert (p11 = q') by congruence. subst p10 p11.
        destruct (ss_fed (fst s) d true P1 T1) as [G1 G2]. destruct (ss_fed (snd s) d false P2 T2) as [G3 G4].
        assert (Ft : forall (P : Prop) (b : bool), (P <-> b = true) -> b = false -> ~ P) by (intros P b H E X; apply H in X; congruence).
        unfold connected_well in C. cbv zeta in C. unfold shared_at, halve_to, split_to, add_to.
        destruct C as [(I0 & I1 & O0 & O1 & H & H')|[(O0 & O1 & x & Hx & H & H')|(I0 & I1 & x & Hx & H & H')]].
        * left. split; [apply G1; exact I0|]. split; [apply G3; exact I1|]. split; [apply G2; exact O0|]. split; [apply G4; exact O1|]. split; [|split].
          -- intros c Hc. destruct (H (Z.to_nat c) ltac:(lia)) as [X1 X2]. split; [symmetry; exact X1|exact X2].
          -- intros c Hc. destruct (H' (Z.to_nat c) ltac:(lia)) as [X1 X2]. split; [symmetry; exact X1|exact X2].
          -- destruct (splitter_seen g W a (proj1 So) T R (fst s) d true P1 T1) as (_ & Vh & _).
             destruct (splitter_block g W T Bd s Hs) as (d' & p10 & p11 & T1' & _ & _ & _ & _ & _ & N1' & N2' & Eb). assert (d' = d) by congruence. subst d'. assert (p10 = q) by congruence. assert (p11 = q') by congruence. subst p10 p11.
             destruct (ss_useful (fst s) (snd s) q q' d P1 P2 Eb Vh I0 I1 O0 O1 H') as (c & Hc & N). exists (Z.of_nat c). split; [lia|]. rewrite Nat2Z.id. exact N.
        * right. left. split; [apply G2; exact O0|]. split; [apply G4; exact O1|]. exists x. split; [destruct Hx as [(-> & X1 & X2)|(-> & X1 & X2)]; [left|right]; (split; [reflexivity|])|split].
          -- split; [apply G1; exact X1|exact (Ft _ _ G3 X2)].
          -- split; [exact (Ft _ _ G1 X1)|apply G3; exact X2].
          -- intros c Hc. destruct (H (Z.to_nat c) ltac:(lia)) as [X1 X2]. split; [symmetry; exact X1|exact X2].
          -- intros c Hc. symmetry. apply (H' (Z.to_nat c)). lia.
        * right. right. split; [apply G1; exact I0|]. split; [apply G3; exact I1|]. exists x. split; [destruct Hx as [(-> & X1 & X2)|(-> & X1 & X2)]; [left|right]; (split; [reflexivity|])|split].
          -- split; [apply G2; exact X1|exact (Ft _ _ G4 X2)].
          -- split; [exact (Ft _ _ G2 X1)|apply G4; exact X2].
          -- intros c Hc. symmetry. apply (H (Z.to_nat c)). lia.
          -- intros c Hc. destruct (H' (Z.to_nat c) ltac:(lia)) as [X1 X2]. split; [symmetry; exact X1|exact X2].
  Qed.
End ShareSound.

(** ** Both directions *)
Lemma share_elsewhere w h ul n m M T F B z v : ~ 0 < v <= grid_size (n_to_m_grid w h ul n m M) -> share_view w h ul n m M T F B z v = z v.
Proof.
  intros N. unfold share_view, plain_view, layout_assignment, table.
  assert (X : (0 <? v) && (v <=? grid_size (n_to_m_grid w h ul n m M)) = false) by (apply andb_false_iff; destruct (Z.ltb_spec 0 v), (Z.leb_spec v (grid_size (n_to_m_grid w h ul n m M))); tauto || lia).
  change (gtop (n_to_m_grid w h ul n m M)) with 0. change (0 + _) with (grid_size (n_to_m_grid w h ul n m M)). rewrite X. cbn [andb]. unfold share_values. rewrite X. reflexivity.
Qed.
Lemma share_inside w h ul n m M T F B z z' v : 0 < v <= grid_size (n_to_m_grid w h ul n m M) -> share_view w h ul n m M T F B z v = share_view w h ul n m M T F B z' v.
Proof.
  intros [N1 N2]. unfold share_view, plain_view, layout_assignment, table. destruct (_ && _); [reflexivity|]. unfold share_values. rewrite (proj2 (Z.ltb_lt _ _) N1), (proj2 (Z.leb_le _ _) N2). reflexivity.
Qed.
Theorem share_parts_back w h ul n m M al T i j F B : 0 < w -> 0 < h -> 0 < n -> 0 < m -> n <> m -> max_belt_flow n m = Some M -> match ul with Some l => 1 <= l | None => True end ->
  open_sides w h (longest w h ul) n m T i j -> (al = true -> if m <=? n then i <= j <= i + n - m else j <= i <= j + m - n) -> measured_twice w h (longest w h ul) n m T i j F B ->
  exists a, net_parts w h ul n m al (n_to_m_grid w h ul n m M) a /\ reads (n_to_m_grid w h ul n m M) a T /\ no_touching (n_to_m_grid w h ul n m M) a T.
Proof.
  intros Hw Hh Hn Hm Hnm HM Hul1 Op Ali Me. assert (Hul : match ul with Some l => 0 <= l | None => True end) by (destruct ul; [lia|exact Logic.I]).
  pose proof (n_to_m_wf w h ul n m M Hw Hh Hul) as W. destruct (create_n_to_m_total w h ul n m Hw Hh Hn Hm Hul) as (g' & created & Ec & _).
  assert (Eg : g' = n_to_m_grid w h ul n m M).
  { unfold create_n_to_m_balancer in Ec. rewrite (proj2 (Z.ltb_lt 0 w) Hw), (proj2 (Z.ltb_lt 0 h) Hh), (proj2 (Z.ltb_lt 0 n) Hn), (proj2 (Z.ltb_lt 0 m) Hm), (proj2 (Z.eqb_neq n m) Hnm), HM in Ec. cbn [negb andb obind] in Ec.
    destruct (init_clauses _) as [k0|]; [|discriminate]. cbn [obind] in Ec. destruct (oflat _ _) as [k1|]; [|discriminate]. cbn [obind] in Ec. destruct (transport_quantity _ _ _ _) as [k2|]; [|discriminate]. cbn [obind] in Ec.
    destruct (transport_quantity _ _ _ _) as [k6|]; [|discriminate]. cbn [obind] in Ec. destruct (oflat _ (cells w h)) as [k3|]; [|discriminate]. cbn [obind] in Ec. destruct (oflat _ (range h)) as [k4|]; [|discriminate]. cbn [obind] in Ec. destruct (oflat _ (range h)) as [k5|]; [|discriminate]. cbn [obind] in Ec. apply Some_inj in Ec. congruence. }
  subst g'.
  assert (EE : exists ends t, setup_free_ends (n_to_m_grid w h ul n m M) n m al (grid_top (n_to_m_grid w h ul n m M)) = Some (ends, t)).
  { unfold setup_free_ends. destruct (setup_end _ _ _) as [[c1 s1] t1]. destruct (setup_end _ _ _) as [[c2 s2] t2]. eauto. }
  destruct EE as (ends & top & Ee).
  change (longest w h ul) with (max_hidden (n_to_m_grid w h ul n m M)) in Op, Me.
  pose proof (fun z => sc_solves w h ul n m M Hw Hh Hul1 T i j F B Op Me z) as So0.
  pose proof (fun z => sc_reads w h ul n m M Hw Hh Hul1 T i j F B Op Me z) as R0.
  pose proof (fun z => sc_created w h ul n m M Hw Hh Hn Hm Hnm HM Hul1 T i j F B Op Me z created Ec) as Cr0.
  pose proof (fun z => sc_belts w h ul n m M Hw Hh Hn Hm Hul1 T i j F B Op Me z) as Be0.
  pose proof (fun z => sc_con w h ul n m M Hw Hh Hul1 T i j F B Op Me z) as Co0.
  pose proof (fun z z' v => share_inside w h ul n m M T F B z z' v) as Vi. pose proof (fun z v => share_elsewhere w h ul n m M T F B z v) as Ve.
  pose proof (sc_straight w h ul n m M T i j Op) as St.
  set (V := share_view w h ul n m M T F B) in *. clearbody V. set (z0 := fun _ : Z => false).
  assert (Ht : grid_size (n_to_m_grid w h ul n m M) <= grid_top (n_to_m_grid w h ul n m M)) by (unfold grid_size, grid_top; lia).
  destruct (proj2 (free_ends (n_to_m_grid w h ul n m M) W (V z0) (proj1 (So0 z0)) T (R0 z0) n m (grid_top (n_to_m_grid w h ul n m M)) Ht St al ends top Ee)) as (b & Ab & Sb).
  { exists i, j. split; [exact (os_first _ _ _ _ _ _ _ _ Op)|]. split; [exact (os_last _ _ _ _ _ _ _ _ Op)|]. exact Ali. }
  assert (Eb : forall v, V b v = b v).
  { intros v. destruct (Z.ltb_spec 0 v), (Z.leb_spec v (grid_size (n_to_m_grid w h ul n m M))); try (apply Ve; lia). rewrite (Vi b z0 v ltac:(lia)). apply Ab. lia. }
  exists (V b). split; [|split; [apply R0|]].
  - split; [exists created; split; [exact Ec|apply Cr0]|]. split; [exists ends, top; split; [exact Ee|rewrite (sat_same _ b _ Eb); exact Sb]|]. split; [apply Be0|]. pose proof (So0 b) as (_ & Ix & _ & _ & Ln). auto.
  - intros p d k q k' Hp Tp Nq Tq. apply (proj2 (Co0 b p d Hp)). split; [rewrite Tp; reflexivity|]. intros q' Hq'. assert (q' = q) by congruence. subst q'. rewrite Tq. reflexivity.
Qed.
(** A layout of this form shares equally. *)
Theorem share_form_shares w h L n m T i j F B : 0 < w -> 0 < h -> 0 < n -> 0 < m -> n <> m -> 1 <= L ->
  open_sides w h L n m T i j -> measured_twice w h L n m T i j F B -> shares_equally (Spec_Interchange.rectangle w h) T L.
Proof.
  intros Hw Hh Hn Hm Hnm HL Op Me. pose proof (units_flow n m Hn Hm) as HM.
  destruct (share_parts_back w h (Some L) n m _ false T i j F B Hw Hh Hn Hm Hnm HM HL Op ltac:(discriminate) Me) as (a & Par & R & NT).
  pose proof Par as ((created & Ec & Sc) & _). destruct (n_to_m_parts w h (Some L) n m _ a created ltac:(cbv beta iota; lia) Hnm Ec Sc) as (M' & Fa).
  exact (nm_shares w h n m M' (Some L) false _ a Par Fa T R NT).
Qed.

(** ** The list of calls *)
Lemma share_split w h l n m al partial g cs top : net_free_main w h l n m al partial = Some (g, cs, top) ->
  0 < w /\ 0 < h /\ 0 < n /\ 0 < m /\ (l = -1 \/ 1 <= l) /\ glen g = length_option l /\
  (forall x, In x (wishes (free_options l partial) g) -> exists c, x = Some c) /\
  exists created ends, create_n_to_m_balancer w h (length_option l) n m = Some (g, created) /\ setup_free_ends g n m al (grid_top g) = Some (ends, top) /\
    forall a, sat a cs = true <-> sat a created = true /\ sat a ends = true /\ sat a (block_belts_through_edges g (EPair false true)) = true /\
      forall x, In x (wishes (free_options l partial) g) -> granted a x.
Proof.
  unfold net_free_main. intros H. destruct (with_partial_split _ _ _ _ _ H) as (cs0 & Ep & Pt & Sp). clear H. unfold net_free in Ep.
  destruct (create_n_to_m_balancer w h (length_option l) n m) as [[g' created]|] eqn:Ec; [|discriminate]. cbn [obind] in Ep.
  destruct (free_grid w h (length_option l) n m g' created Ec) as (Hw & Hh & Hn & Hm & Gg).
  assert (Gl : glen g' = length_option l) by (destruct Gg as [-> | (M & ->)]; reflexivity).
  rewrite !seq_gen_cons in Ep. destruct (setup_free_ends g' n m al (grid_top g')) as [[ends t1]|] eqn:Ee; [|discriminate]. cbn [pure obind] in Ep.
  destruct (enforce_maximum_underground_length g') as [lc|] eqn:El; [|discriminate]. cbn [pure obind] in Ep.
  destruct (expand_underground g' 1 0 (Some (width (geo g') - 2)) None) as [xc|] eqn:Ex; [|discriminate]. cbn [pure obind] in Ep.
  destruct (prevent_double_edge_belts g') as [dc|] eqn:Ed; [|discriminate]. cbn [pure obind seq_gen] in Ep.
  apply Some_inj in Ep. assert (Egg : g' = g) by congruence. subst g'. assert (t1 = top) by congruence. subst t1.
  assert (Ecs : cs0 = (created ++ ends ++ block_belts_through_edges g (EPair false true) ++ prevent_intersection g ++ lc ++ xc ++ apply_generic_optimisations g ++ dc ++ [])%list) by congruence.
  split; [exact Hw|]. split; [exact Hh|]. split; [exact Hn|]. split; [exact Hm|]. split; [|split; [exact Gl|split]].
  - unfold enforce_maximum_underground_length in El. rewrite Gl in El. unfold length_option in El. destruct (Z.eqb_spec l (-1)); [left; assumption|]. destruct (Z.leb_spec 1 l); [lia|discriminate].
  - intros x Hx. apply free_wishes in Hx. destruct Hx as [->|Hx]; [eauto|]. unfold wishes, wishes1, wishes2, wishes3, whenp in Hx. cbn [fast_options o_edge_belts o_glue o_fast o_expand o_mergeable o_patterns o_partial orb app] in Hx.
    repeat (destruct Hx as [<-|Hx]; [first [eexists; reflexivity|eauto]|]). destruct partial as [G|]; [|destruct Hx]. destruct Hx as [<-|[]]. apply Pt. reflexivity.
  - exists created, ends. split; [reflexivity|]. split; [exact Ee|]. intros a. rewrite Sp. rewrite Ecs, !sat_app_iff. change (sat a []) with true.
    assert (X1 : granted a (enforce_maximum_underground_length g) <-> sat a lc = true) by (rewrite El; apply granted_some).
    assert (X2 : granted a (expand_underground g 1 0 (Some (width (geo g) - 2)) None) <-> sat a xc = true) by (rewrite Ex; apply granted_some).
    assert (X3 : granted a (prevent_double_edge_belts g) <-> sat a dc = true) by (rewrite Ed; apply granted_some).
    pose proof (generic_wishes l partial g a) as Gw.
    assert (Y : (forall x, In x (wishes (free_options l partial) g) -> granted a x) <-> granted a (prevent_double_edge_belts g) /\ forall x, In x (wishes (fast_options l partial) g) -> granted a x).
    { split.
      - intros Q. split; [apply Q, free_wishes; left; reflexivity|intros x Hx; apply Q, free_wishes; right; exact Hx].
      - intros [Q1 Q2] x Hx. apply free_wishes in Hx. destruct Hx as [->|Hx]; auto. }
    rewrite Y, Gw, X1, X2, X3. tauto.
Qed.
Lemma share_known w h l n m al partial g cs top a : net_free_main w h l n m al partial = Some (g, cs, top) -> sat a cs = true -> net_parts w h (length_option l) n m al g a.
Proof.
  unfold net_free_main. intros H Sa. destruct (with_partial_split _ _ _ _ _ H) as (cs0 & Ep & _ & Sp). apply Sp in Sa. apply net_free_parts. exists cs0, top. split; [exact Ep|apply Sa].
Qed.
Theorem share_exactly w h l n m al partial g cs top T : n <> m -> net_free_main w h l n m al partial = Some (g, cs, top) ->
  let L := longest w h (length_option l) in
  (exists a, sat a cs = true /\ reads g a T /\ no_touching g a T) <->
  (exists i j, open_sides w h L n m T i j /\ (al = true -> if m <=? n then i <= j <= i + n - m else j <= i <= j + m - n) /\ exists F B, measured_twice w h L n m T i j F B) /\
  asked (free_options l partial) (Spec_Interchange.rectangle w h) 0 0 T.
Proof.
  intros Hnm Hma L. destruct (share_split w h l n m al partial g cs top Hma) as (Hw & Hh & Hn & Hm & Hl & Gl0 & Sm & created & ends & Ec & Ee & Sat).
  assert (Hul1 : match length_option l with Some l => 1 <= l | None => True end) by (unfold length_option; destruct (Z.eqb_spec l (-1)); [exact Logic.I|lia]).
  assert (Hul : match length_option l with Some l => 0 <= l | None => True end) by (destruct (length_option l); [lia|exact Logic.I]).
  pose proof (units_flow n m Hn Hm) as HM.
  assert (Eg : g = n_to_m_grid w h (length_option l) n m (share_units n m)).
  { destruct (free_grid w h (length_option l) n m g created Ec) as (_ & _ & _ & _ & Gg).
    unfold create_n_to_m_balancer in Ec. rewrite (proj2 (Z.ltb_lt 0 w) Hw), (proj2 (Z.ltb_lt 0 h) Hh), (proj2 (Z.ltb_lt 0 n) Hn), (proj2 (Z.ltb_lt 0 m) Hm), (proj2 (Z.eqb_neq n m) Hnm), HM in Ec. cbn [negb andb obind] in Ec.
    destruct (init_clauses _) as [k0|]; [|discriminate]. cbn [obind] in Ec. destruct (oflat _ _) as [k1|]; [|discriminate]. cbn [obind] in Ec. destruct (transport_quantity _ _ _ _) as [k2|]; [|discriminate]. cbn [obind] in Ec.
    destruct (transport_quantity _ _ _ _) as [k6|]; [|discriminate]. cbn [obind] in Ec. destruct (oflat _ (cells w h)) as [k3|]; [|discriminate]. cbn [obind] in Ec. destruct (oflat _ (range h)) as [k4|]; [|discriminate]. cbn [obind] in Ec. destruct (oflat _ (range h)) as [k5|]; [|discriminate]. cbn [obind] in Ec. apply Some_inj in Ec. congruence. }
  assert (W : wf_grid g) by (rewrite Eg; apply n_to_m_wf; assumption).
  assert (EL : L = max_hidden g) by (rewrite Eg; reflexivity).
  assert (Gl : glen g = main_length (free_options l partial)) by (rewrite Eg; reflexivity).
  assert (Ar : garea g = Spec_Interchange.rectangle w h) by (rewrite Eg; reflexivity).
  assert (Pl : plain_asked g T (free_options l partial) <-> asked (free_options l partial) (Spec_Interchange.rectangle w h) 0 0 T).
  { rewrite <- Ar. split.
    - intros [P1 P2 P3 P4 P5 P6 P7]. constructor; try assumption; try discriminate; exact Logic.I.
    - intros [P1 P2 P3 P4 P5 P6 P7 P8 P9]. constructor; assumption. }
  assert (Wi : forall a, net_parts w h (length_option l) n m al g a -> reads g a T -> no_touching g a T ->
    ((forall x, In x (wishes (free_options l partial) g) -> granted a x) <-> asked (free_options l partial) (Spec_Interchange.rectangle w h) 0 0 T)).
  { intros a Sol R NT. pose proof Sol as ((created' & Ec' & Sc) & _). destruct (n_to_m_parts _ _ _ _ _ _ _ _ Hul Hnm Ec' Sc) as (M & Fa).
    pose proof (nm_solves _ _ _ _ _ _ _ _ _ Sol Fa) as So. pose proof (nm_border _ _ _ _ _ _ _ _ _ Sol Fa T R) as Bd.
    rewrite <- Pl. apply (wishes_said g W a So T R (linked_gets g W a So T R Bd NT) (linked_gives g W a So T R Bd NT) _ Gl Sm). }
  split.
  - intros (a & Sa & R & NT). pose proof (share_known _ _ _ _ _ _ _ _ _ _ a Hma Sa) as Sol. split.
    + pose proof Sol as ((created' & Ec' & Sc) & _). destruct (n_to_m_parts _ _ _ _ _ _ _ _ Hul Hnm Ec' Sc) as (M & Fa).
      destruct (share_sound w h n m M (length_option l) al g a Hnm Hul Sol Fa T R NT) as (i & j & Op & Ali & Me). rewrite EL. eauto 10.
    + apply (Wi a Sol R NT). apply Sat. exact Sa.
  - intros ((i & j & Op & Ali & F & B & Me) & As).
    destruct (share_parts_back w h (length_option l) n m _ al T i j F B Hw Hh Hn Hm Hnm HM Hul1 Op Ali Me) as (a & Par & R & NT). rewrite <- Eg in Par, R, NT.
    exists a. split; [|split; [exact R|exact NT]]. apply Sat. pose proof (Wi a Par R NT) as Wa. destruct Par as ((created' & Ec' & Sc) & (ends' & top' & Ee' & Se) & Sb & _).
    assert (created' = created) by (rewrite Ec in Ec'; apply Some_inj in Ec'; congruence). assert (ends' = ends) by (rewrite Ee in Ee'; apply Some_inj in Ee'; congruence). subst created' ends'.
    split; [exact Sc|]. split; [exact Se|]. split; [exact Sb|]. apply Wa. exact As.
Qed.
