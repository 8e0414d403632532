(** The layouts that belt_balancer_net_free.py finds when the numbers of inputs
    and outputs differ. *)
From Coq Require Import String ZArith QArith List Bool Lia.
From Verif Require Import P_Network P_Network2 P_Benes P_Nonneg P_Similar T_Network.
From Verif Require Import Spec_Cnf Spec_Tile Spec_Layout Spec_Pattern Spec_Main M_Json M_Tile M_Util M_Card M_Network Spec_Network M_Template M_Grid M_Oracle M_Balancer M_Optimise M_NetFree M_Main M_Partial
  Spec_Balancer Spec_Flow Spec_Interchange Spec_Pow2 Spec_Free Spec_Share P_Cnf P_Util P_Util2 P_Util3 P_Card P_Tile P_Layout P_List P_Template P_Walk P_Grid P_GridSound P_GridComplete P_Transport T_Grid T_Enumerate P_GridOk P_Gen P_Trace P_Uniq P_FlowWitness
  P_NetArith P_NetClause P_NetVars P_NetEnds P_NetShape P_Balancer T_Lossless P_NetFree P_NetFree2 P_NetTotal P_Connect P_Main P_Pow2Exact P_FreeNum P_FreeWitness P_FreeExact P_ShareQuantity.
From Verif Require P_Lossless.
Import ListNotations.
Open Scope Z_scope.

(** ** Numbers *)
Lemma lcm_pair x y : 0 < x -> 0 < y -> x * y / Z.gcd x y = Z.lcm x y /\ 0 < Z.lcm x y.
Proof.
  intros Hx Hy. assert (Gn : 0 <= Z.gcd x y) by apply Z.gcd_nonneg. assert (G : 0 < Z.gcd x y) by (assert (Z.gcd x y <> 0) by (intros C; apply Z.gcd_eq_0_l in C; lia); lia).
  assert (E : x * y / Z.gcd x y = x * (y / Z.gcd x y)) by (apply Z.divide_div_mul_exact; [lia|apply Z.gcd_divide_r]).
  assert (P : 0 < y / Z.gcd x y). { apply Z.div_str_pos. split; [exact G|]. apply Z.divide_pos_le; [exact Hy|apply Z.gcd_divide_r]. }
  unfold Z.lcm. rewrite E, Z.abs_eq by nia. split; [reflexivity|nia].
Qed.
Lemma units_flow n m : 0 < n -> 0 < m -> max_belt_flow n m = Some (share_units n m).
Proof.
  intros Hn Hm. unfold max_belt_flow, share_units. cbn [lcm obind]. rewrite (next_power_log (Z.min n m)) by lia.
  assert (P : 0 < 2 ^ Z.log2_up (Z.min n m)) by (apply Z.pow_pos_nonneg; [lia|apply Z.log2_up_nonneg]).
  destruct (lcm_pair n m Hn Hm) as [-> P1]. destruct (lcm_pair 2 (Z.lcm n m) ltac:(lia) P1) as [-> P2]. destruct (lcm_pair _ _ P P2) as [-> P3]. reflexivity.
Qed.
Lemma log2_bits x : 0 < x -> 2 ^ (Z.of_nat (Z.to_nat (bit_length x)) - 1) = 2 ^ Z.log2 x.
Proof. intros H. f_equal. unfold bit_length. destruct (Z.eqb_spec x 0); [lia|]. pose proof (Z.log2_nonneg x). rewrite ?Z.abs_eq by lia. lia. Qed.

(** ** A layout and its flows as a solution *)
Section Complete.
  Variables (w h : Z) (ul : option Z) (n m M : Z).
  Hypothesis Hw : 0 < w.
  Hypothesis Hh : 0 < h.
  Hypothesis Hn : 0 < n.
  Hypothesis Hm : 0 < m.
  Hypothesis Hnm : n <> m.
  Hypothesis HM : max_belt_flow n m = Some M.
  Hypothesis Hul : match ul with Some l => 1 <= l | None => True end.
  Notation g := (n_to_m_grid w h ul n m M).
  Notation ff := (forward_flows n M).
  Notation fb := (backward_flows n m M).
  Notation A := (garea g).
  Notation ML := (max_hidden g).
  Notation bits := (Z.to_nat (bit_length M)).
  Variables (T : layout) (i j : Z) (F Bk : Z -> pos -> Z).
  Hypothesis Op : open_sides w h ML n m T i j.
  Hypothesis Me : measured_twice w h ML n m T i j F Bk.
  Lemma sc_ul : match ul with Some l => 0 <= l | None => True end.
  Proof. destruct ul; [lia|exact Logic.I]. Qed.
  Let W : wf_grid g := n_to_m_wf w h ul n m M Hw Hh sc_ul.
  Let VL : valid_layout A T ML := os_valid _ _ _ _ _ _ _ _ Op.
  Lemma sc_units : share_units n m = M.
  Proof. apply Some_inj. rewrite <- HM. symmetry. apply units_flow; assumption. Qed.
  Lemma sc_M : 0 < M.
  Proof. destruct (max_flow_divides n m M Hn Hm HM) as (P & _). exact P. Qed.
  Lemma sc_wide : 2 <= w.
  Proof.
    destruct (Z.eq_dec w 1) as [W1|]; [exfalso|lia]. destruct (os_first _ _ _ _ _ _ _ _ Op) as [R1 E1]. destruct (os_last _ _ _ _ _ _ _ _ Op) as [R2 E2].
    assert (Q : forall y, 0 <= y < h -> (i <= y < i + n <-> j <= y < j + m)).
    { intros y Hy. specialize (E1 y Hy). specialize (E2 y Hy). cbv beta in E1, E2. rewrite W1 in E2. change (1 - 1) with 0 in E2. rewrite E1 in E2.
      destruct (Z.leb_spec j y), (Z.ltb_spec y (j + m)), (Z.leb_spec i y), (Z.ltb_spec y (i + n)); cbn [andb] in E2; try discriminate; lia. }
    pose proof (Q i ltac:(lia)). pose proof (Q j ltac:(lia)). pose proof (Q (i + n - 1) ltac:(lia)). pose proof (Q (j + m - 1) ltac:(lia)). lia.
  Qed.

  (** The flows; empty cells of the outer columns carry what the clauses want. *)
  Definition fwd_at (c : nat) (p : pos) : Z :=
    if fst p =? 0 then (if snd p mod n =? Z.of_nat c then forward_input n m M else 0) else if fst p =? w - 1 then forward_output n m M else F (Z.of_nat c) p.
  Definition bwd_at (c : nat) (p : pos) : Z :=
    if fst p =? 0 then backward_output n m M else if fst p =? w - 1 then (if snd p mod m =? Z.of_nat c then backward_input n m M else 0) else Bk (Z.of_nat c) p.
  Lemma same_values c p : inside A p -> T p <> Empty ->
    ((c < Z.to_nat n)%nat -> fwd_at c p = F (Z.of_nat c) p) /\ ((c < Z.to_nat m)%nat -> bwd_at c p = Bk (Z.of_nat c) p).
  Proof.
    intros Hp Ne. destruct p as [x y]. destruct Hp as [Hx Hy]. change (aw A) with w in Hx. change (ah A) with h in Hy. cbn [fst snd] in Hx, Hy.
    destruct (forward_numbers n m M Hn Hm HM) as (F0 & F1 & _). destruct (backward_numbers n m M Hn Hm HM) as (B0 & B1 & _). pose proof sc_wide as Ww.
    unfold fwd_at, bwd_at. cbn [fst snd]. destruct (Z.eqb_spec x 0) as [->|N0].
    - destruct (os_first _ _ _ _ _ _ _ _ Op) as [_ E]. specialize (E y Hy). cbv beta in E.
      destruct ((i <=? y) && (y <? i + n)) eqn:Ei; [|congruence]. apply andb_true_iff in Ei. rewrite Z.leb_le, Z.ltb_lt in Ei.
      destruct (mt_first _ _ _ _ _ _ _ _ _ _ Me y ltac:(lia)) as [M1 M2]. rewrite sc_units in M1, M2. split; intros Hc.
      + specialize (M1 (Z.of_nat c) ltac:(lia)). destruct (_ =? _); nia.
      + specialize (M2 (Z.of_nat c) ltac:(lia)). assert (n * m * backward_output n m M = n * m * Bk (Z.of_nat c) (0, y)) by (rewrite M2; rewrite <- B0, <- B1; ring). apply Z.mul_cancel_l in H; [exact H|nia].
    - destruct (Z.eqb_spec x (w - 1)) as [->|N1]; [|split; reflexivity]. destruct (os_last _ _ _ _ _ _ _ _ Op) as [_ E]. specialize (E y Hy). cbv beta in E.
      destruct ((j <=? y) && (y <? j + m)) eqn:Ei; [|congruence]. apply andb_true_iff in Ei. rewrite Z.leb_le, Z.ltb_lt in Ei.
      destruct (mt_last _ _ _ _ _ _ _ _ _ _ Me y ltac:(lia)) as [M1 M2]. rewrite sc_units in M1, M2. split; intros Hc.
      + specialize (M1 (Z.of_nat c) ltac:(lia)). assert (n * m * forward_output n m M = n * m * F (Z.of_nat c) (w - 1, y)) by (rewrite M1; rewrite <- F0, <- F1; ring). apply Z.mul_cancel_l in H; [exact H|nia].
      + specialize (M2 (Z.of_nat c) ltac:(lia)). destruct (_ =? _); nia.
  Qed.
  Lemma f_range c p : (c < fl_count ff)%nat -> inside A p -> 0 <= fwd_at c p <= M.
  Proof.
    intros Hc Hp. destruct (forward_numbers n m M Hn Hm HM) as (F0 & F1 & F2 & F3 & F4). pose proof sc_M. unfold fwd_at. destruct (fst p =? 0); [destruct (_ =? _); lia|]. destruct (fst p =? w - 1); [lia|].
    rewrite <- sc_units. apply (mt_range _ _ _ _ _ _ _ _ _ _ Me); [exact Hp|cbn [forward_flows fl_count] in Hc; lia].
  Qed.
  Lemma b_range c p : (c < fl_count fb)%nat -> inside A p -> 0 <= bwd_at c p <= M.
  Proof.
    intros Hc Hp. destruct (backward_numbers n m M Hn Hm HM) as (F0 & F1 & F2 & F3 & F4). pose proof sc_M. unfold bwd_at. destruct (fst p =? 0); [lia|]. destruct (fst p =? w - 1); [destruct (_ =? _); lia|].
    rewrite <- sc_units. apply (mt_range _ _ _ _ _ _ _ _ _ _ Me); [exact Hp|cbn [backward_flows fl_count] in Hc; lia].
  Qed.
  Lemma sc_taken p d : takes (T p) d -> T p <> Empty.
  Proof. intros H E. rewrite E in H. exact H. Qed.
  Lemma sc_given p d : pushes (T p) d -> T p <> Empty.
  Proof. intros H E. rewrite E in H. exact H. Qed.
  Lemma sc_hands p q : hands_on A T p q -> (forall c, (c < Z.to_nat n)%nat -> fwd_at c p = fwd_at c q) /\ (forall c, (c < Z.to_nat m)%nat -> bwd_at c p = bwd_at c q).
  Proof.
    intros Hq. pose proof Hq as (Hp & Ns & d & P & E). assert (Iq : inside A q) by (eapply ahead_inside; exact E).
    assert (Ne : T q <> Empty). { pose proof VL as (_ & _ & Or & _). apply (sc_taken q d). apply (Or p d q Hp P Ns E). }
    destruct (mt_lines _ _ _ _ _ _ _ _ _ _ Me p q) as [L1 L2]; [eapply carried_belt; [exact Hq|constructor]|].
    split; intros c Hc; destruct (same_values c p Hp (sc_given p d P)) as [S1 S2], (same_values c q Iq Ne) as [S3 S4]; [rewrite S1, S3 by exact Hc; apply L1; lia|rewrite S2, S4 by exact Hc; apply L2; lia].
  Qed.
  Lemma sc_under p q : sends_under A T ML p q -> (forall c, (c < Z.to_nat n)%nat -> fwd_at c p = fwd_at c q) /\ (forall c, (c < Z.to_nat m)%nat -> bwd_at c p = bwd_at c q).
  Proof.
    intros Hq. pose proof Hq as (Hp & d & Tp & Tq & k & Hk & E & _). assert (Iq : inside A q) by (eapply ahead_inside; exact E).
    destruct (mt_lines _ _ _ _ _ _ _ _ _ _ Me p q) as [L1 L2]; [eapply carried_under; [exact Hq|constructor]|].
    split; intros c Hc; destruct (same_values c p Hp ltac:(congruence)) as [S1 S2], (same_values c q Iq ltac:(congruence)) as [S3 S4]; [rewrite S1, S3 by exact Hc; apply L1; lia|rewrite S2, S4 by exact Hc; apply L2; lia].
  Qed.

  Definition mate (p : pos) : option pos := match T p with Splitter d true => neighbour A p (anticlockwise d) | _ => None end.
  Definition mate_of (D : nat -> pos -> Z) (c : nat) (p : pos) : Z := match mate p with Some q => D c q | None => 0 end.
  (** All four sides of the splitter are connected. *)
  Definition all_four (p : pos) : bool :=
    match T p, mate p with Splitter d _, Some q => f_in A T p d && f_in A T q d && (f_out A T p d && f_out A T q d) | _, _ => false end.
  Definition carries (x y : list bool) (full : bool) : list bool := if full then ripple (tl x) (tl y) (hd false x) else ripple x y false.
  Definition carry_f (c : nat) (p : pos) : list bool := carries (bits_of bits (fwd_at c p)) (bits_of bits (mate_of fwd_at c p)) (all_four p).
  Definition carry_b (c : nat) (p : pos) : list bool :=
    match T p, mate p with
    | Splitter d _, Some q => match neighbour A p d, neighbour A q d with Some x, Some y => carries (bits_of bits (bwd_at c x)) (bits_of bits (bwd_at c y)) (all_four p) | _, _ => [] end
    | _, _ => []
    end.
  Definition tun (D : nat -> pos -> Z) (d : dir) (c : nat) (p : pos) : Z := tq g T ML (D c) d p.
  Variable z : assignment.
  Definition share_values (v : Z) : bool :=
    if (0 <? v) && (v <=? grid_size g) then
      let o := Z.to_nat (var_offset g v - 20) in let p := var_owner g v in
      if (o <? 5 * (Z.to_nat n * bits))%nat then group_value ff fwd_at (mate_of fwd_at) carry_f (tun fwd_at RIGHT) (tun fwd_at UP) p o
      else group_value fb bwd_at (mate_of bwd_at) carry_b (tun bwd_at RIGHT) (tun bwd_at UP) p (o - 5 * (Z.to_nat n * bits))
    else z v.
  Definition share_view : assignment := plain_view g T ML share_values.
  Notation a := share_view.
  Notation V p := (view_of a (tile_at g p)).
  Lemma sc_size : tile_size g = 20 + Z.of_nat (5 * (Z.to_nat n * bits) + 5 * (Z.to_nat m * bits)).
  Proof.
    unfold tile_size, tile_template. cbn [n_to_m_grid gcolours gextras app].
    pose proof (group_count "" ["flow"; "diff"; "carry"; "ux"; "uy"]%string ff eq_refl) as E1. pose proof (group_count "" ["flow"; "diff"; "carry"; "ux"; "uy"]%string fb eq_refl) as E2.
    cbn [forward_flows backward_flows fl_count fl_bits fl_cbits] in E1, E2.
    set (t1 := TComposite (flow_fields "" ["flow"; "diff"; "carry"; "ux"; "uy"]%string ff)) in *. set (t2 := TComposite (flow_fields "" ["flow"; "diff"; "carry"; "ux"; "uy"]%string fb)) in *.
    assert (X : forall l, variable_count (TComposite l) = fold_right (fun nt acc => (variable_count (snd nt) + acc)%nat) 0%nat l) by reflexivity.
    rewrite X. cbn [fold_right snd]. rewrite E1, E2. cbn [variable_count fold_right snd shape_size]. lia.
  Qed.
  Lemma sc_glen : match glen g with Some l => 1 <= l /\ ML <= l | None => True end.
  Proof. unfold max_hidden. cbn [n_to_m_grid glen]. clear VL W Me Op. destruct ul; [lia|exact Logic.I]. Qed.
  Let PFacts := plain_facts g W eq_refl eq_refl eq_refl T ML share_values sc_glen VL.
  Lemma sc_solves : solves g (EBool true) a.
  Proof. exact (proj1 PFacts). Qed.
  Lemma sc_reads : reads g a T.
  Proof. exact (proj1 (proj2 PFacts)). Qed.
  Lemma sc_con p d : inside A p -> (vi (V p) d = true <-> gets A T p d) /\ (vo (V p) d = true <-> gives A T p d).
  Proof. exact (proj2 (proj2 (proj2 PFacts)) p d). Qed.
  Lemma sc_extras p o : inside A p -> (o < 5 * (Z.to_nat n * bits) + 5 * (Z.to_nat m * bits))%nat ->
    a (extras_base g p + 1 + Z.of_nat o) = if (o <? 5 * (Z.to_nat n * bits))%nat then group_value ff fwd_at (mate_of fwd_at) carry_f (tun fwd_at RIGHT) (tun fwd_at UP) p o
      else group_value fb bwd_at (mate_of bwd_at) carry_b (tun bwd_at RIGHT) (tun bwd_at UP) p (o - 5 * (Z.to_nat n * bits)).
  Proof.
    intros Hp Ho. pose proof (proj1 (proj2 (proj2 PFacts)) p (Z.of_nat o) Hp ltac:(lia)) as E. pose proof sc_size as Sz. assert (Cb : colour_bits g = 0%nat) by reflexivity. rewrite Cb in E. specialize (E ltac:(lia)).
    etransitivity; [exact E|]. unfold share_values, extras_base. rewrite Cb.
    replace (tile_base g p + 20 + 3 * Z.of_nat 0 + 1 + Z.of_nat o) with (tile_base g p + 1 + (20 + Z.of_nat o)) by lia.
    destruct (owner_offset g p (20 + Z.of_nat o) W Hp ltac:(lia)) as (Rg & -> & ->). change (gtop g) with 0 in Rg.
    rewrite (proj2 (Z.ltb_lt _ _) (proj1 Rg)), (proj2 (Z.leb_le _ _)) by (unfold grid_size; change (gtop g) with 0; apply Rg). cbn [andb]. cbv zeta.
    replace (Z.to_nat (20 + Z.of_nat o - 20)) with o by lia. reflexivity.
  Qed.
  Lemma sc_fits : M < 2 ^ Z.of_nat bits /\ (0 < bits)%nat.
  Proof. pose proof sc_M. split; [apply (fits M); lia|apply (some_bits M); lia]. Qed.
  Lemma vals_f p o : inside A p -> (o < 4 * (fl_count ff * fl_bits ff) + fl_count ff * fl_cbits ff)%nat ->
    a (flow_base g ff p + 1 + Z.of_nat o) = group_value ff fwd_at (mate_of fwd_at) carry_f (tun fwd_at RIGHT) (tun fwd_at UP) p o.
  Proof.
    cbn [forward_flows fl_count fl_bits fl_cbits]. intros Hp Ho. unfold flow_base. cbn [forward_flows fl_off]. rewrite Z.add_0_r. rewrite sc_extras by (try exact Hp; lia).
    destruct (Nat.ltb_spec o (5 * (Z.to_nat n * bits))); [reflexivity|lia].
  Qed.
  Lemma vals_b p o : inside A p -> (o < 4 * (fl_count fb * fl_bits fb) + fl_count fb * fl_cbits fb)%nat ->
    a (flow_base g fb p + 1 + Z.of_nat o) = group_value fb bwd_at (mate_of bwd_at) carry_b (tun bwd_at RIGHT) (tun bwd_at UP) p o.
  Proof.
    cbn [backward_flows fl_count fl_bits fl_cbits]. intros Hp Ho. unfold flow_base. cbn [backward_flows fl_off].
    replace (extras_base g p + Z.of_nat (5 * (Z.to_nat n * bits)) + 1 + Z.of_nat o) with (extras_base g p + 1 + Z.of_nat (5 * (Z.to_nat n * bits) + o)) by lia. rewrite sc_extras by (try exact Hp; lia).
    destruct (Nat.ltb_spec (5 * (Z.to_nat n * bits) + o) (5 * (Z.to_nat n * bits))); [lia|]. f_equal. lia.
  Qed.

  (** ** Splitters *)
  Lemma sc_border p d b : inside A p -> T p = Splitter d b -> neighbour A p d <> None /\ neighbour A p (opposite d) <> None.
  Proof. exact (os_room _ _ _ _ _ _ _ _ Op p d b). Qed.
  Lemma con_in p d b : inside A p -> T p = Splitter d b -> (vi (V p) d = true <-> Spec_Share.fed w h T p d).
  Proof.
    intros Hp Tp. rewrite (proj1 (sc_con p d Hp)). unfold gets, Spec_Share.fed. change (Spec_Interchange.rectangle w h) with A. destruct (sc_border p d b Hp Tp) as [_ N]. destruct (neighbour A p (opposite d)) as [q|] eqn:E; [|contradiction]. split.
    - intros [_ H]. exists q. auto.
    - intros (r & Er & Hr). split; [rewrite Tp; reflexivity|]. intros q' Eq. congruence.
  Qed.
  Lemma con_out p d b : inside A p -> T p = Splitter d b -> (vo (V p) d = true <-> drained w h T p d).
  Proof.
    intros Hp Tp. rewrite (proj2 (sc_con p d Hp)). unfold gives, drained. change (Spec_Interchange.rectangle w h) with A. destruct (sc_border p d b Hp Tp) as [N _]. destruct (neighbour A p d) as [q|] eqn:E; [|contradiction]. split.
    - intros [_ H]. exists q. auto.
    - intros (r & Er & Hr). split; [rewrite Tp; reflexivity|]. intros q' Eq. congruence.
  Qed.
  Lemma sc_head p : inside A p -> vh (V p) = true -> exists d, T p = Splitter d true.
  Proof.
    intros Hp Vh. pose proof (seen g W a (proj1 sc_solves) T sc_reads p Hp) as (_ & _ & _ & _ & _ & _ & Sh). rewrite Vh in Sh. destruct (T p) as [| |i' o|d b|d b|d c|x y]; try discriminate. exists d. rewrite <- Sh. reflexivity.
  Qed.
  Definition halves_n (D : nat -> pos -> Z) (k : nat) (x x' y y' : pos) : Prop := forall c, (c < k)%nat -> 2 * D c y = D c x + D c x' /\ D c y' = D c y.
  Definition splits_n (D : nat -> pos -> Z) (k : nat) (x y y' : pos) : Prop := forall c, (c < k)%nat -> 2 * D c y = D c x /\ D c y' = D c y.
  Definition adds_n (D : nat -> pos -> Z) (k : nat) (x x' y : pos) : Prop := forall c, (c < k)%nat -> D c y = D c x + D c x'.
  Definition known (p p01 p10 p11 : pos) (d : dir) : Prop :=
    let i0 := vi (V p) d in let i1 := vi (V p01) d in let o0 := vo (V p) d in let o1 := vo (V p01) d in
    (i0 = true /\ i1 = true /\ o0 = true /\ o1 = true /\ halves_n fwd_at (Z.to_nat n) p p01 p10 p11 /\ halves_n bwd_at (Z.to_nat m) p10 p11 p p01 /\ exists c, (c < Z.to_nat n)%nat /\ fwd_at c p <> fwd_at c p01) \/
    (o0 = true /\ o1 = true /\ i0 = true /\ i1 = false /\ splits_n fwd_at (Z.to_nat n) p p10 p11 /\ adds_n bwd_at (Z.to_nat m) p10 p11 p) \/
    (o0 = true /\ o1 = true /\ i0 = false /\ i1 = true /\ splits_n fwd_at (Z.to_nat n) p01 p10 p11 /\ adds_n bwd_at (Z.to_nat m) p10 p11 p01) \/
    (i0 = true /\ i1 = true /\ o0 = true /\ o1 = false /\ adds_n fwd_at (Z.to_nat n) p p01 p10 /\ splits_n bwd_at (Z.to_nat m) p10 p p01) \/
    (i0 = true /\ i1 = true /\ o0 = false /\ o1 = true /\ adds_n fwd_at (Z.to_nat n) p p01 p11 /\ splits_n bwd_at (Z.to_nat m) p11 p p01).
  Lemma sc_known p d p10 p01 p11 : inside A p -> block_of g p d = Some (p10, p01, p11) -> vh (V p) = true -> vi (V p) d = true \/ vo (V p) d = true ->
    T p = Splitter d true /\ mate p = Some p01 /\ neighbour A p d = Some p10 /\ neighbour A p01 d = Some p11 /\
    all_four p = vi (V p) d && vi (V p01) d && (vo (V p) d && vo (V p01) d) /\ known p p01 p10 p11 d.
  Proof.
    intros Hp Eb Vh Vd. destruct (sc_head p Hp Vh) as [e Tp].
    destruct (splitter_seen g W a (proj1 sc_solves) T sc_reads p e true Hp Tp) as (_ & _ & Oi & Oo & _).
    assert (e = d) by (destruct Vd as [V1|V1]; [symmetry; exact (Oi d V1)|symmetry; exact (Oo d V1)]). subst e.
    destruct (splitter_halves A T ML (WA g W) VL p d true Hp Tp) as (s & Hin & Eh). apply (proj1 (splitter_list_at A T ML VL s)) in Hin. pose proof Hin as (_ & _ & d2 & D1 & D2 & D3).
    destruct (splitter_block g W T sc_border s Hin) as (d' & q10 & q11 & T1 & T2 & P1 & P2 & P3 & P4 & N1 & N2 & Eb'). subst p. assert (d' = d) by congruence. subst d'. assert (d2 = d) by congruence. subst d2.
    assert (Eq : Some (q10, snd s, q11) = Some (p10, p01, p11)) by (exact (eq_trans (eq_sym Eb') Eb)). apply Some_inj in Eq. assert (q10 = p10) by congruence. assert (q11 = p11) by congruence. assert (snd s = p01) by congruence. subst q10 q11 p01. clear Eq Eb' Eb.
    assert (Ma : mate (fst s) = Some (snd s)) by (unfold mate; rewrite T1; exact D3).
    split; [exact T1|]. split; [exact Ma|]. split; [exact N1|]. split; [exact N2|]. split.
    { unfold all_four. rewrite T1, Ma. destruct (view_layout g W T ML (fun _ => 0) (colour_x g T ML (fun _ => 0)) (colour_y g T ML (fun _ => 0)) share_values (fst s) P1) as (_ & _ & _ & _ & _ & _ & _ & _ & I1 & O1 & _).
      destruct (view_layout g W T ML (fun _ => 0) (colour_x g T ML (fun _ => 0)) (colour_y g T ML (fun _ => 0)) share_values (snd s) P2) as (_ & _ & _ & _ & _ & _ & _ & _ & I2 & O2 & _).
      rewrite <- (I1 d), <- (O1 d), <- (I2 d), <- (O2 d). reflexivity. }
    pose proof (con_in _ _ _ P1 T1) as CI1. pose proof (con_in _ _ _ P2 T2) as CI2. pose proof (con_out _ _ _ P1 T1) as CO1. pose proof (con_out _ _ _ P2 T2) as CO2.
    assert (S1 : forall c, ((c < Z.to_nat n)%nat -> fwd_at c (fst s) = F (Z.of_nat c) (fst s)) /\ ((c < Z.to_nat m)%nat -> bwd_at c (fst s) = Bk (Z.of_nat c) (fst s))) by (intros c; apply same_values; [exact P1|congruence]).
    assert (S2 : forall c, ((c < Z.to_nat n)%nat -> fwd_at c (snd s) = F (Z.of_nat c) (snd s)) /\ ((c < Z.to_nat m)%nat -> bwd_at c (snd s) = Bk (Z.of_nat c) (snd s))) by (intros c; apply same_values; [exact P2|congruence]).
    assert (S3 : drained w h T (fst s) d -> forall c, ((c < Z.to_nat n)%nat -> fwd_at c p10 = F (Z.of_nat c) p10) /\ ((c < Z.to_nat m)%nat -> bwd_at c p10 = Bk (Z.of_nat c) p10)).
    { intros (q & Eq & Tq) c. change (Spec_Interchange.rectangle w h) with A in Eq. assert (q = p10) by congruence. subst q. apply same_values; [exact P3|exact (sc_taken p10 d Tq)]. }
    assert (S4 : drained w h T (snd s) d -> forall c, ((c < Z.to_nat n)%nat -> fwd_at c p11 = F (Z.of_nat c) p11) /\ ((c < Z.to_nat m)%nat -> bwd_at c p11 = Bk (Z.of_nat c) p11)).
    { intros (q & Eq & Tq) c. change (Spec_Interchange.rectangle w h) with A in Eq. assert (q = p11) by congruence. subst q. apply same_values; [exact P4|exact (sc_taken p11 d Tq)]. }
    assert (Nt : forall x y : bool, (x = true <-> y = true) -> x = y) by (intros [] []; intuition congruence).
    assert (Fa : forall (b : bool) (Q : Prop), (b = true <-> Q) -> ~ Q -> b = false) by (intros [] Q H N; [exfalso; apply N, H; reflexivity|reflexivity]).
    pose proof (mt_splitters _ _ _ _ _ _ _ _ _ _ Me s d p10 p11 Hin T1 N1 N2) as Sh. unfold known. cbv zeta.
    destruct Sh as [(X1 & X2 & X3 & X4 & Hf & Hb & (c & Hc & Nq))|[(X3 & X4 & x & Hx & Hf & Hb)|(X1 & X2 & x & Hx & Hf & Hb)]].
    - left. split; [apply CI1; exact X1|]. split; [apply CI2; exact X2|]. split; [apply CO1; exact X3|]. split; [apply CO2; exact X4|]. specialize (S3 X3). specialize (S4 X4). split; [|split].
      + intros k Hk. specialize (Hf (Z.of_nat k) ltac:(lia)). rewrite (proj1 (S1 k) Hk), (proj1 (S2 k) Hk), (proj1 (S3 k) Hk), (proj1 (S4 k) Hk). exact Hf.
      + intros k Hk. specialize (Hb (Z.of_nat k) ltac:(lia)). rewrite (proj2 (S1 k) Hk), (proj2 (S2 k) Hk), (proj2 (S3 k) Hk), (proj2 (S4 k) Hk). exact Hb.
      + exists (Z.to_nat c). split; [lia|]. rewrite (proj1 (S1 _)), (proj1 (S2 _)) by lia. rewrite Z2Nat.id by lia. exact Nq.
    - specialize (S3 X3). specialize (S4 X4). apply CO1 in X3. apply CO2 in X4. right. destruct Hx as [(-> & X1 & X2)|(-> & X1 & X2)]; [left|right; left]; (split; [exact X3|]); (split; [exact X4|]).
      + split; [apply CI1; exact X1|]. split; [exact (Fa _ _ CI2 X2)|]. split.
        * intros k Hk. specialize (Hf (Z.of_nat k) ltac:(lia)). rewrite (proj1 (S1 k) Hk), (proj1 (S3 k) Hk), (proj1 (S4 k) Hk). exact Hf.
        * intros k Hk. specialize (Hb (Z.of_nat k) ltac:(lia)). rewrite (proj2 (S1 k) Hk), (proj2 (S3 k) Hk), (proj2 (S4 k) Hk). exact Hb.
      + split; [exact (Fa _ _ CI1 X1)|]. split; [apply CI2; exact X2|]. split.
        * intros k Hk. specialize (Hf (Z.of_nat k) ltac:(lia)). rewrite (proj1 (S2 k) Hk), (proj1 (S3 k) Hk), (proj1 (S4 k) Hk). exact Hf.
        * intros k Hk. specialize (Hb (Z.of_nat k) ltac:(lia)). rewrite (proj2 (S2 k) Hk), (proj2 (S3 k) Hk), (proj2 (S4 k) Hk). exact Hb.
    - apply CI1 in X1. apply CI2 in X2. right. right. right. destruct Hx as [(-> & X3 & X4)|(-> & X3 & X4)]; [left|right]; (split; [exact X1|]); (split; [exact X2|]).
      + specialize (S3 X3). split; [apply CO1; exact X3|]. split; [exact (Fa _ _ CO2 X4)|]. split.
        * intros k Hk. specialize (Hf (Z.of_nat k) ltac:(lia)). rewrite (proj1 (S1 k) Hk), (proj1 (S2 k) Hk), (proj1 (S3 k) Hk). exact Hf.
        * intros k Hk. specialize (Hb (Z.of_nat k) ltac:(lia)). rewrite (proj2 (S1 k) Hk), (proj2 (S2 k) Hk), (proj2 (S3 k) Hk). exact Hb.
      + specialize (S4 X4). split; [exact (Fa _ _ CO1 X3)|]. split; [apply CO2; exact X4|]. split.
        * intros k Hk. specialize (Hf (Z.of_nat k) ltac:(lia)). rewrite (proj1 (S1 k) Hk), (proj1 (S2 k) Hk), (proj1 (S4 k) Hk). exact Hf.
        * intros k Hk. specialize (Hb (Z.of_nat k) ltac:(lia)). rewrite (proj2 (S1 k) Hk), (proj2 (S2 k) Hk), (proj2 (S4 k) Hk). exact Hb.
  Qed.
  Ltac fits := first [exact (proj1 sc_fits) | exact (proj2 sc_fits)].
  (** What the carries of the splitter are. *)
  Lemma sc_carries p d p10 p01 p11 c : T p = Splitter d true -> mate p = Some p01 -> neighbour A p d = Some p10 -> neighbour A p01 d = Some p11 ->
    carry_f c p = carries (bits_of bits (fwd_at c p)) (bits_of bits (fwd_at c p01)) (all_four p) /\
    carry_b c p = carries (bits_of bits (bwd_at c p10)) (bits_of bits (bwd_at c p11)) (all_four p).
  Proof. intros Tp Ma N1 N2. unfold carry_f, carry_b, mate_of. rewrite Tp, Ma, N1, N2. auto. Qed.
  Lemma sc_partial p d p10 p01 p11 side k : inside A p -> block_of g p d = Some (p10, p01, p11) -> partial_splitter_flow g ff fb p p10 p01 p11 d side = Some k -> sat a k = true.
  Proof.
    intros Hp Eb E. destruct (block_inside g p d p10 p01 p11 W Eb) as (P10 & P01 & P11). pose proof (tile_at_ok g p W Hp) as Ok. pose proof (tile_at_ok g p01 W P01) as Ok1.
    pose proof (sc_known p d p10 p01 p11 Hp Eb) as Kn. unfold partial_splitter_flow in E.
    assert (Cf : (bits <= fl_cbits ff)%nat /\ (bits <= fl_cbits fb)%nat) by (cbn [forward_flows backward_flows fl_cbits]; lia).
    assert (NP : forall x, nonzero (is_splitter_head (tile_at g p)) /\ nonzero (output_dir (tile_at g p) x) /\ nonzero (input_dir (tile_at g p) x) /\ nonzero (output_dir (tile_at g p01) x) /\ nonzero (input_dir (tile_at g p01) x) /\
      nonzero (- output_dir (tile_at g p) x) /\ nonzero (- input_dir (tile_at g p) x) /\ nonzero (- output_dir (tile_at g p01) x) /\ nonzero (- input_dir (tile_at g p01) x)).
    { intros x. repeat (match goal with |- _ /\ _ => split end); try apply Ok; try apply Ok1; (unfold nonzero; intros Q0; apply (f_equal Z.opp) in Q0; rewrite Z.opp_involutive in Q0; revert Q0; first [apply Ok|apply Ok1]). }
    specialize (NP d). destruct NP as (Z1 & Z2 & Z3 & Z4 & Z5 & Z6 & Z7 & Z8 & Z9).
    assert (Ng : forall l, nonzero l -> evl a (- l) = true -> evl a l = false) by (intros l Hl El; rewrite P_Cnf.evl_neg in El by exact Hl; apply negb_true_iff in El; exact El).
    set (pre_in := if side then [is_splitter_head (tile_at g p); output_dir (tile_at g p) d; input_dir (tile_at g p01) d; - input_dir (tile_at g p) d] else [is_splitter_head (tile_at g p); output_dir (tile_at g p) d; input_dir (tile_at g p) d; - input_dir (tile_at g p01) d]).
    set (pre_out := if side then [is_splitter_head (tile_at g p); input_dir (tile_at g p) d; output_dir (tile_at g p01) d; - output_dir (tile_at g p) d] else [is_splitter_head (tile_at g p); input_dir (tile_at g p) d; output_dir (tile_at g p) d; - output_dir (tile_at g p01) d]).
    assert (In1 : Forall nonzero pre_in) by (unfold pre_in; destruct side; repeat (apply Forall_cons; [assumption|]); apply Forall_nil).
    assert (Out1 : Forall nonzero pre_out) by (unfold pre_out; destruct side; repeat (apply Forall_cons; [assumption|]); apply Forall_nil).
    set (x := if side then p01 else p). set (y := if side then p11 else p10).
    assert (Px : inside A x) by (unfold x; destruct side; assumption). assert (Py : inside A y) by (unfold y; destruct side; assumption).
    (* one input *)
    assert (Ki : (forall l, In l pre_in -> evl a l = true) -> splits_n fwd_at (Z.to_nat n) x p10 p11 /\ adds_n bwd_at (Z.to_nat m) p10 p11 x /\
      forall c, carry_b c p = ripple (bits_of bits (bwd_at c p10)) (bits_of bits (bwd_at c p11)) false).
    { unfold pre_in, x. intros Pre. assert (Vh : vh (V p) = true) by (apply Pre; destruct side; cbn; tauto). assert (Vo : vo (V p) d = true) by (apply Pre; destruct side; cbn; tauto).
      destruct (Kn Vh (or_intror Vo)) as (Tp & Ma & N1 & N2 & Af & Kd).
      assert (Vc : vi (V (if side then p01 else p)) d = true) by (destruct side; apply Pre; cbn; tauto). assert (Vu : vi (V (if side then p else p01)) d = false) by (destruct side; apply Ng; auto; apply Pre; cbn; tauto).
      assert (Ca : all_four p = false) by (rewrite Af; destruct side; rewrite Vu; rewrite ?andb_false_r; reflexivity).
      assert (Cr : forall c, carry_b c p = ripple (bits_of bits (bwd_at c p10)) (bits_of bits (bwd_at c p11)) false) by (intros c; destruct (sc_carries p d p10 p01 p11 c Tp Ma N1 N2) as [_ ->]; rewrite Ca; reflexivity).
      unfold known in Kd. cbv zeta in Kd. destruct side; destruct Kd as [(Q1 & Q2 & Q3 & Q4 & _)|[(Q3 & Q4 & Q1 & Q2 & H1 & H2)|[(Q3 & Q4 & Q1 & Q2 & H1 & H2)|[(Q1 & Q2 & Q3 & Q4 & _)|(Q1 & Q2 & Q3 & Q4 & _)]]]]; try congruence; auto. }
    assert (Ko : (forall l, In l pre_out -> evl a l = true) -> adds_n fwd_at (Z.to_nat n) p p01 y /\ splits_n bwd_at (Z.to_nat m) y p p01 /\
      forall c, carry_f c p = ripple (bits_of bits (fwd_at c p)) (bits_of bits (fwd_at c p01)) false).
    { unfold pre_out, y. intros Pre. assert (Vh : vh (V p) = true) by (apply Pre; destruct side; cbn; tauto). assert (Vo : vi (V p) d = true) by (apply Pre; destruct side; cbn; tauto).
      destruct (Kn Vh (or_introl Vo)) as (Tp & Ma & N1 & N2 & Af & Kd).
      assert (Vc : vo (V (if side then p01 else p)) d = true) by (destruct side; apply Pre; cbn; tauto). assert (Vu : vo (V (if side then p else p01)) d = false) by (destruct side; apply Ng; auto; apply Pre; cbn; tauto).
      assert (Ca : all_four p = false) by (rewrite Af; destruct side; rewrite Vu; rewrite ?andb_false_r; reflexivity).
      assert (Cr : forall c, carry_f c p = ripple (bits_of bits (fwd_at c p)) (bits_of bits (fwd_at c p01)) false) by (intros c; destruct (sc_carries p d p10 p01 p11 c Tp Ma N1 N2) as [-> _]; rewrite Ca; reflexivity).
      unfold known in Kd. cbv zeta in Kd. destruct side; destruct Kd as [(Q1 & Q2 & Q3 & Q4 & _)|[(Q3 & Q4 & Q1 & Q2 & _)|[(Q3 & Q4 & Q1 & Q2 & _)|[(Q1 & Q2 & Q3 & Q4 & H1 & H2)|(Q1 & Q2 & Q3 & Q4 & H1 & H2)]]]]; try congruence; auto. }
    assert (E' : (let* c1 := for_components ff (fun c => let* s := split_flow (flow g ff x c) (flow g ff p10 c) (flow g ff p11 c) in Some (implies pre_in s)) in
      let* c2 := for_components fb (fun c => let* s := add_numbers (flow g fb p10 c) (flow g fb p11 c) (flow g fb x c) (flow_carry g fb p c) None false in Some (implies pre_in s)) in
      let* c3 := for_components ff (fun c => let* s := add_numbers (flow g ff p c) (flow g ff p01 c) (flow g ff y c) (flow_carry g ff p c) None false in Some (implies pre_out s)) in
      let* c4 := for_components fb (fun c => let* s := split_flow (flow g fb y c) (flow g fb p c) (flow g fb p01 c) in Some (implies pre_out s)) in
      Some (c1 ++ c2 ++ c3 ++ c4)%list) = Some k) by (destruct side; exact E).
    clear E. destruct (for_components ff (fun c => let* s := split_flow _ _ _ in _)) as [c1|] eqn:E1; [|discriminate]. cbn [obind] in E'.
    destruct (for_components fb (fun c => let* s := add_numbers _ _ _ _ _ _ in _)) as [c2|] eqn:E2; [|discriminate]. cbn [obind] in E'.
    destruct (for_components ff (fun c => let* s := add_numbers _ _ _ _ _ _ in _)) as [c3|] eqn:E3; [|discriminate]. cbn [obind] in E'.
    destruct (for_components fb (fun c => let* s := split_flow _ _ _ in _)) as [c4|] eqn:E4; [|discriminate]. cbn [obind] in E'. apply Some_inj in E'. subst k.
    clearbody pre_in pre_out x y. rewrite !sat_app_iff. split; [|split; [|split]].
    - apply (q_split g W ff T ML share_values fwd_at (mate_of fwd_at) carry_f M vals_f ltac:(fits) ltac:(fits) f_range pre_in x p10 p11 c1 In1 Px P10 P11 E1). intros Pre c Hc. destruct (Ki Pre) as (H1 & _). exact (H1 c Hc).
    - apply (q_add g W fb T ML share_values bwd_at (mate_of bwd_at) carry_b M vals_b ltac:(fits) ltac:(fits) b_range pre_in p10 p11 x p c2 In1 P10 P11 Px Hp (proj2 Cf) E2). intros Pre c Hc. destruct (Ki Pre) as (_ & H2 & H3). split; [exact (H2 c Hc)|exact (H3 c)].
    - apply (q_add g W ff T ML share_values fwd_at (mate_of fwd_at) carry_f M vals_f ltac:(fits) ltac:(fits) f_range pre_out p p01 y p c3 Out1 Hp P01 Py Hp (proj1 Cf) E3). intros Pre c Hc. destruct (Ko Pre) as (H1 & _ & H3). split; [exact (H1 c Hc)|exact (H3 c)].
    - apply (q_split g W fb T ML share_values bwd_at (mate_of bwd_at) carry_b M vals_b ltac:(fits) ltac:(fits) b_range pre_out y p p01 c4 Out1 Py Hp P01 E4). intros Pre c Hc. destruct (Ko Pre) as (_ & H2 & _). exact (H2 c Hc).
  Qed.
  Lemma sc_splitter p d k : inside A p -> n_to_m_splitter g ff fb p d = Some k -> sat a k = true.
  Proof.
    intros Hp E. unfold n_to_m_splitter in E. destruct (block_of g p d) as [[[p10 p01] p11]|] eqn:Eb; [|apply Some_inj in E; subst k; reflexivity]. cbv zeta in E.
    destruct (block_inside g p d p10 p01 p11 W Eb) as (P10 & P01 & P11). pose proof (tile_at_ok g p W Hp) as Ok. pose proof (tile_at_ok g p01 W P01) as Ok1. pose proof (sc_known p d p10 p01 p11 Hp Eb) as Kn.
    set (pre := [is_splitter_head (tile_at g p); input_dir (tile_at g p) d; input_dir (tile_at g p01) d; output_dir (tile_at g p) d; output_dir (tile_at g p01) d]) in *.
    assert (NP : Forall nonzero pre) by (repeat (apply Forall_cons; [first [apply Ok|apply Ok1]|]); apply Forall_nil).
    assert (Cf : (bits - 1 <= fl_cbits ff)%nat /\ (bits - 1 <= fl_cbits fb)%nat) by (cbn [forward_flows backward_flows fl_cbits]; lia).
    assert (Kp : (forall l, In l pre -> evl a l = true) -> mate p = Some p01 /\ halves_n fwd_at (Z.to_nat n) p p01 p10 p11 /\ halves_n bwd_at (Z.to_nat m) p10 p11 p p01 /\ (exists c, (c < Z.to_nat n)%nat /\ fwd_at c p <> fwd_at c p01) /\
      forall c, carry_f c p = ripple (tl (bits_of bits (fwd_at c p))) (tl (bits_of bits (fwd_at c p01))) (hd false (bits_of bits (fwd_at c p))) /\
                carry_b c p = ripple (tl (bits_of bits (bwd_at c p10))) (tl (bits_of bits (bwd_at c p11))) (hd false (bits_of bits (bwd_at c p10)))).
    { intros Pre. assert (Vh : vh (V p) = true) by (apply Pre; cbn; tauto). assert (I0 : vi (V p) d = true) by (apply Pre; cbn; tauto). assert (I1 : vi (V p01) d = true) by (apply Pre; cbn; tauto). assert (O0 : vo (V p) d = true) by (apply Pre; cbn; tauto). assert (O1 : vo (V p01) d = true) by (apply Pre; cbn; tauto).
      destruct (Kn Vh (or_introl I0)) as (Tp & Ma & N1 & N2 & Af & Kd). rewrite I0, I1, O0, O1 in Af. cbn [andb] in Af. split; [exact Ma|]. unfold known in Kd. cbv zeta in Kd.
      destruct Kd as [(Q1 & Q2 & Q3 & Q4 & H1 & H2 & H3)|[(Q3 & Q4 & Q1 & Q2 & _)|[(Q3 & Q4 & Q1 & Q2 & _)|[(Q1 & Q2 & Q3 & Q4 & _)|(Q1 & Q2 & Q3 & Q4 & _)]]]]; try congruence.
      split; [exact H1|]. split; [exact H2|]. split; [exact H3|]. intros c. destruct (sc_carries p d p10 p01 p11 c Tp Ma N1 N2) as [-> ->]. rewrite Af. auto. }
    destruct (for_components ff _) as [c1|] eqn:E1; [|discriminate]. cbn [obind] in E.
    destruct (for_components fb _) as [c2|] eqn:E2; [|discriminate]. cbn [obind] in E.
    destruct (partial_splitter_flow _ _ _ _ _ _ _ _ false) as [c3|] eqn:E3; [|discriminate]. cbn [obind] in E.
    destruct (partial_splitter_flow _ _ _ _ _ _ _ _ true) as [c4|] eqn:E4; [|discriminate]. cbn [obind] in E. apply Some_inj in E. subst k.
    rewrite !sat_app_iff. split; [|split; [|split; [|split; [|split]]]].
    - assert (Cl : forall x y u v, nonzero x -> nonzero y -> (evl a x = true -> evl a y = true -> evl a u = true \/ evl a v = true) -> satc a [- x; - y; u; v] = true).
      { intros x y u v Hx Hy Q. apply satc_In. destruct (evl a x) eqn:Ex; [|exists (- x); split; [cbn; tauto|rewrite P_Cnf.evl_neg, Ex by exact Hx; reflexivity]]. destruct (evl a y) eqn:Ey; [|exists (- y); split; [cbn; tauto|rewrite P_Cnf.evl_neg, Ey by exact Hy; reflexivity]].
        destruct (Q eq_refl eq_refl); [exists u|exists v]; cbn; tauto. }
      rewrite !sat_cons_iff. split; [|split; [|split; [|split; [|reflexivity]]]]; (apply Cl; [apply Ok|apply Ok|]); intros Vh Vd.
      + destruct (Kn Vh (or_introl Vd)) as (_ & _ & _ & _ & _ & Kd). change (vo (V p) d = true \/ vo (V p01) d = true). unfold known in Kd. cbv zeta in Kd. tauto.
      + destruct (Kn Vh (or_introl Vd)) as (_ & _ & _ & _ & _ & Kd). change (vo (V p) d = true \/ vi (V p01) d = true). unfold known in Kd. cbv zeta in Kd. tauto.
      + destruct (Kn Vh (or_intror Vd)) as (_ & _ & _ & _ & _ & Kd). change (vi (V p) d = true \/ vi (V p01) d = true). unfold known in Kd. cbv zeta in Kd. tauto.
      + destruct (Kn Vh (or_intror Vd)) as (_ & _ & _ & _ & _ & Kd). change (vi (V p) d = true \/ vo (V p01) d = true). unfold known in Kd. cbv zeta in Kd. tauto.
    - apply (q_halve g W ff T ML share_values fwd_at (mate_of fwd_at) carry_f M vals_f ltac:(fits) ltac:(fits) f_range pre p p01 p10 p11 p c1 NP Hp P01 P10 P11 Hp (proj1 Cf) E1). intros Pre c Hc. destruct (Kp Pre) as (_ & H1 & _ & _ & H4). destruct (H1 c Hc) as [X1 X2]. split; [exact X1|]. split; [exact X2|]. apply H4.
    - apply (q_halve g W fb T ML share_values bwd_at (mate_of bwd_at) carry_b M vals_b ltac:(fits) ltac:(fits) b_range pre p10 p11 p p01 p c2 NP P10 P11 Hp P01 Hp (proj2 Cf) E2). intros Pre c Hc. destruct (Kp Pre) as (_ & _ & H2 & _ & H4). destruct (H2 c Hc) as [X1 X2]. split; [exact X1|]. split; [exact X2|]. apply H4.
    - destruct (all_flow_ok g W ff p Hp) as [L1 Z1]. destruct (all_flow_ok g W fb p Hp) as [L2 Z2]. destruct (all_flow_ok g W ff p01 P01) as [L3 Z3]. destruct (all_flow_ok g W fb p01 P01) as [L4 Z4]. destruct (flow_diff_ok g W ff p Hp) as [L5 Z5]. destruct (flow_diff_ok g W fb p Hp) as [L6 Z6].
      apply differ_given.
      + exact NP.
      + apply Forall_app. auto.
      + apply Forall_app. auto.
      + apply Forall_app. auto.
      + rewrite !app_length. lia.
      + rewrite !app_length. lia.
      + intros Pre. destruct (Kp Pre) as (Ma & _ & _ & (c & Hc & Nq) & _).
        assert (D1 := q_diff g W ff T ML share_values fwd_at (mate_of fwd_at) carry_f vals_f (proj2 sc_fits) p p01 Hp P01 ltac:(intros k _; unfold mate_of; rewrite Ma; reflexivity)).
        assert (D2 := q_diff g W fb T ML share_values bwd_at (mate_of bwd_at) carry_b vals_b (proj2 sc_fits) p p01 Hp P01 ltac:(intros k _; unfold mate_of; rewrite Ma; reflexivity)).
        assert (D3 := q_different g W ff T ML share_values fwd_at (mate_of fwd_at) carry_f M vals_f (proj1 sc_fits) (proj2 sc_fits) f_range p p01 c Hp P01 Hc Nq).
        fold share_view in D1, D2, D3. split.
        * unfold values in *. rewrite !map_app, P_FreeNum.combine_app by (rewrite !map_length; lia). rewrite map_app. f_equal; assumption.
        * intros Ev. apply values_eq_value in Ev; [|rewrite !app_length; lia]. unfold values in *. rewrite !map_app in Ev. apply app_inj_len in Ev; [|rewrite !map_length; lia]. apply D3. apply Ev.
    - exact (sc_partial p d p10 p01 p11 false c3 Hp Eb E3).
    - exact (sc_partial p d p10 p01 p11 true c4 Hp Eb E4).
  Qed.

  Lemma sc_straight y : 0 <= y < h -> ~ is_splitter_tile (T (0, y)) /\ ~ is_splitter_tile (T (w - 1, y)).
  Proof.
    intros Hy. destruct (os_first _ _ _ _ _ _ _ _ Op) as [_ E1]. destruct (os_last _ _ _ _ _ _ _ _ Op) as [_ E2]. specialize (E1 y Hy). specialize (E2 y Hy). cbv beta in E1, E2. rewrite E1, E2. split; intros Q; [destruct ((i <=? y) && (y <? i + n)) | destruct ((j <=? y) && (y <? j + m))]; exact Q.
  Qed.
  Lemma sc_edge v v' x y cs : inside A (x, y) -> ~ is_splitter_tile (T (x, y)) -> (forall c, (c < fl_count ff)%nat -> fwd_at c (x, y) = v y c) -> (forall c, (c < fl_count fb)%nat -> bwd_at c (x, y) = v' y c) ->
    edge_flow g [(ff, v); (fb, v')] x y = Some cs -> sat a cs = true.
  Proof.
    intros Hp Ns Hv Hv' E. unfold edge_flow in E. cbn [omap fst snd] in E. destruct (for_components ff _) as [k|] eqn:Ek; [|discriminate]. cbn [obind] in E. destruct (for_components fb _) as [k'|] eqn:Ek'; [|discriminate]. cbn [obind] in E. apply Some_inj in E. subst cs. cbn [List.concat]. rewrite app_nil_r.
    pose proof (tile_at_ok g _ W Hp) as Ok. rewrite sat_cons_iff, satc_one, sat_app_iff. split; [|split].
    - rewrite P_Cnf.evl_neg by apply Ok. apply negb_true_iff. change (vs (V (x, y)) = false). pose proof (seen g W a (proj1 sc_solves) T sc_reads _ Hp) as (_ & _ & _ & Ss & _). rewrite Ss. destruct (T (x, y)); try reflexivity. contradiction Ns. exact Logic.I.
    - exact (q_number g W ff T ML share_values fwd_at (mate_of fwd_at) carry_f M vals_f (proj1 sc_fits) (proj2 sc_fits) f_range (v y) (x, y) k Hp Hv Ek).
    - exact (q_number g W fb T ML share_values bwd_at (mate_of bwd_at) carry_b M vals_b (proj1 sc_fits) (proj2 sc_fits) b_range (v' y) (x, y) k' Hp Hv' Ek').
  Qed.
  (** At most one of the numbers of a tile is more than half the maximum. *)
  Lemma sc_small v : 0 < v -> 2 * v <= M -> v < 2 ^ Z.log2 M.
  Proof. intros H1 H2. pose proof (Z.log2_spec M sc_M) as [_ U]. rewrite Z.pow_succ_r in U by apply Z.log2_nonneg. lia. Qed.
  Lemma sc_most_f p c c' : inside A p -> (c < fl_count ff)%nat -> (c' < fl_count ff)%nat -> 2 ^ (Z.of_nat bits - 1) <= fwd_at c p -> 2 ^ (Z.of_nat bits - 1) <= fwd_at c' p -> c = c'.
  Proof.
    cbn [forward_flows fl_count]. intros Hp Hc Hc'. rewrite log2_bits by exact sc_M. destruct (forward_numbers n m M Hn Hm HM) as (F0 & F1 & F2 & F3 & F4). assert (P2 : 0 < 2 ^ Z.log2 M) by (apply Z.pow_pos_nonneg; [lia|apply Z.log2_nonneg]).
    unfold fwd_at. destruct (fst p =? 0).
    - destruct (Z.eqb_spec (snd p mod n) (Z.of_nat c)), (Z.eqb_spec (snd p mod n) (Z.of_nat c')); lia.
    - destruct (fst p =? w - 1).
      + assert (Sm : forward_output n m M < 2 ^ Z.log2 M).
        { apply sc_small; [lia|]. assert (X : n * m * forward_output n m M = M * Z.min n m) by (rewrite <- F0, <- F1; ring). pose proof sc_M.
          destruct (Z.min_spec n m) as [[L1 L2]|[L1 L2]]; rewrite L2 in X; [assert (m * forward_output n m M = M) by nia|assert (n * forward_output n m M = M) by nia]; nia. }
        lia.
      + intros L1 L2. rewrite <- sc_units in L1, L2. pose proof (proj1 (mt_most _ _ _ _ _ _ _ _ _ _ Me p Hp) (Z.of_nat c) (Z.of_nat c') ltac:(lia) ltac:(lia) L1 L2). lia.
  Qed.
  Lemma sc_most_b p c c' : inside A p -> (c < fl_count fb)%nat -> (c' < fl_count fb)%nat -> 2 ^ (Z.of_nat bits - 1) <= bwd_at c p -> 2 ^ (Z.of_nat bits - 1) <= bwd_at c' p -> c = c'.
  Proof.
    cbn [backward_flows fl_count]. intros Hp Hc Hc'. rewrite log2_bits by exact sc_M. destruct (backward_numbers n m M Hn Hm HM) as (F0 & F1 & F2 & F3 & F4). assert (P2 : 0 < 2 ^ Z.log2 M) by (apply Z.pow_pos_nonneg; [lia|apply Z.log2_nonneg]).
    unfold bwd_at. destruct (fst p =? 0).
    - assert (Sm : backward_output n m M < 2 ^ Z.log2 M).
        { apply sc_small; [lia|]. assert (X : n * m * backward_output n m M = M * Z.min n m) by (rewrite <- F0, <- F1; ring). pose proof sc_M.
          destruct (Z.min_spec n m) as [[L1 L2]|[L1 L2]]; rewrite L2 in X; [assert (m * backward_output n m M = M) by nia|assert (n * backward_output n m M = M) by nia]; nia. }
        lia.
    - destruct (fst p =? w - 1).
      + destruct (Z.eqb_spec (snd p mod m) (Z.of_nat c)), (Z.eqb_spec (snd p mod m) (Z.of_nat c')); lia.
      + intros L1 L2. rewrite <- sc_units in L1, L2. pose proof (proj2 (mt_most _ _ _ _ _ _ _ _ _ _ Me p Hp) (Z.of_nat c) (Z.of_nat c') ltac:(lia) ltac:(lia) L1 L2). lia.
  Qed.
  Theorem sc_created created : create_n_to_m_balancer w h ul n m = Some (g, created) -> sat a created = true.
  Proof.
    intros E. unfold create_n_to_m_balancer in E. rewrite (proj2 (Z.ltb_lt 0 w) Hw), (proj2 (Z.ltb_lt 0 h) Hh), (proj2 (Z.ltb_lt 0 n) Hn), (proj2 (Z.ltb_lt 0 m) Hm), (proj2 (Z.eqb_neq n m) Hnm), HM in E. cbn [negb andb obind] in E.
    destruct (init_clauses g) as [init|] eqn:Ei; [|discriminate]. cbn [obind] in E.
    destruct (oflat _ (iterate_tiles (geo g))) as [tiles|] eqn:Et; [|discriminate]. cbn [obind] in E.
    destruct (transport_quantity g (all_flow g ff) _ _) as [moved|] eqn:Em; [|discriminate]. cbn [obind] in E.
    destruct (transport_quantity g (all_flow g fb) _ _) as [moved'|] eqn:Em'; [|discriminate]. cbn [obind] in E.
    destruct (oflat _ (cells w h)) as [splitters|] eqn:Esp; [|discriminate]. cbn [obind] in E.
    destruct (oflat (edge_flow g _ 0) (range h)) as [first|] eqn:Ef; [|discriminate]. cbn [obind] in E.
    destruct (oflat (edge_flow g _ (w - 1)) (range h)) as [final|] eqn:El; [|discriminate]. cbn [obind] in E. apply Some_inj in E.
    assert (Ec : created = (init ++ block_underground_through_edges g (EBool true) ++ prevent_bad_undergrounding g ++ tiles ++ moved ++ moved' ++ splitters ++ first ++ final)%list) by congruence.
    rewrite Ec. clear E Ec. destruct sc_solves as ((init' & Ei' & Si) & Ix & Ug & Be & Ln). pose proof sc_wide as Ww.
    assert (Left : forall y, 0 <= y < h -> inside A (0, y)) by (intros y Hy; split; cbn [garea area_of aw ah fst snd]; cbn; lia).
    assert (Right : forall y, 0 <= y < h -> inside A (w - 1, y)) by (intros y Hy; split; cbn [garea area_of aw ah fst snd]; cbn; lia).
    rewrite !sat_app_iff. repeat (match goal with |- _ /\ _ => split end).
    - assert (init' = init) by (apply Some_inj; exact (eq_trans (eq_sym Ei') Ei)). subst init'. exact Si.
    - exact Be.
    - exact Ug.
    - apply (sat_oflat a _ _ _ Et). intros p Hin. destruct (oflat_each _ _ _ Et p Hin) as (k & Ek). exists k. split; [exact Ek|]. cbv beta zeta in Ek. apply iterate_tiles_in in Hin. change (inside A p) in Hin.
      destruct (for_components ff _) as [bd|] eqn:Eb; [|discriminate]. cbn [obind] in Ek. destruct (for_components fb _) as [bd'|] eqn:Eb'; [|discriminate]. cbn [obind] in Ek. apply Some_inj in Ek. subst k. rewrite !sat_app_iff. split; [|split; [|split]].
      + exact (q_max g W ff T ML share_values fwd_at (mate_of fwd_at) carry_f M vals_f (proj1 sc_fits) (proj2 sc_fits) f_range p bd Hin Eb).
      + exact (q_max g W fb T ML share_values bwd_at (mate_of bwd_at) carry_b M vals_b (proj1 sc_fits) (proj2 sc_fits) b_range p bd' Hin Eb').
      + exact (q_most g W ff T ML share_values fwd_at (mate_of fwd_at) carry_f M vals_f (proj1 sc_fits) (proj2 sc_fits) f_range p Hin (fun c c' => sc_most_f p c c' Hin)).
      + exact (q_most g W fb T ML share_values bwd_at (mate_of bwd_at) carry_b M vals_b (proj1 sc_fits) (proj2 sc_fits) b_range p Hin (fun c c' => sc_most_b p c c' Hin)).
    - exact (q_moved g W ff T ML share_values VL fwd_at (mate_of fwd_at) carry_f vals_f (proj2 sc_fits) (fun c p q Hc Hq => proj1 (sc_hands p q Hq) c Hc) (fun c p q Hc Hq => proj1 (sc_under p q Hq) c Hc) moved Em).
    - exact (q_moved g W fb T ML share_values VL bwd_at (mate_of bwd_at) carry_b vals_b (proj2 sc_fits) (fun c p q Hc Hq => proj2 (sc_hands p q Hq) c Hc) (fun c p q Hc Hq => proj2 (sc_under p q Hq) c Hc) moved' Em').
    - apply (sat_oflat a _ _ _ Esp). intros p Hin. destruct (oflat_each _ _ _ Esp p Hin) as (k & Ek). exists k. split; [exact Ek|]. change (cells w h) with (iterate_tiles (geo g)) in Hin. apply iterate_tiles_in in Hin. change (inside A p) in Hin.
      apply (sat_oflat a _ _ _ Ek). intros d Hd. destruct (oflat_each _ _ _ Ek d Hd) as (k' & Ek'). exists k'. split; [exact Ek'|]. exact (sc_splitter p d k' Hin Ek').
    - apply (sat_oflat a _ _ _ Ef). intros y Hin. destruct (oflat_each _ _ _ Ef y Hin) as (k & Ek). exists k. split; [exact Ek|]. apply range_in in Hin. apply (sc_edge (source_flow n (forward_input n m M)) (fun _ _ => backward_output n m M) 0 y k (Left y Hin)); [apply sc_straight; exact Hin|reflexivity|reflexivity|exact Ek].
    - apply (sat_oflat a _ _ _ El). intros y Hin. destruct (oflat_each _ _ _ El y Hin) as (k & Ek). exists k. split; [exact Ek|]. apply range_in in Hin.
      apply (sc_edge (fun _ _ => forward_output n m M) (source_flow m (backward_input n m M)) (w - 1) y k (Right y Hin)); [apply sc_straight; exact Hin| | |exact Ek]; intros c Hc; unfold fwd_at, bwd_at; cbn [fst snd]; (destruct (Z.eqb_spec (w - 1) 0); [lia|]); rewrite Z.eqb_refl; reflexivity.
  Qed.
  Lemma sc_edge_none d (p : pos) : inside A p -> (neighbour A p d = None <-> match d with RIGHT => fst p = w - 1 | LEFT => fst p = 0 | UP => snd p = 0 | DOWN => snd p = h - 1 end).
  Proof.
    intros Hp. split.
    - intros N. apply (neighbour_none A p d (WA g W) Hp) in N. destruct N as [_ N]. exact N.
    - intros N. unfold neighbour, ahead, place. change (wrapx A) with false. change (wrapy A) with false. cbv iota. destruct (insideb A _) eqn:Ei; [|reflexivity]. apply insideb_iff in Ei. exfalso.
      destruct Hp as [P1 P2], Ei as [Q1 Q2]. destruct p as [x y]. change (aw A) with w in *. change (ah A) with h in *. cbn [fst snd] in *. destruct d; cbn [step_x step_y] in *; lia.
  Qed.
  Lemma sc_far_in (p : pos) d k q : ahead A p d k = Some q -> inside A q /\ q = far p d k.
  Proof.
    unfold ahead, far, place. change (wrapx A) with false. change (wrapy A) with false. cbv iota. destruct (insideb A _) eqn:Ei; [|discriminate]. intros Eq. apply Some_inj in Eq. apply insideb_iff in Ei. split; [rewrite <- Eq; exact Ei|symmetry; exact Eq].
  Qed.
  Lemma sc_end_rows (x e k : Z) : Spec_Flow.straight_ends T (fun y => (x, y)) h e k -> forall y, k <= y < k + e -> 0 <= y < h /\ T (x, y) = Belt RIGHT RIGHT.
  Proof.
    intros [Rg E] y Hy. specialize (E y ltac:(lia)). cbv beta in E. split; [lia|]. rewrite E. destruct (Z.leb_spec k y), (Z.ltb_spec y (k + e)); try lia. reflexivity.
  Qed.
  Lemma sc_belts : sat a (block_belts_through_edges g (EPair false true)) = true.
  Proof.
    apply (C50_block_belts g a (EPair false true) T W (proj1 sc_solves) sc_reads). intros p d Hp He'. assert (Nd : neighbour A p d = None).
    { apply (sc_edge_none d p Hp). destruct d; cbn in He'; destruct He' as [Q1 Q2]; try discriminate; exact Q2. }
    assert (Vd : d = UP \/ d = DOWN) by (destruct d; cbn in He'; destruct He' as [Q1 Q2]; try discriminate; tauto).
    assert (Vo : opposite d <> RIGHT /\ d <> RIGHT) by (destruct Vd; subst d; split; discriminate).
    assert (K1 : ~ takes (T p) (opposite d)).
    { intros K. assert (Bg : begins A T (Enter p) p). { split; [reflexivity|]. split; [exact Hp|]. exists (opposite d). rewrite opposite_opposite. split; assumption. }
      apply (proj2 (os_inlets _ _ _ _ _ _ _ _ Op)), rows_in in Bg; [|lia]. destruct Bg as [X1 X2]. destruct p as [x y]. cbn [fst snd] in *. subst x.
      destruct (sc_end_rows 0 n i (os_first _ _ _ _ _ _ _ _ Op) y X2) as [_ Et]. rewrite Et in K. cbn in K. apply (proj1 Vo). congruence. }
    assert (NS : T p <> Splitter d true /\ T p <> Splitter d false).
    { split; intros E; exact (proj1 (sc_border p d _ Hp E) Nd). }
    assert (K2 : ~ pushes (T p) d).
    { intros K. assert (Ns : ~ is_splitter_tile (T p)).
      { intros Sp. destruct (T p) as [| | | |e b| |] eqn:Tp; try contradiction. cbn in K. subst e. destruct b; tauto. }
      assert (Bg : reaches A T (Leave p) p). { split; [reflexivity|]. split; [exact Hp|]. split; [exact Ns|]. exists d. split; assumption. }
      apply (proj2 (os_outlets _ _ _ _ _ _ _ _ Op)), rows_in in Bg; [|lia]. destruct Bg as [X1 X2]. destruct p as [x y]. cbn [fst snd] in *. subst x.
      destruct (sc_end_rows (w - 1) m j (os_last _ _ _ _ _ _ _ _ Op) y X2) as [_ Et]. rewrite Et in K. cbn in K. apply (proj2 Vo). congruence. }
    split; [exact K1|]. split; [exact K2|]. pose proof VL as (_ & _ & _ & _ & _ & _ & Ent & Ex). apply (sc_edge_none d p Hp) in Nd. split; intros Et.
    - destruct (Ent p d Hp Et) as (q & _ & k & Hk & Eq & _). destruct (sc_far_in _ _ _ _ Eq) as [Hq ->]. destruct Hp as [P1 P2], Hq as [Q1 Q2]. unfold far in *. change (aw A) with w in *. change (ah A) with h in *. cbn [fst snd] in *. destruct Vd; subst d; cbn [step_x step_y] in *; lia.
    - destruct (Ex p _ Hp Et) as (q & Hq & _ & k & Hk & Eq & _). destruct (sc_far_in _ _ _ _ Eq) as [_ Ep]. destruct q as [qx qy], p as [x y]. unfold far in Ep. destruct Hp as [P1 P2], Hq as [Q1 Q2]. change (aw A) with w in *. change (ah A) with h in *. cbn [fst snd] in *.
      injection Ep as E1 E2. destruct Vd; subst d; cbn [opposite step_x step_y] in *; lia.
  Qed.
End Complete.
