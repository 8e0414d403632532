(** The solution that stands for a layout with given flows. *)
From Coq Require Import String ZArith List Bool Lia.
From Verif Require Import Spec_Cnf Spec_Tile Spec_Layout Spec_Pattern Spec_Main M_Json M_Tile M_Util M_Card M_Network M_Template M_Grid M_Oracle M_Balancer M_Optimise M_NetFree
  P_Cnf P_Util P_Util2 P_Tile P_Layout P_List P_Template P_Walk P_Grid P_GridSound P_GridComplete P_Transport T_Grid P_NetArith P_NetClause P_FreeNum.
Import ListNotations.
Open Scope Z_scope.

(** ** The view of a layout, as an explicit assignment *)
Section Explicit.
  Variable g : grid.
  Hypothesis W : wf_grid g.
  Hypothesis NC : gcolours g = None.
  Hypothesis NX : wrap_x (geo g) = false.
  Hypothesis NY : wrap_y (geo g) = false.
  Variables (T : layout) (L : Z) (a0 : assignment).
  Notation A := (garea g).
  Hypothesis HL : match glen g with Some l => 1 <= l /\ L <= l | None => True end.
  Hypothesis VL : valid_layout A T L.
  Definition plain_view : assignment := layout_assignment g T L (fun _ => 0) (colour_x g T L (fun _ => 0)) (colour_y g T L (fun _ => 0)) a0.
  Notation a := plain_view.
  Notation V p := (view_of a (tile_at g p)).
  Lemma plain_facts : solves g (EBool true) a /\ reads g a T /\
    (forall p o, inside A p -> 0 <= o -> 20 + 3 * Z.of_nat (colour_bits g) + o < tile_size g -> a (extras_base g p + 1 + o) = a0 (extras_base g p + 1 + o)) /\
    (forall p d, inside A p -> (vi (V p) d = true <-> gets A T p d) /\ (vo (V p) d = true <-> gives A T p d)).
  Proof.
    pose proof W as ((Ww & Wh) & _ & Wc & _). pose proof (WA g W) as HA.
    assert (CH : forall p q, hands_on A T p q -> (fun _ : pos => 0) p = (fun _ : pos => 0) q) by reflexivity.
    assert (CU : forall p q, sends_under A T L p q -> (fun _ : pos => 0) p = (fun _ : pos => 0) q) by reflexivity.
    assert (HC2 : forall p, inside A p -> 0 <= (fun _ : pos => 0) p < 2 ^ Z.of_nat (colour_bits g)).
    { intros p _. cbv beta. assert (0 < 2 ^ Z.of_nat (colour_bits g)) by (apply Z.pow_pos_nonneg; lia). lia. }
    split; [split; [|split; [|split; [|split]]]|split; [|split]].
    - apply solves_init_rules; [exact W|]. refine (layout_grid_rules g W T L _ _ _ a0 VL _). intros c p Ec. congruence.
    - apply (intersection_sat g W a). intros p d Hp. exact (layout_link_rule g W T L _ _ _ a0 VL p d Hp).
    - apply (undergrounding_sat g W a). intros p d Hp. exact (layout_under_rule g W T L _ _ _ a0 VL p d Hp).
    - apply (block_underground_sat g W a). refine (layout_edge_under_rule g W T L _ _ _ a0 VL _ _). unfold edges_closed. cbn. intuition congruence.
    - unfold solves_length. destruct (enforce_maximum_underground_length g) as [cs|] eqn:E.
      + exists cs. split; [reflexivity|]. apply (length_sat g W a cs E). refine (layout_length_rule g W T L _ _ _ a0 VL _).
        intros l El. rewrite El in HL. apply HL.
      + exfalso. unfold enforce_maximum_underground_length in E. destruct (glen g) as [l|]; [|discriminate].
        destruct HL as [H1 _]. apply Z.leb_le in H1. rewrite H1 in E. discriminate.
    - intros p Hp. exact (decode_layout g W T L _ _ _ a0 VL p Hp).
    - intros p o Hp H0 Ho. unfold extras_base in *. replace (tile_base g p + 20 + 3 * Z.of_nat (colour_bits g) + 1 + o) with (tile_base g p + 1 + (20 + 3 * Z.of_nat (colour_bits g) + o)) by lia.
      apply table_extras; auto; lia.
    - intros p d Hp. destruct (view_layout g W T L (fun _ => 0) (colour_x g T L (fun _ => 0)) (colour_y g T L (fun _ => 0)) a0 p Hp) as (_ & _ & _ & _ & _ & _ & _ & _ & Vi & Vo & _).
      fold a in Vi, Vo. rewrite Vi, Vo. unfold f_in, f_out. rewrite !andb_true_iff, takesb_iff, pushesb_iff. split; (split; intros [H1 H2]; (split; [exact H1|])).
      + intros q E. rewrite E in H2. apply pushesb_iff. exact H2.
      + destruct (neighbour A p (opposite d)) as [q|]; [apply pushesb_iff; auto|reflexivity].
      + intros q E. rewrite E in H2. apply takesb_iff. exact H2.
      + destruct (neighbour A p d) as [q|]; [apply takesb_iff; auto|reflexivity].
  Qed.
  (** A quantity that is constant along the lines obeys the rules of transport. *)
  Lemma plain_transport C : (forall p q, hands_on A T p q -> C p = C q) -> (forall p q, sends_under A T L p q -> C p = C q) ->
    forall p d q, inside A p -> neighbour A p d = Some q ->
    (vo (V p) d = true -> vs (V p) = false -> C p = C q) /\
    (vu (V p) d = true -> tq g T L C d p = tq g T L C d q) /\
    (vi (V p) d = true -> vs (V p) = false -> (forall e, vo (V p) e = false) -> C p = tq g T L C d q) /\
    (vo (V q) d = true -> vs (V q) = false -> (forall e, vi (V q) e = false) -> tq g T L C d p = C q).
  Proof.
    intros CH CU p d q Hp En. assert (Hq : inside A q) by (eapply ahead_inside; exact En).
    assert (X : forall r, inside A r -> let V' := view_of (layout_assignment g T L C (colour_x g T L C) (colour_y g T L C) a0) (tile_at g r) in
      vs (V r) = vs V' /\ (forall e, vi (V r) e = vi V' e) /\ (forall e, vo (V r) e = vo V' e) /\ (forall e, vu (V r) e = vu V' e)).
    { intros r Hr V'. destruct (view_layout g W T L (fun _ => 0) (colour_x g T L (fun _ => 0)) (colour_y g T L (fun _ => 0)) a0 r Hr) as (_ & _ & S1 & _ & _ & _ & _ & _ & I1 & O1 & U1).
      destruct (view_layout g W T L C (colour_x g T L C) (colour_y g T L C) a0 r Hr) as (_ & _ & S2 & _ & _ & _ & _ & _ & I2 & O2 & U2).
      fold a in S1, I1, O1, U1. split; [exact (eq_trans S1 (eq_sym S2))|]. split; [intros e; exact (eq_trans (I1 e) (eq_sym (I2 e)))|]. split; [intros e; exact (eq_trans (O1 e) (eq_sym (O2 e)))|intros e; exact (eq_trans (U1 e) (eq_sym (U2 e)))]. }
    destruct (X p Hp) as (Sp & Ip & Op & Up). destruct (X q Hq) as (Sq & Iq & Oq & Uq).
    destruct (layout_transport g W T L C a0 VL CH CU p d q Hp En) as (R1 & R2 & R3 & R4). split; [|split; [|split]].
    - intros H1 H2. apply R1; [rewrite <- Op; exact H1|rewrite <- Sp; exact H2].
    - intros H1. apply R2. rewrite <- Up. exact H1.
    - intros H1 H2 H3. apply R3; [rewrite <- Ip; exact H1|rewrite <- Sp; exact H2|intros e; rewrite <- Op; apply H3].
    - intros H1 H2 H3. apply R4; [rewrite <- Oq; exact H1|rewrite <- Sq; exact H2|intros e; rewrite <- Iq; apply H3].
  Qed.
End Explicit.

(** ** The variables of a group of flows *)
Section Group.
  Variable g : grid.
  Hypothesis W : wf_grid g.
  Variable f : flows.
  Notation A := (garea g).
  Notation B := (fl_bits f).
  Notation Cb := (fl_cbits f).
  Notation Sz := (fl_count f * fl_bits f)%nat.
  Notation Sc := (fl_count f * fl_cbits f)%nat.
  (** The flows, those at the other half of a splitter, the carries and the flows
      in the tunnels. *)
  Variables (F M : nat -> pos -> Z) (K : nat -> pos -> list bool) (X Y : nat -> pos -> Z).
  Definition bit_of (G : nat -> Z) (o : nat) : bool := Z.testbit (G (o / B)%nat) (Z.of_nat (o mod B)).
  Definition group_value (p : pos) (o : nat) : bool :=
    if (o <? Sz)%nat then bit_of (fun c => F c p) o
    else if (o <? 2 * Sz)%nat then xorb (bit_of (fun c => F c p) (o - Sz)) (bit_of (fun c => M c p) (o - Sz))
    else if (o <? 2 * Sz + Sc)%nat then nth ((o - 2 * Sz) mod Cb) (K ((o - 2 * Sz) / Cb)%nat p) false
    else if (o <? 3 * Sz + Sc)%nat then bit_of (fun c => X c p) (o - (2 * Sz + Sc))
    else bit_of (fun c => Y c p) (o - (3 * Sz + Sc)).
  Variable a : assignment.
  Hypothesis Ha : forall p o, inside A p -> (o < 4 * Sz + Sc)%nat -> a (flow_base g f p + 1 + Z.of_nat o) = group_value p o.
  Hypothesis Fb : forall p, inside A p -> 0 <= flow_base g f p.

  Lemma place_of n k c i : (c < k)%nat -> (i < n)%nat -> (c * n + i < k * n)%nat /\ ((c * n + i) / n = c)%nat /\ ((c * n + i) mod n = i)%nat.
  Proof.
    intros Hc Hi. split; [nia|]. rewrite Nat.div_add_l by lia. rewrite (Nat.div_small i n Hi). split; [lia|]. rewrite Nat.add_comm, Nat.mod_add by lia. apply Nat.mod_small. exact Hi.
  Qed.
  Lemma bit_of_place (G : nat -> Z) c i : (c < fl_count f)%nat -> (i < B)%nat -> bit_of G (c * B + i) = Z.testbit (G c) (Z.of_nat i).
  Proof. intros Hc Hi. destruct (place_of B _ c i Hc Hi) as (_ & E1 & E2). unfold bit_of. rewrite E1, E2. reflexivity. Qed.
  Lemma val_flow p c : inside A p -> (c < fl_count f)%nat -> values a (flow g f p c) = bits_of B (F c p).
  Proof.
    intros Hp Hc. unfold flow, bits_of. apply component_values; [apply Fb; exact Hp|]. intros i Hi. destruct (place_of B _ c i Hc Hi) as (Hs & _).
    rewrite Ha by (try exact Hp; lia). unfold group_value. destruct (Nat.ltb_spec (c * B + i) Sz); [|lia]. apply bit_of_place; assumption.
  Qed.
  Lemma val_all p : inside A p -> values a (all_flow g f p) = flat_map (fun c => bits_of B (F c p)) (seq 0 (fl_count f)).
  Proof.
    intros Hp. unfold all_flow, bits_of. apply (components_values a _ B _ (fun c i => Z.testbit (F c p) (Z.of_nat i))); [apply Fb; exact Hp|]. intros c i Hc Hi. destruct (place_of B _ c i Hc Hi) as (Hs & _).
    rewrite Ha by (try exact Hp; lia). unfold group_value. destruct (Nat.ltb_spec (c * B + i) Sz); [|lia]. apply bit_of_place; assumption.
  Qed.
  Lemma val_diff p : inside A p -> values a (flow_diff g f p) = flat_map (fun c => map (fun i => xorb (Z.testbit (F c p) (Z.of_nat i)) (Z.testbit (M c p) (Z.of_nat i))) (seq 0 B)) (seq 0 (fl_count f)).
  Proof.
    intros Hp. unfold flow_diff, bits_of. apply (components_values a _ B _ (fun c i => xorb (Z.testbit (F c p) (Z.of_nat i)) (Z.testbit (M c p) (Z.of_nat i)))); [specialize (Fb p Hp); unfold size_of; lia|]. intros c i Hc Hi. destruct (place_of B _ c i Hc Hi) as (Hs & _).
    replace (flow_base g f p + size_of f + 1 + Z.of_nat (c * B + i)) with (flow_base g f p + 1 + Z.of_nat (Sz + (c * B + i))) by (unfold size_of; lia).
    rewrite Ha by (try exact Hp; lia). unfold group_value. destruct (Nat.ltb_spec (Sz + (c * B + i)) Sz); [lia|]. destruct (Nat.ltb_spec (Sz + (c * B + i)) (2 * Sz)); [|lia].
    replace (Sz + (c * B + i) - Sz)%nat with (c * B + i)%nat by lia. rewrite !bit_of_place by assumption. reflexivity.
  Qed.
  Lemma val_carry p c : inside A p -> (c < fl_count f)%nat -> values a (flow_carry g f p c) = map (fun i => nth i (K c p) false) (seq 0 Cb).
  Proof.
    intros Hp Hc. unfold flow_carry. apply component_values; [specialize (Fb p Hp); unfold size_of; lia|]. intros i Hi. destruct (place_of Cb _ c i Hc Hi) as (Hs & E1 & E2).
    replace (flow_base g f p + 2 * size_of f + 1 + Z.of_nat (c * Cb + i)) with (flow_base g f p + 1 + Z.of_nat (2 * Sz + (c * Cb + i))) by (unfold size_of; lia).
    rewrite Ha by (try exact Hp; lia). unfold group_value. destruct (Nat.ltb_spec (2 * Sz + (c * Cb + i)) Sz); [lia|]. destruct (Nat.ltb_spec (2 * Sz + (c * Cb + i)) (2 * Sz)); [lia|].
    destruct (Nat.ltb_spec (2 * Sz + (c * Cb + i)) (2 * Sz + Sc)); [|lia]. replace (2 * Sz + (c * Cb + i) - 2 * Sz)%nat with (c * Cb + i)%nat by lia. rewrite E1, E2. reflexivity.
  Qed.
  Lemma val_ux p : inside A p -> values a (flow_ux g f p) = flat_map (fun c => bits_of B (X c p)) (seq 0 (fl_count f)).
  Proof.
    intros Hp. unfold flow_ux, bits_of. apply (components_values a _ B _ (fun c i => Z.testbit (X c p) (Z.of_nat i))); [specialize (Fb p Hp); unfold size_of, carry_size; lia|]. intros c i Hc Hi. destruct (place_of B _ c i Hc Hi) as (Hs & _).
    replace (flow_base g f p + 2 * size_of f + carry_size f + 1 + Z.of_nat (c * B + i)) with (flow_base g f p + 1 + Z.of_nat (2 * Sz + Sc + (c * B + i))) by (unfold size_of, carry_size; lia).
    rewrite Ha by (try exact Hp; lia). unfold group_value. destruct (Nat.ltb_spec (2 * Sz + Sc + (c * B + i)) Sz); [lia|]. destruct (Nat.ltb_spec (2 * Sz + Sc + (c * B + i)) (2 * Sz)); [lia|].
    destruct (Nat.ltb_spec (2 * Sz + Sc + (c * B + i)) (2 * Sz + Sc)); [lia|]. destruct (Nat.ltb_spec (2 * Sz + Sc + (c * B + i)) (3 * Sz + Sc)); [|lia].
    replace (2 * Sz + Sc + (c * B + i) - (2 * Sz + Sc))%nat with (c * B + i)%nat by lia. apply bit_of_place; assumption.
  Qed.
  Lemma val_uy p : inside A p -> values a (flow_uy g f p) = flat_map (fun c => bits_of B (Y c p)) (seq 0 (fl_count f)).
  Proof.
    intros Hp. unfold flow_uy, bits_of. apply (components_values a _ B _ (fun c i => Z.testbit (Y c p) (Z.of_nat i))); [specialize (Fb p Hp); unfold size_of, carry_size; lia|]. intros c i Hc Hi. destruct (place_of B _ c i Hc Hi) as (Hs & _).
    replace (flow_base g f p + 2 * size_of f + carry_size f + size_of f + 1 + Z.of_nat (c * B + i)) with (flow_base g f p + 1 + Z.of_nat (3 * Sz + Sc + (c * B + i))) by (unfold size_of, carry_size; lia).
    rewrite Ha by (try exact Hp; lia). unfold group_value. destruct (Nat.ltb_spec (3 * Sz + Sc + (c * B + i)) Sz); [lia|]. destruct (Nat.ltb_spec (3 * Sz + Sc + (c * B + i)) (2 * Sz)); [lia|].
    destruct (Nat.ltb_spec (3 * Sz + Sc + (c * B + i)) (2 * Sz + Sc)); [lia|]. destruct (Nat.ltb_spec (3 * Sz + Sc + (c * B + i)) (3 * Sz + Sc)); [lia|].
    replace (3 * Sz + Sc + (c * B + i) - (3 * Sz + Sc))%nat with (c * B + i)%nat by lia. apply bit_of_place; assumption.
  Qed.
  Lemma num_flow p c : inside A p -> (c < fl_count f)%nat -> 0 <= F c p < 2 ^ Z.of_nat B -> value a (flow g f p c) = F c p.
  Proof.
    intros Hp Hc Hr. unfold value. rewrite (val_flow p c Hp Hc). unfold bits_of. rewrite num_testbits by lia. change (2 ^ Z.of_nat 0) with 1. rewrite Z.div_1_r. apply Z.mod_small. exact Hr.
  Qed.
End Group.
