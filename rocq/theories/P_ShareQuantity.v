(** The clauses about one quantity of the network-free balancer, for the solution
    that stands for a layout with given flows. *)
From Coq Require Import String ZArith List Bool Lia.
From Verif Require Import P_Network P_Network2.
From Verif Require Import Spec_Cnf Spec_Tile Spec_Layout Spec_Pattern Spec_Main M_Json M_Tile M_Util M_Card M_Network M_Template M_Grid M_Oracle M_Balancer M_Optimise M_NetFree
  P_Cnf P_Util P_Util2 P_Util3 P_Card P_Tile P_Layout P_List P_Template P_Walk P_Grid P_GridSound P_GridComplete P_Transport T_Grid P_NetArith P_NetClause P_NetFree P_FreeNum P_FreeWitness P_Balancer.
Import ListNotations.
Open Scope Z_scope.

Lemma nth_all {E} (l : list E) x : map (fun i => nth i l x) (seq 0 (List.length l)) = l.
Proof.
  apply (nth_ext _ _ x x); [rewrite map_length, seq_length; reflexivity|]. intros k Hk. rewrite map_length, seq_length in Hk.
  rewrite (nth_indep _ x (nth 0 l x)) by (rewrite map_length, seq_length; exact Hk). rewrite (map_nth (fun i => nth i l x) (seq 0 (List.length l)) 0%nat k), seq_nth by exact Hk. reflexivity.
Qed.
Lemma nth_firstn {E} (l : list E) x n : (List.length l <= n)%nat -> firstn (List.length l) (map (fun i => nth i l x) (seq 0 n)) = l.
Proof.
  intros H. replace n with (List.length l + (n - List.length l))%nat by lia. rewrite seq_app, map_app, firstn_app, map_length, seq_length, Nat.sub_diag. cbn [firstn]. rewrite app_nil_r, firstn_all2 by (rewrite map_length, seq_length; lia). apply nth_all.
Qed.
Lemma tl_length {E} (l : list E) : List.length (tl l) = (List.length l - 1)%nat.
Proof. destruct l; cbn; lia. Qed.
Lemma guarded_sat a pre s : Forall nonzero pre -> ((forall l, In l pre -> evl a l = true) -> sat a s = true) -> sat a (implies pre s) = true.
Proof.
  intros NP H. rewrite sat_implies by exact NP. apply orb_true_iff. destruct (forallb (evl a) pre) eqn:E; [|left; reflexivity]. right. apply H. apply forallb_forall. exact E.
Qed.
Lemma block_inside g p d p10 p01 p11 : wf_grid g -> block_of g p d = Some (p10, p01, p11) -> inside (garea g) p10 /\ inside (garea g) p01 /\ inside (garea g) p11.
Proof.
  intros W Eb. unfold block_of in Eb. destruct (get_tile_instance_offset _ _ _ (dx d) _) as [r1|] eqn:E1; [|discriminate].
  destruct (get_tile_instance_offset (geo g) (fst p) (snd p) (dx (next d)) (dy (next d))) as [r2|] eqn:E2; [|discriminate].
  destruct (get_tile_instance_offset _ _ _ (dx d + _) _) as [r3|] eqn:E3; [|discriminate]. apply Some_inj in Eb.
  rewrite offset_place in E1, E2, E3 by apply W. apply place_inside in E1, E2, E3. assert (r1 = p10) by congruence. assert (r2 = p01) by congruence. assert (r3 = p11) by congruence. subst. auto.
Qed.
Lemma top_bit a ls k : List.length ls = S k -> (evl a (last ls 0) = true <-> 2 ^ Z.of_nat k <= value a ls).
Proof.
  intros L. rewrite (last_firstn_value a ls k L). pose proof (value_bound a (firstn k ls)) as R. unfold len in R. rewrite firstn_length_le in R by lia.
  destruct (evl a (last ls 0)); cbn [Z.b2z]; split; try reflexivity; try discriminate; lia.
Qed.

Section Quantity.
  Variable g : grid.
  Hypothesis W : wf_grid g.
  Variable f : flows.
  Notation A := (garea g).
  Notation B := (fl_bits f).
  Variables (T : layout) (L : Z) (z : assignment).
  Notation a := (plain_view g T L z).
  Notation V p := (view_of a (tile_at g p)).
  Hypothesis VL : valid_layout A T L.
  Variables (D Mt : nat -> pos -> Z) (K : nat -> pos -> list bool) (M : Z).
  Notation X := (fun c p => tq g T L (D c) RIGHT p).
  Notation Y := (fun c p => tq g T L (D c) UP p).
  Hypothesis Vals : forall p o, inside A p -> (o < 4 * (fl_count f * fl_bits f) + fl_count f * fl_cbits f)%nat ->
    a (flow_base g f p + 1 + Z.of_nat o) = group_value f D Mt K X Y p o.
  Hypothesis Fit : M < 2 ^ Z.of_nat B.
  Hypothesis Bp : (0 < B)%nat.
  Hypothesis Rng : forall c p, (c < fl_count f)%nat -> inside A p -> 0 <= D c p <= M.
  Hypothesis Hands : forall c p q, (c < fl_count f)%nat -> hands_on A T p q -> D c p = D c q.
  Hypothesis Under : forall c p q, (c < fl_count f)%nat -> sends_under A T L p q -> D c p = D c q.
  Let Fb p (Hp : inside A p) : 0 <= flow_base g f p := flow_base_nonneg g W f p Hp.

  Lemma q_value p c : inside A p -> (c < fl_count f)%nat -> value a (flow g f p c) = D c p.
  Proof. intros Hp Hc. apply (num_flow g f D Mt K X Y a Vals Fb p c Hp Hc). pose proof (Rng c p Hc Hp). lia. Qed.
  Lemma q_values p c : inside A p -> (c < fl_count f)%nat -> values a (flow g f p c) = bits_of B (D c p).
  Proof. intros Hp Hc. apply (val_flow g f D Mt K X Y a Vals Fb p c Hp Hc). Qed.
  Lemma q_each F cs : for_components f F = Some cs -> (forall c k, (c < fl_count f)%nat -> F c = Some k -> sat a k = true) -> sat a cs = true.
  Proof.
    intros E H. apply (sat_oflat a _ _ _ E). intros c Hin. destruct (oflat_each _ _ _ E c Hin) as (k & Ek). exists k. split; [exact Ek|]. apply in_seq in Hin. apply (H c k); [lia|exact Ek].
  Qed.
  Lemma q_moved moved : transport_quantity g (all_flow g f) (flow_ux g f) (flow_uy g f) = Some moved -> sat a moved = true.
  Proof.
    intros Em. destruct (transport_sat g W a (all_flow g f) (flow_ux g f) (flow_uy g f) _ (all_flow_ok g W f) (flow_ux_ok g W f) (flow_uy_ok g W f)) as (cs & E & Q).
    assert (cs = moved) by (apply Some_inj; exact (eq_trans (eq_sym E) Em)). subst cs. apply Q. clear E Q. intros p d Hp q En. assert (Hq : inside A q) by (eapply ahead_inside; exact En).
    assert (U : forall r, inside A r -> values a (qu (flow_ux g f) (flow_uy g f) d r) = flat_map (fun c => bits_of B (tq g T L (D c) d r)) (seq 0 (fl_count f))).
    { intros r Hr. unfold qu. destruct d; cbn [is_horizontal].
      - apply (val_ux g f D Mt K X Y a Vals Fb r Hr).
      - apply (val_uy g f D Mt K X Y a Vals Fb r Hr).
      - apply (val_ux g f D Mt K X Y a Vals Fb r Hr).
      - apply (val_uy g f D Mt K X Y a Vals Fb r Hr). }
    assert (Av : forall r, inside A r -> values a (all_flow g f r) = flat_map (fun c => bits_of B (D c r)) (seq 0 (fl_count f))) by (intros r Hr; apply (val_all g f D Mt K X Y a Vals Fb r Hr)).
    assert (Sm : forall (u v : nat -> Z), (forall c, (c < fl_count f)%nat -> u c = v c) -> flat_map (fun c => bits_of B (u c)) (seq 0 (fl_count f)) = flat_map (fun c => bits_of B (v c)) (seq 0 (fl_count f))).
    { intros u v H. rewrite !flat_map_concat_map. f_equal. apply map_ext_in. intros c Hc. apply in_seq in Hc. rewrite H by lia. reflexivity. }
    assert (Tr : forall c, (c < fl_count f)%nat -> _) by (intros c Hc; exact (plain_transport g W T L z VL (D c) (fun p q => Hands c p q Hc) (fun p q => Under c p q Hc) p d q Hp En)).
    unfold value. rewrite !U, !Av by assumption. split; [|split; [|split]].
    - intros H1 H2. f_equal. apply Sm. intros c Hc. apply (proj1 (Tr c Hc)); assumption.
    - intros H1. f_equal. apply Sm. intros c Hc. apply (proj1 (proj2 (Tr c Hc))); assumption.
    - intros H1 H2 H3. f_equal. apply Sm. intros c Hc. apply (proj1 (proj2 (proj2 (Tr c Hc)))); assumption.
    - intros H1 H2 H3. f_equal. apply Sm. intros c Hc. apply (proj2 (proj2 (proj2 (Tr c Hc)))); assumption.
  Qed.
  Lemma q_max p cs : inside A p -> for_components f (fun c => set_maximum M (flow g f p c)) = Some cs -> sat a cs = true.
  Proof.
    intros Hp E. apply (q_each _ _ E). intros c k Hc Ek. apply (set_maximum_spec _ _ _ (flow_nonzero g W f p c Hp) Ek). rewrite (q_value p c Hp Hc). apply (Rng c p Hc Hp).
  Qed.
  Lemma q_number v p cs : inside A p -> (forall c, (c < fl_count f)%nat -> D c p = v c) -> for_components f (fun c => set_number (v c) (flow g f p c)) = Some cs -> sat a cs = true.
  Proof.
    intros Hp Hv E. apply (q_each _ _ E). intros c k Hc Ek. apply (set_number_spec _ _ _ (flow_nonzero g W f p c Hp) Ek). rewrite (q_value p c Hp Hc), (Hv c Hc). symmetry. apply Z.mod_small. unfold len. rewrite flow_length. rewrite <- (Hv c Hc). pose proof (Rng c p Hc Hp). lia.
  Qed.
  Lemma q_most p : inside A p -> (forall c c', (c < fl_count f)%nat -> (c' < fl_count f)%nat -> 2 ^ (Z.of_nat B - 1) <= D c p -> 2 ^ (Z.of_nat B - 1) <= D c' p -> c = c') ->
    sat a (quadratic_amo (map (fun c => last (flow g f p c) 0) (seq 0 (fl_count f)))) = true.
  Proof.
    intros Hp H. assert (Ln : forall c, List.length (flow g f p c) = S (B - 1)) by (intros c; rewrite flow_length; lia).
    assert (Top : forall c, (c < fl_count f)%nat -> evl a (last (flow g f p c) 0) = true -> 2 ^ (Z.of_nat B - 1) <= D c p).
    { intros c Hc E. apply (top_bit a _ _ (Ln c)) in E. rewrite (q_value p c Hp Hc) in E. replace (Z.of_nat B - 1) with (Z.of_nat (B - 1)) by lia. exact E. }
    apply quadratic_amo_sat.
    - apply Forall_map, Forall_forall. intros c _. apply (last_Forall nonzero); [intros E0; specialize (Ln c); rewrite E0 in Ln; discriminate|apply flow_nonzero; assumption].
    - apply (count_le1_unique a). intros j k Hj Hk Ej Ek. rewrite map_length, seq_length in Hj, Hk.
      assert (Nt : forall i, (i < fl_count f)%nat -> nth i (map (fun c => last (flow g f p c) 0) (seq 0 (fl_count f))) 0 = last (flow g f p i) 0).
      { intros i Hi. rewrite (nth_indep _ 0 (last (flow g f p 0%nat) 0)) by (rewrite map_length, seq_length; exact Hi). rewrite (map_nth (fun c => last (flow g f p c) 0)), seq_nth by exact Hi. reflexivity. }
      rewrite Nt in Ej, Ek by assumption. apply H; auto.
  Qed.
  Lemma q_carry p c : inside A p -> (c < fl_count f)%nat -> (List.length (K c p) <= fl_cbits f)%nat -> firstn (List.length (K c p)) (values a (flow_carry g f p c)) = K c p.
  Proof. intros Hp Hc Hl. rewrite (val_carry g f D Mt K X Y a Vals Fb p c Hp Hc). apply nth_firstn. exact Hl. Qed.

  Lemma q_halve pre x0 x1 y0 y1 r cs : Forall nonzero pre -> inside A x0 -> inside A x1 -> inside A y0 -> inside A y1 -> inside A r -> (B - 1 <= fl_cbits f)%nat ->
    for_components f (fun c => let* h := halve (flow g f x0 c) (flow g f x1 c) (flow g f y0 c) (flow g f y1 c) (flow_carry g f r c) in Some (implies pre h)) = Some cs ->
    ((forall l, In l pre -> evl a l = true) -> forall c, (c < fl_count f)%nat -> 2 * D c y0 = D c x0 + D c x1 /\ D c y1 = D c y0 /\
       K c r = ripple (tl (bits_of B (D c x0))) (tl (bits_of B (D c x1))) (hd false (bits_of B (D c x0)))) -> sat a cs = true.
  Proof.
    intros NP H1 H2 H3 H4 H5 Hb E Q. apply (q_each _ _ E). intros c k Hc Ek. destruct (halve _ _ _ _ _) as [hv|] eqn:Eh; [|discriminate]. cbn [obind] in Ek. apply Some_inj in Ek. subst k.
    apply guarded_sat; [exact NP|]. intros Pre. destruct (Q Pre c Hc) as (E1 & E2 & E3).
    apply (halve_given a (flow g f x0 c) (flow g f x1 c) (flow g f y0 c) (flow g f y1 c) (flow_carry g f r c) hv); try (apply flow_nonzero; assumption); try (apply flow_carry_nonzero; assumption); try exact Eh.
    - rewrite flow_length, !q_values by assumption. rewrite <- E3. assert (Lk : List.length (K c r) = (B - 1)%nat) by (rewrite E3, ripple_length; rewrite !tl_length, !bits_of_length; reflexivity).
      rewrite <- Lk at 1. apply q_carry; [exact H5|exact Hc|lia].
    - rewrite !q_value by assumption. lia.
    - rewrite !q_value by assumption. exact E2.
  Qed.
  Lemma q_add pre x0 x1 y r cs : Forall nonzero pre -> inside A x0 -> inside A x1 -> inside A y -> inside A r -> (B <= fl_cbits f)%nat ->
    for_components f (fun c => let* h := add_numbers (flow g f x0 c) (flow g f x1 c) (flow g f y c) (flow_carry g f r c) None false in Some (implies pre h)) = Some cs ->
    ((forall l, In l pre -> evl a l = true) -> forall c, (c < fl_count f)%nat -> D c y = D c x0 + D c x1 /\
       K c r = ripple (bits_of B (D c x0)) (bits_of B (D c x1)) false) -> sat a cs = true.
  Proof.
    intros NP H1 H2 H3 H5 Hb E Q. apply (q_each _ _ E). intros c k Hc Ek. destruct (add_numbers _ _ _ _ _ _) as [hv|] eqn:Eh; [|discriminate]. cbn [obind] in Ek. apply Some_inj in Ek. subst k.
    apply guarded_sat; [exact NP|]. intros Pre. destruct (Q Pre c Hc) as (E1 & E3).
    apply (add_given a (flow g f x0 c) (flow g f x1 c) (flow g f y c) (flow_carry g f r c) None hv); try (apply flow_nonzero; assumption); try (apply flow_carry_nonzero; assumption); try exact Eh; try exact Logic.I.
    - rewrite flow_length, !q_values by assumption. rewrite <- E3. assert (Lk : List.length (K c r) = B) by (rewrite E3, ripple_length; rewrite !bits_of_length; reflexivity).
      rewrite <- Lk at 1. apply q_carry; [exact H5|exact Hc|lia].
    - rewrite !q_value by assumption. cbn [cval]. lia.
  Qed.
  Lemma q_split pre x y0 y1 cs : Forall nonzero pre -> inside A x -> inside A y0 -> inside A y1 ->
    for_components f (fun c => let* h := split_flow (flow g f x c) (flow g f y0 c) (flow g f y1 c) in Some (implies pre h)) = Some cs ->
    ((forall l, In l pre -> evl a l = true) -> forall c, (c < fl_count f)%nat -> 2 * D c y0 = D c x /\ D c y1 = D c y0) -> sat a cs = true.
  Proof.
    intros NP H1 H2 H3 E Q. apply (q_each _ _ E). intros c k Hc Ek. destruct (split_flow _ _ _) as [hv|] eqn:Eh; [|discriminate]. cbn [obind] in Ek. apply Some_inj in Ek. subst k.
    apply guarded_sat; [exact NP|]. intros Pre. destruct (Q Pre c Hc) as (E1 & E2).
    apply (split_given a (flow g f x c) (flow g f y0 c) (flow g f y1 c) hv); try (apply flow_nonzero; assumption); try (rewrite !flow_length; reflexivity); try exact Eh; rewrite !q_value by assumption; lia.
  Qed.
  (** The difference of the flows at the halves of a splitter. *)
  Lemma q_diff p q : inside A p -> inside A q -> (forall c, (c < fl_count f)%nat -> Mt c p = D c q) ->
    values a (flow_diff g f p) = map (fun b => xorb (fst b) (snd b)) (combine (values a (all_flow g f p)) (values a (all_flow g f q))).
  Proof.
    intros Hp Hq E. rewrite (val_diff g f D Mt K X Y a Vals Fb p Hp), !(val_all g f D Mt K X Y a Vals Fb) by assumption.
    unfold bits_of. rewrite (xor_components B (fl_count f) (fun c i => Z.testbit (D c p) (Z.of_nat i)) (fun c i => Z.testbit (D c q) (Z.of_nat i))).
    rewrite !flat_map_concat_map. f_equal. apply map_ext_in. intros x Hx. apply in_seq in Hx. rewrite (E x ltac:(lia)). reflexivity.
  Qed.
  Lemma q_different p q c : inside A p -> inside A q -> (c < fl_count f)%nat -> D c p <> D c q -> values a (all_flow g f p) <> values a (all_flow g f q).
  Proof.
    intros Hp Hq Hc N E. apply N. rewrite <- (q_value p c Hp Hc), <- (q_value q c Hq Hc). apply (components_equal a _ _ B (fl_count f)); [|exact Hc]. unfold value. f_equal. exact E.
  Qed.
End Quantity.
