(** require_correct_transport_through_edges: when it succeeds, and that it
    excludes nothing. *)
From Coq Require Import String ZArith List Bool Lia.
From Verif Require Import Spec_Cnf Spec_Tile Spec_Layout M_Json M_Tile M_Util M_Card M_Network M_Template M_Grid M_Oracle M_Balancer M_Optimise M_Interchange
  P_Cnf P_Util P_Card P_Tile P_Layout P_List P_Template P_Walk P_Grid P_GridSound P_GridComplete P_Transport T_Grid P_GridOk P_Gen P_Balancer P_NetFree P_Pow2 P_Pow2Flow P_Pow2Total P_Alloc P_Edge2 P_Flux P_Cut.
Import ListNotations.
Open Scope Z_scope.

(** ** The counts *)
Lemma indexed_map {X} (f : nat -> X) m : indexed (map f (seq 0 m)) = map (fun i => (i, f i)) (seq 0 m).
Proof.
  unfold indexed. rewrite map_length, seq_length. generalize (seq 0 m). induction l as [|x l IH]; [reflexivity|]. cbn [map combine]. rewrite IH. reflexivity.
Qed.
Lemma filter_of_map {X Y} (f : X -> Y) q l : filter q (map f l) = map f (filter (fun x => q (f x)) l).
Proof. induction l as [|x l IH]; [reflexivity|]. cbn [map filter]. rewrite IH. destruct (q (f x)); reflexivity. Qed.
Lemma odds m : filter (fun i => Nat.leb 1 i && Nat.eqb ((i - 1) mod 2) 0) (seq 0 m) = map (fun k => (2 * k + 1)%nat) (seq 0 (m / 2)).
Proof.
  induction m as [|m IH]; [reflexivity|]. rewrite seq_S, filter_app, IH. cbn [filter Nat.add].
  destruct (Nat.Even_or_Odd m) as [[k ->]|[k ->]].
  - rewrite (Nat.mul_comm 2 k), Nat.div_mul by lia. replace (S (k * 2) / 2)%nat with k by (rewrite <- Nat.add_1_l, Nat.add_comm, Nat.div_add_l by lia; cbn; lia).
    assert (X : Nat.leb 1 (k * 2) && Nat.eqb ((k * 2 - 1) mod 2) 0 = false).
    { destruct k as [|k]; [reflexivity|]. replace (S k * 2 - 1)%nat with (1 + k * 2)%nat by lia. rewrite Nat.mod_add by lia. rewrite andb_false_r. reflexivity. }
    rewrite X. apply app_nil_r.
  - replace ((2 * k + 1) / 2)%nat with k by (rewrite (Nat.mul_comm 2 k), Nat.div_add_l by lia; cbn; lia).
    replace (S (2 * k + 1) / 2)%nat with (S k) by (replace (S (2 * k + 1)) with (S k * 2)%nat by lia; rewrite Nat.div_mul; lia).
    replace (2 * k + 1 - 1)%nat with (k * 2)%nat by lia. rewrite Nat.mod_mul by lia. cbn [Nat.eqb]. rewrite (proj2 (Nat.leb_le 1 (2 * k + 1))) by lia. cbn [andb].
    rewrite seq_S, map_app. reflexivity.
Qed.
Lemma every_odd {X} (f : Z -> X) n : 1 <= n -> every 1 2 (map f (range (n * 2 - 1))) = map (fun k => f (2 * k + 1)) (range (n - 1)).
Proof.
  intros Hn. unfold every, range. rewrite map_map, indexed_map, filter_of_map, map_map. cbn [fst snd]. rewrite odds, !map_map.
  replace (Z.to_nat (n * 2 - 1) / 2)%nat with (Z.to_nat (n - 1)).
  - apply map_ext. intros k. f_equal. lia.
  - replace (Z.to_nat (n * 2 - 1)) with (Z.to_nat (n - 1) * 2 + 1)%nat by lia. rewrite Nat.div_add_l by lia. cbn. lia.
Qed.
Lemma flow_counts_formula n : 1 <= n -> flow_counts n = map (fun k => Z.min (k + 1) (n - 1 - k)) (range (n - 1)).
Proof.
  intros Hn. unfold flow_counts. rewrite (every_odd (fun i => if n mod 2 =? 1 then n / 2 - Z.abs (i - (n - 1)) / 2 else n / 2 - (Z.abs (i - (n - 1)) + 1) / 2) n Hn).
  apply map_ext_in. intros k Hk. apply range_in in Hk.
  pose proof (Z.div_mod n 2 ltac:(lia)) as D. pose proof (Z.mod_pos_bound n 2 ltac:(lia)) as B.
  destruct (Z.eqb_spec (n mod 2) 1) as [E|E].
  - set (m := n / 2) in *. assert (Hm : n = 2 * m + 1) by lia. replace (2 * k + 1 - (n - 1)) with (2 * (k - m) + 1) by lia.
    destruct (Z_lt_le_dec k m) as [C|C].
    + rewrite Z.abs_neq by lia. replace (- (2 * (k - m) + 1)) with (1 + (m - k - 1) * 2) by lia. rewrite Z.div_add by lia. change (1 / 2) with 0. lia.
    + rewrite Z.abs_eq by lia. replace (2 * (k - m) + 1) with (1 + (k - m) * 2) by lia. rewrite Z.div_add by lia. change (1 / 2) with 0. lia.
  - set (m := n / 2) in *. assert (Hm : n = 2 * m) by lia. replace (2 * k + 1 - (n - 1)) with (2 * (k + 1 - m)) by lia.
    destruct (Z_lt_le_dec (k + 1) m) as [C|C].
    + rewrite Z.abs_neq by lia. replace (- (2 * (k + 1 - m)) + 1) with (1 + (m - k - 1) * 2) by lia. rewrite Z.div_add by lia. change (1 / 2) with 0. lia.
    + rewrite Z.abs_eq by lia. replace (2 * (k + 1 - m) + 1) with (1 + (k + 1 - m) * 2) by lia. rewrite Z.div_add by lia. change (1 / 2) with 0. lia.
Qed.
(** The cuts between rows that get clauses, with their counts. *)
Lemma cuts_in h y m : 1 <= h / 2 ->
  In (y, m) (combine (map (fun k => 1 + 2 * k) (range (h / 2))) (flow_counts (h / 2))) <-> exists k, 0 <= k < h / 2 - 1 /\ y = 1 + 2 * k /\ m = Z.min (k + 1) (h / 2 - 1 - k).
Proof.
  intros Hn. rewrite flow_counts_formula by exact Hn. set (n := h / 2) in *.
  assert (E : combine (map (fun k => 1 + 2 * k) (range n)) (map (fun k => Z.min (k + 1) (n - 1 - k)) (range (n - 1))) = map (fun k => (1 + 2 * k, Z.min (k + 1) (n - 1 - k))) (range (n - 1))).
  { replace (range n) with (range (n - 1) ++ [n - 1])%list by (rewrite <- range_snoc by lia; f_equal; lia). rewrite map_app.
    generalize (map (fun k => 1 + 2 * k) [n - 1]) as r. generalize (range (n - 1)). induction l as [|x l IH]; intros r; cbn [map app combine]; [destruct r; reflexivity|]. rewrite IH. reflexivity. }
  rewrite E, in_map_iff. split.
  - intros (k & Ek & Hk). apply range_in in Hk. exists k. split; [exact Hk|]. split; congruence.
  - intros (k & Hk & -> & ->). exists k. split; [reflexivity|apply range_in; exact Hk].
Qed.

Lemma half_bound g k : 0 <= k < height (geo g) / 2 - 1 -> 0 <= 1 + 2 * k < height (geo g) - 1.
Proof. intros Hk. pose proof (Z.div_mod (height (geo g)) 2 ltac:(lia)). pose proof (Z.mod_pos_bound (height (geo g)) 2 ltac:(lia)). lia. Qed.

Section Transport.
  Variable E : card_encoder.
  Hypothesis HE : honest E.
  Variable g : grid.
  Hypothesis W : wf_grid g.
  Hypothesis Bits : colour_bits g = 1%nat.
  Notation N := (grid_size g).
  Notation w := (width (geo g)).
  Notation h := (height (geo g)).
  Hypothesis Hh : 1 <= h / 2.

  Definition row_holds (a : assignment) (y m : Z) : Prop :=
    (forall p, In p (edge_line g UP (y + 1)) -> coherent g a UP p) /\ (forall p, In p (edge_line g DOWN y) -> coherent g a DOWN p) /\
    m <= flow g a UP 1 (edge_line g UP (y + 1)) - flow g a DOWN 1 (edge_line g DOWN y) /\
    flow g a DOWN 0 (edge_line g DOWN y) - flow g a UP 0 (edge_line g UP (y + 1)) = m.
  Definition column_holds (a : assignment) (x : Z) : Prop :=
    (forall p, In p (edge_line g RIGHT x) -> coherent g a RIGHT p) /\ (forall p, In p (edge_line g LEFT (x + 1)) -> coherent g a LEFT p) /\
    total_flow g a RIGHT (edge_line g RIGHT x) - total_flow g a LEFT (edge_line g LEFT (x + 1)) = h.
  Definition transport_holds (a : assignment) : Prop :=
    (forall k, 0 <= k < h / 2 - 1 -> row_holds a (1 + 2 * k) (Z.min (k + 1) (h / 2 - 1 - k))) /\ (forall x, 0 <= x < w - 1 -> column_holds a x).

  Lemma transport_gen : gen_ok N (require_correct_transport_through_edges E g) transport_holds.
  Proof.
    unfold require_correct_transport_through_edges.
    eapply gen_ok_ext; [|apply gen_ok_app; [apply (gen_ok_map N (fun yc => row_cut E g (fst yc) (snd yc)) (fun yc a => row_holds a (fst yc) (snd yc)))|apply (gen_ok_map N (column_cut E g) (fun x a => column_holds a x))]].
    - intros a. cbv beta. unfold transport_holds. split.
      + intros [H1 H2]. split; [intros k Hk|intros x Hx; apply H2, range_in, Hx]. apply (H1 (1 + 2 * k, Z.min (k + 1) (h / 2 - 1 - k))). apply cuts_in; [exact Hh|]. eauto.
      + intros [H1 H2]. split; [intros [y m] Hy; apply cuts_in in Hy; [|exact Hh]; destruct Hy as (k & Hk & -> & ->); apply H1; exact Hk|intros x Hx; apply H2, range_in, Hx].
    - intros [y m] Hy. apply cuts_in in Hy; [|exact Hh]. destruct Hy as (k & Hk & -> & ->). destruct (proj1 (lines_good g) _ (half_bound g k Hk)) as [G1 G2]. apply (row_cut_ok E HE g W Bits); assumption.
    - intros x Hx. apply range_in in Hx. destruct (proj2 (lines_good g) x Hx) as [G1 G2]. apply (column_cut_ok E HE g W Bits); assumption.
  Qed.

  (** ** Success *)
  Definition answers_atleast : Prop := forall ls n top, 1 <= n <= Z.of_nat (List.length ls) -> exists cs top', library_atleast E ls n top = Some (cs, top').
  Hypothesis Ans : answers E.
  Hypothesis AnsL : answers_atleast.
  Lemma edge_loop_some d line : good_line g d line -> forall top, exists es cs top', edge_loop g d line top = Some (es, cs, top') /\ length es = (2 * length line)%nat.
  Proof.
    induction line as [|p line IH]; intros H top; [exists [], [], top; split; reflexivity|]. cbn [edge_loop].
    destruct (H p (or_introl eq_refl)) as [Hp Hq]. unfold edge_at. fold (beyond p d). rewrite (proj2 (grid_inside g Bits p) Hp), (proj2 (grid_inside g Bits (beyond p d)) Hq). cbn [andb negb].
    fold (hidden_hue d (tile_at g p)). fold (hidden_hue d (tile_at g (beyond p d))).
    destruct (proj2 (set_numbers_equal_some (hidden_hue d (tile_at g p)) (fresh (top + 1) (length (hidden_hue d (tile_at g p)))) false)) as [c1 E1]; [right; rewrite fresh_length; reflexivity|].
    destruct (proj2 (set_numbers_equal_some (hidden_hue d (tile_at g (beyond p d))) (fresh (top + 1) (length (hidden_hue d (tile_at g p)))) false)) as [c2 E2]; [right; rewrite fresh_length, !(hidden_length g Bits); reflexivity|].
    rewrite E1, E2. cbn [obind].
    destruct (IH (fun q Hq => H q (or_intror Hq)) (top + 1 + Z.of_nat (length (hidden_hue d (tile_at g p))))) as (es & cs & top' & -> & L). cbn [obind].
    eexists _, _, _. split; [reflexivity|]. cbn [app length]. rewrite L. lia.
  Qed.
  Lemma edge_loop_colours d line : good_line g d line -> forall top es cs top', edge_loop g d line top = Some (es, cs, top') -> Forall (fun e => length (edge_colour e) = 1%nat) es.
  Proof.
    induction line as [|p line IH]; intros H top es cs top' El; cbn [edge_loop] in El.
    - apply Some_inj in El. assert (es = []) by congruence. subst. constructor.
    - destruct (edge_at g d p top) as [[[es1 cs1] t1]|] eqn:Ea; [|discriminate]. cbn [obind] in El. destruct (edge_loop g d line t1) as [[[es2 cs2] t2]|] eqn:El2; [|discriminate]. cbn [obind] in El.
      apply Some_inj in El. assert (es = (es1 ++ es2)%list) by congruence. subst es. apply Forall_app. split; [|eapply IH; [intros q Hq; apply H; right; exact Hq|exact El2]].
      unfold edge_at in Ea. destruct (negb _); [discriminate|]. fold (hidden_hue d (tile_at g p)) in Ea.
      match type of Ea with (match ?o with Some _ => _ | None => _ end) = _ => idtac | _ => idtac end.
      destruct (set_numbers_equal _ _ _) as [c1|] in Ea; [|discriminate]. cbn [obind] in Ea. destruct (set_numbers_equal _ _ _) as [c2|] in Ea; [|discriminate]. cbn [obind] in Ea.
      apply Some_inj in Ea. match type of Ea with (?x, _, _) = _ => assert (Ex : x = es1) by congruence end. rewrite <- Ex.
      apply Forall_cons; [|apply Forall_cons; [|apply Forall_nil]]; cbn [edge_colour]; [etransitivity; [apply fresh_length|exact Bits]|rewrite fresh_length; apply (hidden_length g Bits)].
  Qed.
  Lemma flow_literals_some c es top : 0 <= c < 2 -> Forall (fun e => length (edge_colour e) = 1%nat) es -> exists ls cs top', flow_literals c es top = Some (ls, cs, top') /\ length ls = length es.
  Proof.
    intros Hc H. unfold flow_literals. destruct (oflat_some (flow_clauses c) (combine es (fresh top (length es)))) as [cs ->].
    - intros [e l] Hel. apply in_combine_l in Hel. rewrite Forall_forall in H. specialize (H e Hel). unfold flow_clauses.
      destruct (proj2 (set_number_some c (edge_colour e))) as [c1 E1]; [unfold len; rewrite H; cbn; lia|].
      assert (E2 : set_not_number c (edge_colour e) = Some (map (fun c => - nth 0 c 0) c1)) by (unfold set_not_number; rewrite E1; reflexivity). rewrite E1, E2. cbn [obind]. eauto.
    - cbn [obind]. eexists _, _, _. split; [reflexivity|]. apply fresh_length.
  Qed.
  Lemma line_length d k : length (edge_line g d k) = Z.to_nat (if is_horizontal d then h else w).
  Proof. unfold edge_line. destruct (is_horizontal d); rewrite map_length; unfold range; rewrite map_length, seq_length; reflexivity. Qed.
  Lemma row_cut_always y m : 0 <= y < h - 1 -> 1 <= m <= 2 * w -> always (row_cut E g y m).
  Proof.
    intros Hy Hm top. destruct (proj1 (lines_good g) y Hy) as [G1 G2]. unfold row_cut, create_edge, bind_gen.
    destruct (edge_loop_some UP _ G1 top) as (us & c1 & t1 & E1 & L1). rewrite E1. cbn [obind]. pose proof (edge_loop_colours UP _ G1 _ _ _ _ E1) as K1.
    destruct (edge_loop_some DOWN _ G2 t1) as (vs & c2 & t2 & E2 & L2). rewrite E2. cbn [obind]. pose proof (edge_loop_colours DOWN _ G2 _ _ _ _ E2) as K2.
    rewrite line_length in L1, L2. change (is_horizontal UP) with false in L1. change (is_horizontal DOWN) with false in L2. cbv iota in L1, L2.
    destruct (flow_literals_some 1 us t2 ltac:(lia) K1) as (l1 & c3 & t3 & -> & M1). cbn [obind]. destruct (flow_literals_some 1 vs t3 ltac:(lia) K2) as (l2 & c4 & t4 & -> & M2). cbn [obind].
    rewrite seq_gen_cons. destruct (AnsL (l1 ++ invert_components l2)%list (m + len l2) t4) as (c5 & t5 & ->).
    { unfold len, invert_components. rewrite app_length, map_length, M1, M2, L1, L2. lia. }
    rewrite seq_gen_cons. destruct (flow_literals_some 0 vs t5 ltac:(lia) K2) as (l3 & c6 & t6 & -> & M3). cbn [obind]. destruct (flow_literals_some 0 us t6 ltac:(lia) K1) as (l4 & c7 & t7 & -> & M4). cbn [obind].
    destruct (Ans (l3 ++ invert_components l4)%list (m + len l4) t7) as (c8 & t8 & ->).
    { intros C. apply app_eq_nil in C. destruct C as [C _]. rewrite C in M3. cbn [length] in M3. lia. }
    { unfold len, invert_components. rewrite app_length, map_length, M3, M4, L1, L2. lia. }
    cbn [obind seq_gen]. eauto.
  Qed.
  Lemma column_cut_always x : 0 <= x < w - 1 -> always (column_cut E g x).
  Proof.
    intros Hx top. destruct (proj2 (lines_good g) x Hx) as [G1 G2]. unfold column_cut, create_edge, bind_gen.
    destruct (edge_loop_some RIGHT _ G1 top) as (us & c1 & t1 & E1 & L1). rewrite E1. cbn [obind]. destruct (edge_loop_some LEFT _ G2 t1) as (vs & c2 & t2 & E2 & L2). rewrite E2. cbn [obind].
    rewrite line_length in L1, L2. change (is_horizontal RIGHT) with true in L1. change (is_horizontal LEFT) with true in L2. cbv iota in L1, L2.
    pose proof (Z.div_mod h 2 ltac:(lia)). pose proof (Z.mod_pos_bound h 2 ltac:(lia)).
    destruct (Ans (map present us ++ invert_components (map present vs))%list (h + Z.of_nat (length vs)) t2) as (c5 & t5 & ->).
    { intros C. apply app_eq_nil in C. destruct C as [C _]. apply map_eq_nil in C. rewrite C in L1. cbn [length] in L1. lia. }
    { unfold invert_components. rewrite app_length, !map_length, L1, L2. lia. }
    cbn [obind]. eauto.
  Qed.
  (** There is room for the lines that have to cross the middle. *)
  Definition wide_enough : Prop := forall k, 0 <= k < h / 2 - 1 -> Z.min (k + 1) (h / 2 - 1 - k) <= 2 * w.
  Lemma transport_always : wide_enough -> always (require_correct_transport_through_edges E g).
  Proof.
    intros Wd. apply always_seq. intros f Hf. apply in_app_iff in Hf. destruct Hf as [Hf|Hf]; apply in_map_iff in Hf.
    - destruct Hf as ([y m] & <- & Hy). apply cuts_in in Hy; [|exact Hh]. destruct Hy as (k & Hk & -> & ->). cbn [fst snd]. specialize (Wd k Hk). apply row_cut_always; [apply half_bound; exact Hk|lia].
    - destruct Hf as (x & <- & Hx). apply column_cut_always. apply range_in. exact Hx.
  Qed.
End Transport.

Lemma naive_answers_atleast : answers_atleast naive_encoder.
Proof.
  intros ls n top Hn. unfold library_atleast. cbn [naive_encoder enc_atleast]. unfold nonempty.
  assert (X : tree (fun k => n <=? k) ls 0 <> []).
  { apply tree_nonempty. exists 0. split; [lia|]. apply Z.leb_gt. lia. }
  destruct (tree (fun k => n <=? k) ls 0) as [|c r]; [contradiction|eauto].
Qed.

(** ** The conditions follow from the others *)
Section Implied.
  Variable g : grid.
  Hypothesis W : wf_grid g.
  Hypothesis NX : wrap_x (geo g) = false.
  Hypothesis NY : wrap_y (geo g) = false.
  Hypothesis Two : gcolours g = Some 2.
  Variable a : assignment.
  Notation A := (garea g).
  Notation V p := (view_of a (tile_at g p)).
  Notation w := (width (geo g)).
  Notation h := (height (geo g)).
  Variable T : layout.
  Hypothesis HT : reads g a T.
  Hypothesis Sv : solves g (EBool true) a.
  Hypothesis Sc : solves_colouring g a.
  Hypothesis Plain : forall p, inside A p -> vs (V p) = false.
  Hypothesis Ins : forall y, 0 <= y < h -> vi (V (0, y)) RIGHT = true.
  Hypothesis Outs : forall y, 0 <= y < h -> vo (V (w - 1, y)) RIGHT = true.
  Hypothesis Closed : sat a (block_belts_through_edges g (EPair false true)) = true.
  Hypothesis Even : h mod 2 = 0.
  Hypothesis Hin : forall y, 0 <= y < h -> hue g a (0, y) = if y <? h / 2 then 0 else 1.
  Hypothesis Hout : forall k, 0 <= k < h / 2 -> (hue g a (w - 1, 2 * k) = 0 /\ hue g a (w - 1, 2 * k + 1) = 1) \/ (hue g a (w - 1, 2 * k) = 1 /\ hue g a (w - 1, 2 * k + 1) = 0).
  Let Ev : h = 2 * (h / 2). Proof. pose proof (Z.div_mod h 2 ltac:(lia)). lia. Qed.

  Lemma flow_weigh d c line : flow g a d c line = weigh g a (fun v => Z.b2z (v =? c)) d line.
  Proof.
    unfold flow, weigh. rewrite count_true_zsum, map_map. apply f_equal, map_ext. intros [b v]. unfold crossed. cbn [fst snd]. destruct b, (v =? c); reflexivity.
  Qed.
  Lemma total_weigh d line : total_flow g a d line = weigh g a (fun _ => 1) d line.
  Proof. unfold total_flow, weigh. rewrite count_true_zsum, map_map. apply f_equal, map_ext. intros [b v]. cbn [fst snd]. destruct b; reflexivity. Qed.
  Lemma out_pairs c m : c = 0 \/ c = 1 -> 0 <= m <= h / 2 -> zrange (fun k => Z.b2z (hue g a (w - 1, k) =? c)) (2 * m) = m.
  Proof.
    intros Hc Hm. revert m Hm. apply (below_ind (fun m => zrange (fun k => Z.b2z (hue g a (w - 1, k) =? c)) (2 * m) = m) (h / 2)).
    - apply zrange_0. lia.
    - intros k Hk IH. replace (2 * (k + 1)) with (2 * k + 1 + 1) by lia. rewrite (zrange_succ _ (2 * k + 1)), (zrange_succ _ (2 * k)) by lia. rewrite IH.
      destruct (Hout k Hk) as [[-> ->]|[-> ->]]; destruct Hc as [-> | ->]; cbn [Z.eqb Pos.eqb Z.b2z]; reflexivity || lia.
  Qed.
  Lemma in_counts c m : c = 0 \/ c = 1 -> 0 <= m <= h -> zrange (fun k => Z.b2z (hue g a (0, k) =? c)) m = if c =? 0 then Z.min m (h / 2) else m - Z.min m (h / 2).
  Proof.
    intros Hc Hm. revert m Hm. apply (below_ind (fun m => zrange (fun k => Z.b2z (hue g a (0, k) =? c)) m = if c =? 0 then Z.min m (h / 2) else m - Z.min m (h / 2)) h).
    - rewrite zrange_0 by lia. destruct Hc as [-> | ->]; cbn [Z.eqb Pos.eqb]; pose proof (H1 g W); lia.
    - intros k Hk IH. rewrite zrange_succ by lia. rewrite IH, (Hin k Hk).
      destruct (Z.ltb_spec k (h / 2)); destruct Hc as [-> | ->]; cbn [Z.eqb Pos.eqb Z.b2z]; lia.
  Qed.
  Lemma holds : transport_holds g a.
  Proof.
    assert (Co : forall d line, good_line g d line -> forall p, In p line -> coherent g a d p).
    { intros d line H p Hp. destruct (H p Hp) as [X1 X2]. apply (cut_coherent g W NX NY Two a T HT Sv Sc Plain); assumption. }
    split.
    - intros k Hk. pose proof (half_bound g k Hk) as Hy. destruct (proj1 (lines_good g) _ Hy) as [G1 G2]. split; [apply Co; exact G1|]. split; [apply Co; exact G2|].
      assert (F : forall c, c = 0 \/ c = 1 -> flow g a DOWN c (edge_line g DOWN (1 + 2 * k)) - flow g a UP c (edge_line g UP (1 + 2 * k + 1)) =
        (if c =? 0 then Z.min (2 * (k + 1)) (h / 2) else 2 * (k + 1) - Z.min (2 * (k + 1)) (h / 2)) - (k + 1)).
      { intros c Hc. rewrite !flow_weigh, (row_flow g W NX NY Two a T HT Sv Sc Plain Ins Outs Closed (fun v => Z.b2z (v =? c)) (1 + 2 * k) Hy).
        rewrite zrange_sub. replace (1 + 2 * k + 1) with (2 * (k + 1)) by lia. rewrite (out_pairs c (k + 1) Hc), (in_counts c _ Hc) by lia. reflexivity. }
      pose proof (F 0 (or_introl eq_refl)) as F0. pose proof (F 1 (or_intror eq_refl)) as F1. cbn [Z.eqb Pos.eqb] in F0, F1. split; lia.
    - intros x Hx. destruct (proj2 (lines_good g) _ Hx) as [G1 G2]. split; [apply Co; exact G1|]. split; [apply Co; exact G2|].
      rewrite !total_weigh, (column_flow g W NX NY Two a T HT Sv Sc Plain Ins Closed (fun _ => 1) x Hx). rewrite zrange_const; [lia|]. pose proof (H1 g W). lia.
  Qed.
  (** No more lines cross than there is room for. *)
  Lemma flow_bound d c line : 0 <= flow g a d c line <= 2 * Z.of_nat (length line).
  Proof.
    unfold flow. rewrite count_true_zsum, map_map. induction line as [|p line IH]; [cbn; lia|]. cbn [flat_map]. unfold crossings at 1 3. cbn [app map zsum fold_right length].
    fold (zsum (map (fun x => Z.b2z (crossed c x)) (flat_map (crossings g a d) line))). set (s := zsum _) in *. destruct (crossed _ _), (crossed _ _); cbn [Z.b2z]; lia.
  Qed.
  Lemma room : wide_enough g.
  Proof.
    intros k Hk. destruct holds as [R _]. destruct (R k Hk) as (_ & _ & _ & F). pose proof (flow_bound DOWN 0 (edge_line g DOWN (1 + 2 * k))) as B1. pose proof (flow_bound UP 0 (edge_line g UP (1 + 2 * k + 1))) as B2.
    rewrite line_length in B1. change (is_horizontal DOWN) with false in B1. cbv iota in B1. pose proof (W1 g W). lia.
  Qed.
End Implied.
