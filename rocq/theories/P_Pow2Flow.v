(** What the layouts found by belt_balancer_net_free_power_of_2.py do. *)
From Coq Require Import String ZArith QArith List Bool Lia Lqa Permutation.
From Verif Require Import Spec_Cnf Spec_Tile Spec_Layout M_Json M_Tile M_Util M_Card M_Network Spec_Network M_Template M_Grid M_Oracle M_Balancer M_Optimise M_NetFree M_Pow2
  Spec_Balancer Spec_Flow P_Cnf P_Util P_Card P_Tile P_Layout P_List P_Template P_Walk P_Grid P_GridSound P_GridComplete P_Transport T_Grid P_GridOk P_Gen P_Trace P_Uniq P_FlowWitness
  P_NetEnds P_NetShape P_Balancer P_NetFree P_Pow2.
From Verif Require P_Lossless.
Import ListNotations.
Open Scope Z_scope.

Definition solves_pow2 (E : card_encoder) (w h : Z) (ul : option Z) (g : grid) (a : assignment) : Prop :=
  exists cs top, power_of_two E w h ul = Some (g, cs, top) /\ sat a cs = true.

Record pow2_facts (w h : Z) (ul : option Z) (a : assignment) : Prop := {
  pf_w : 0 < w;
  pf_pow : exists j, 0 < j /\ h = 2 ^ j;
  pf_ul : match ul with Some l => 0 <= l | None => True end;
  pf_rules : pow2_rules w h ul a;
  pf_belts : sat a (block_belts_through_edges (pow2_grid w h ul) (EPair false true)) = true;
  pf_ix : sat a (prevent_intersection (pow2_grid w h ul)) = true;
  pf_len : solves_length (pow2_grid w h ul) a }.

Lemma is_power_of_two_iff h : 0 < h -> (is_power_of_two h = true <-> exists j, 0 <= j /\ h = 2 ^ j).
Proof.
  intros H0. unfold is_power_of_two. rewrite Z.eqb_eq. split.
  - intros H. pose proof (Z.log2_spec h H0) as [L1 L2]. pose proof (Z.log2_nonneg h) as L0. exists (Z.log2 h). split; [exact L0|].
    destruct (Z.eq_dec h (2 ^ Z.log2 h)) as [E|N]; [exact E|exfalso].
    assert (Pp : 0 < 2 ^ Z.log2 h) by (apply Z.pow_pos_nonneg; lia). assert (Em : Z.log2 (h - 1) = Z.log2 h) by (apply Z.log2_unique; lia).
    pose proof (f_equal (fun z => Z.testbit z (Z.log2 h)) H) as B. cbn beta in B. rewrite Z.land_spec, Z.bits_0, Z.bit_log2 in B by exact H0. rewrite <- Em, Z.bit_log2 in B by lia. discriminate.
  - intros (j & Hj & ->). replace (2 ^ j - 1) with (Z.ones j) by (rewrite Z.ones_equiv; lia). rewrite Z.land_ones by exact Hj. apply Z.mod_same. apply Z.pow_nonzero; lia.
Qed.
Lemma pow2_even j : 0 < j -> (2 ^ j) mod 2 = 0.
Proof. intros H. replace j with (Z.succ (j - 1)) by lia. rewrite Z.pow_succ_r by lia. rewrite Z.mul_comm. apply Z.mod_mul. lia. Qed.
(** One row: a colour that does not exist is asked for. *)
Lemma one_row_none E w ul : create_pow2 E w 1 ul = None.
Proof.
  destruct (create_pow2 E w 1 ul) as [[[g cs] top]|] eqn:Ec; [|reflexivity]. exfalso. unfold create_pow2 in Ec. destruct (negb _); [discriminate|].
  destruct (init_clauses _) as [init|]; [|discriminate]. cbn [obind] in Ec.
  match type of Ec with obind (seq_gen ?l _) _ = _ => set (gens := l) in *; destruct (seq_gen gens _) as [[c1 t1]|] eqn:Eg; [|discriminate] end.
  assert (P2 : exists o, oflat (first_column (pow2_grid w 1 ul)) (range 1) = Some o).
  { apply (seq_gen_pure gens _ _ _ Eg). unfold gens. apply in_or_app. right. apply in_or_app. right. left. reflexivity. }
  destruct P2 as [o Eo]. destruct (P_Balancer.oflat_each _ _ _ Eo 0 (or_introl eq_refl)) as [f Ef].
  unfold first_column in Ef. destruct (set_tile _ _ _ _); [|discriminate]. cbn [obind] in Ef.
  destruct (set_colour (pow2_grid w 1 ul) 0 0 (2 ^ (0 / 2))) as [c|] eqn:Es; [|discriminate]. unfold set_colour in Es. cbn [pow2_grid gcolours] in Es.
  change (2 ^ (0 / 2)) with 1 in Es. change (2 ^ (1 / 2)) with 1 in Es. cbn in Es. discriminate.
Qed.
Lemma pow2_known E w h ul g a : honest E -> solves_pow2 E w h ul g a -> g = pow2_grid w h ul /\ pow2_facts w h ul a.
Proof.
  intros HE (cs & top & Ep & Sa). unfold power_of_two in Ep. destruct (create_pow2 E w h ul) as [[[g' created] t0]|] eqn:Ec; [|discriminate]. cbn [obind] in Ep.
  assert (G : g' = pow2_grid w h ul /\ 0 < w /\ 0 < h /\ is_power_of_two h = true).
  { unfold create_pow2 in Ec. destruct (Z.ltb_spec 0 w), (Z.ltb_spec 0 h), (is_power_of_two h); cbn [negb andb] in Ec; try discriminate.
    destruct (init_clauses _) as [init|]; [|discriminate]. cbn [obind] in Ec. destruct (seq_gen _ _) as [[c1 t1]|]; [|discriminate]. cbn [obind] in Ec. apply Some_inj in Ec. split; [congruence|auto]. }
  destruct G as (-> & Hw & Hh & Hp). apply is_power_of_two_iff in Hp; [|exact Hh]. destruct Hp as (j & Hj & Ej).
  assert (J : 0 < j).
  { destruct (Z.eq_dec j 0) as [->|]; [|lia]. change (2 ^ 0) with 1 in Ej. subst h. rewrite one_row_none in Ec. discriminate. }
  rewrite !seq_gen_cons in Ep. set (g0 := pow2_grid w h ul) in *. cbn [pure obind] in Ep.
  destruct (enforce_maximum_underground_length g0) as [lc|] eqn:El; [|discriminate]. cbn [pure obind] in Ep.
  destruct (expand_underground g0 1 0 (Some (width (geo g0) - 2)) None) as [xc|] eqn:Ex; [|discriminate]. cbn [pure obind seq_gen] in Ep.
  apply Some_inj in Ep. assert (g0 = g) by congruence. subst g.
  assert (cs = (created ++ block_belts_through_edges g0 (EPair false true) ++ prevent_intersection g0 ++ lc ++ xc ++ apply_generic_optimisations g0 ++ [])%list) by congruence.
  subst cs. rewrite !sat_app_iff in Sa. destruct Sa as (H1 & H2 & H3 & H4 & _). split; [reflexivity|].
  assert (Hul : match ul with Some l => 0 <= l | None => True end).
  { unfold enforce_maximum_underground_length in El. assert (Gl : glen g0 = ul) by reflexivity. rewrite Gl in El. destruct ul as [l|]; [|exact Logic.I]. destruct (Z.leb_spec 1 l); [lia|discriminate]. }
  constructor; try assumption; [eauto| |exists lc; auto].
  assert (Hev : h mod 2 = 0) by (subst h; apply pow2_even; exact J).
  destruct (create_pow2_spec w h ul Hw Hh Hev Hul E HE _ _ _ Ec) as (_ & _ & _ & Sp & _). apply Sp. exact H1.
Qed.

Lemma NoDup_map_on {X Y} (f : X -> Y) l : NoDup l -> (forall x y, In x l -> In y l -> f x = f y -> x = y) -> NoDup (map f l).
Proof.
  intros N. induction N as [|x l Hx N IH]; intros H; cbn [map]; constructor.
  - intros E. apply in_map_iff in E. destruct E as (y & E & Hy). apply Hx. rewrite (H x y); [exact Hy|left; reflexivity|right; exact Hy|symmetry; exact E].
  - apply IH. intros u v Hu Hv. apply H; right; assumption.
Qed.
(** ** Sets of inputs *)
Lemma value_testbit a ls c : Z.testbit (value a ls) (Z.of_nat c) = bit_at a ls c.
Proof.
  unfold bit_at. revert c. induction ls as [|l ls IH]; intros c; [destruct c; apply Z.bits_0|].
  assert (E : value a (l :: ls) = 2 * value a ls + Z.b2z (evl a l)).
  { rewrite value_cons. lia. }
  rewrite E. destruct c as [|c]; [apply Z.testbit_0_r|]. rewrite Nat2Z.inj_succ, Z.testbit_succ_r by lia. exact (IH c).
Qed.
Lemma count_bits a ls n : List.length ls = n -> count a ls = zsum (map (fun c => Z.b2z (bit_at a ls c)) (seq 0 n)).
Proof.
  revert n. induction ls as [|l ls IH]; intros n <-; [reflexivity|]. cbn [List.length seq map]. rewrite <- seq_shift, map_map. 
  change (count a (l :: ls) = Z.b2z (evl a l) + zsum (map (fun c => Z.b2z (bit_at a ls c)) (seq 0 (List.length ls)))). rewrite <- (IH _ eq_refl).
  apply count_cons.
Qed.
Lemma qsum_cons x l : (qsum (x :: l) == x + qsum l)%Q.
Proof. reflexivity. Qed.
(** Steady flows can be scaled and added. *)
Lemma steady_sum A T L into from (I : nat -> start -> Q) (J : nat -> finish -> Q) (k : nat -> Q) l :
  steady_flow A T L into from -> (forall c, In c l -> steady_flow A T L (I c) (J c)) ->
  steady_flow A T L (fun s => into s + qsum (map (fun c => k c * I c s) l))%Q (fun f => from f + qsum (map (fun c => k c * J c f) l))%Q.
Proof.
  intros S. induction l as [|c l IH]; intros H.
  - destruct S as (S1 & S2 & S3). cbn [map]. change (qsum []) with 0%Q. split; [|split].
    + intros s f Jn. rewrite (S1 s f Jn). reflexivity.
    + intros p Hp Sp. destruct (S2 p Hp Sp) as [X Y]. split; intros N; [rewrite (X N)|rewrite (Y N)]; ring.
    + intros s Hs. destruct (S3 s Hs) as [X Y]. split; [rewrite !Qplus_0_r; exact X|]. intros U V. rewrite !Qplus_0_r. auto.
  - pose proof (steady_combine A T L _ _ _ _ (k c) (IH (fun x Hx => H x (or_intror Hx))) (H c (or_introl eq_refl))) as (S1 & S2 & S3).
    assert (X : forall s, (into s + qsum (map (fun c => k c * I c s) (c :: l)) == into s + qsum (map (fun c => k c * I c s) l) + k c * I c s)%Q).
    { intros s. cbn [map]. rewrite qsum_cons. ring. }
    assert (Y : forall f, (from f + qsum (map (fun c => k c * J c f) (c :: l)) == from f + qsum (map (fun c => k c * J c f) l) + k c * J c f)%Q).
    { intros s. cbn [map]. rewrite qsum_cons. ring. }
    split; [|split].
    + intros s f Jn. rewrite X, Y. apply S1. exact Jn.
    + intros p Hp Sp. destruct (S2 p Hp Sp) as [U V]. split; intros N; [rewrite X|rewrite Y]; auto.
    + intros s Hs. destruct (S3 s Hs) as [U V]. split; [rewrite !X, !Y; exact U|]. intros E1 E2. rewrite !X. auto.
Qed.

Section Solution.
  Variables (w h : Z) (ul : option Z) (a : assignment).
  Hypothesis PF : pow2_facts w h ul a.
  Variable T : layout.
  Notation g := (pow2_grid w h ul).
  Hypothesis R : reads g a T.
  Notation k := (levels h).
  Notation A := (garea g).
  Notation V p := (view_of a (tile_at g p)).
  Notation hue p := (colour (tile_at g p)).
  Notation inset c p := (bit_at a (hue p) c).
  Notation bits := (colour_bits g).
  Notation ML := (max_hidden g).

  Lemma p2_h : 0 < h /\ h mod 2 = 0.
  Proof. destruct (pf_pow _ _ _ _ PF) as (j & Hj & ->). split; [apply Z.pow_pos_nonneg; lia|apply pow2_even; exact Hj]. Qed.
  Let Hw : 0 < w := pf_w _ _ _ _ PF.
  Let Hh : 0 < h := proj1 p2_h.
  Let He : h mod 2 = 0 := proj2 p2_h.
  Let W : wf_grid g := pow2_wf w h ul Hw Hh (pf_ul _ _ _ _ PF).
  Let PR : pow2_rules w h ul a := pf_rules _ _ _ _ PF.
  Lemma p2_solves : solves g (EBool true) a.
  Proof. split; [apply PR|]. split; [apply PF|]. split; [apply PR|]. split; [apply PR|apply PF]. Qed.
  Lemma p2_belts : edge_belt_rule g a (EPair false true).
  Proof. apply (block_belts_sat g W a). apply PF. Qed.
  Notation sight := (seen g W a (proj1 p2_solves) T R).
  Lemma p2_straight p : inside A p -> straight_rule w h ul a p -> T p = Belt RIGHT RIGHT.
  Proof.
    intros Hp (B & I & O). pose proof (sight p Hp) as Sh. destruct (T p) as [| |i o|d e|d e|d e|x y]; destruct Sh as (H & E & _);
      change (vb (V p) = true) in B; change (vi (V p) RIGHT = true) in I; change (vo (V p) RIGHT = true) in O; try congruence.
    destruct H as (_ & H1 & H2 & _). apply H1 in I. apply H2 in O. congruence.
  Qed.
  Lemma p2_left y : 0 <= y < h -> T (0, y) = Belt RIGHT RIGHT.
  Proof. intros Hy. apply p2_straight; [split; cbn; lia|]. apply (pr_first _ _ _ _ PR y Hy). Qed.
  Lemma p2_right y : 0 <= y < h -> T (w - 1, y) = Belt RIGHT RIGHT.
  Proof. intros Hy. apply p2_straight; [split; cbn; lia|]. apply (pr_last _ _ _ _ PR y Hy). Qed.
  Lemma p2_edge y : 0 <= y < height (geo g) -> ~ is_splitter_tile (T (0, y)) /\ ~ is_splitter_tile (T (width (geo g) - 1, y)).
  Proof. intros Hy. change (width (geo g)) with w. rewrite (p2_left y Hy), (p2_right y Hy). split; intros []. Qed.
  Lemma p2_border p d b : inside A p -> T p = Splitter d b -> neighbour A p d <> None /\ neighbour A p (opposite d) <> None.
  Proof. apply (no_border_splitter g W a p2_solves T R p2_belts p2_edge). Qed.
  Lemma p2_full p d b : inside A p -> T p = Splitter d b -> vi (V p) d = true /\ vo (V p) d = true.
  Proof.
    intros Hp Tp. destruct (splitter_seen g W a (proj1 p2_solves) T R p d b Hp Tp) as (Vs & _ & Oi & Oo & _).
    destruct (pr_level _ _ _ _ PR p Hp) as (H & _). destruct (H Vs) as [(e & E1) (e' & E2)]. change (vi (V p) e = true) in E1. change (vo (V p) e' = true) in E2.
    rewrite (Oi e E1) in E1. rewrite (Oo e' E2) in E2. auto.
  Qed.
  Lemma p2_ends : straight_ends T (fun y => (0, y)) (height (geo g)) h 0 /\ straight_ends T (fun y => (width (geo g) - 1, y)) (height (geo g)) h 0.
  Proof.
    change (height (geo g)) with h. change (width (geo g)) with w. split; (split; [lia|]); intros y Hy; [rewrite (p2_left y Hy)|rewrite (p2_right y Hy)];
      replace ((0 <=? y) && (y <? 0 + h)) with true by (symmetry; rewrite andb_true_iff, Z.leb_le, Z.ltb_lt; lia); reflexivity.
  Qed.
  Lemma p2_valid : valid_layout A T ML.
  Proof. apply (closed_valid g W a p2_solves T R). Qed.
  Lemma p2_inlets : inlets A T (rows 0 0 h).
  Proof. eapply (entries_list g W eq_refl eq_refl a p2_solves T R p2_belts p2_edge h h 0 0); try exact Hh; apply p2_ends. Qed.
  Lemma p2_outlets : outlets A T (rows (w - 1) 0 h).
  Proof. eapply (departures_list g W eq_refl eq_refl a p2_solves T R p2_belts h h 0 0); try exact Hh; apply p2_ends. Qed.
  Lemma p2_touching : no_touching g a T.
  Proof. intros p d b q b' Hp Tp _ _. apply (p2_full p d b Hp Tp). Qed.
  Lemma p2_used p : inside A p -> is_splitter_tile (T p) -> exit_used A T ML p /\ entrance_used A T ML p.
  Proof.
    intros Hp Sp. destruct (T p) as [| | | |d b| |] eqn:Tp; try contradiction. destruct (p2_full p d b Hp Tp) as [I O].
    split; [apply (exit_used_vo g W a (proj1 p2_solves) (proj1 (proj2 p2_solves)) T R ML p2_valid p2_border p2_touching p d b Hp Tp)|
            apply (entrance_used_vi g W a (proj1 p2_solves) (proj1 (proj2 p2_solves)) T R ML p2_valid p2_border p2_touching p d b Hp Tp)]; assumption.
  Qed.

  (** The sets at a splitter. *)
  Lemma hot_level ls : count a ls = 1 -> exists i, (i < List.length ls)%nat /\ bit_at a ls i = true.
  Proof.
    intros H. assert (P : 0 < count a ls) by lia. apply count_pos_In in P. destruct P as (l & Hl & El). apply In_nth_error in Hl. destruct Hl as [i Hi].
    exists i. split; [apply nth_error_Some; congruence|]. unfold bit_at, values. rewrite (nth_error_nth (map (evl a) ls) i false (x := evl a l)); [exact El|]. rewrite nth_error_map, Hi. reflexivity.
  Qed.
  Lemma p2_splitter s : is_splitter_at A T s -> exists d p10 p11 i,
    T (fst s) = Splitter d true /\ T (snd s) = Splitter d false /\ inside A (fst s) /\ inside A (snd s) /\ inside A p10 /\ inside A p11 /\
    neighbour A (fst s) d = Some p10 /\ neighbour A (snd s) d = Some p11 /\ (i < k)%nat /\
    bit_at a (level g k (fst s)) i = true /\ values a (level g k (fst s)) = values a (level g k (snd s)) /\
    count a (hue (fst s)) = 2 ^ Z.of_nat i /\ count a (hue (snd s)) = 2 ^ Z.of_nat i /\
    count a (hue p10) = 2 ^ (Z.of_nat i + 1) /\ count a (hue p11) = 2 ^ (Z.of_nat i + 1) /\
    forall c, (c < bits)%nat -> inset c (fst s) && inset c (snd s) = false /\
      inset c p10 = inset c (fst s) || inset c (snd s) /\ inset c p11 = inset c (fst s) || inset c (snd s).
  Proof.
    intros Hs. destruct (splitter_block g W T p2_border s Hs) as (d & p10 & p11 & T1 & T2 & P1 & P2 & P3 & P4 & N1 & N2 & Eb).
    destruct (splitter_seen g W a (proj1 p2_solves) T R _ _ _ P1 T1) as (Vs & Vh & _). destruct (p2_full _ _ _ P1 T1) as [Vi _].
    destruct (pr_join _ _ _ _ PR (fst s) P1) as [Z1 J]. specialize (J d Vh Vi). change (pg w h ul) with g in J. rewrite Eb in J. destruct J as [J Lv].
    destruct (pr_join _ _ _ _ PR (snd s) P2) as [Z2 _]. destruct (pr_level _ _ _ _ PR (fst s) P1) as (_ & H & _). destruct (hot_level _ (H (or_intror Vs))) as (i & Hi & Ei).
    destruct (level_length w h ul (fst s)) as [Ll _]. change (pg w h ul) with g in *. rewrite Ll in Hi.
    assert (C1 : count a (hue (fst s)) = 2 ^ Z.of_nat i) by (apply Z1; assumption).
    assert (C2 : count a (hue (snd s)) = 2 ^ Z.of_nat i) by (apply Z2; [exact Hi|]; change (bit_at a (level g k (snd s)) i = true); unfold bit_at in *; rewrite <- Lv; exact Ei).
    assert (C : forall q, (forall c, (c < bits)%nat -> inset c q = inset c (fst s) || inset c (snd s)) -> count a (hue q) = 2 ^ (Z.of_nat i + 1)).
    { intros q Hq. rewrite Z.pow_add_r, Z.pow_1_r by lia. transitivity (count a (hue (fst s)) + count a (hue (snd s))); [|lia].
      rewrite !(count_bits a _ bits) by apply (hue_length w h ul). rewrite <- zsum_add. apply zsum_ext. intros c Hc. apply in_seq in Hc.
      destruct (J c ltac:(lia)) as [Jd _]. rewrite Hq by lia. destruct (inset c (fst s)), (inset c (snd s)); cbn in *; congruence. }
    exists d, p10, p11, i. repeat (split; [assumption|]). split; [apply C; intros c Hc; apply J; exact Hc|]. split; [apply C; intros c Hc; apply J; exact Hc|exact J].
  Qed.

  (** Sets follow the lines. *)
  Lemma p2_cover : edges_cover g (EBool true).
  Proof. unfold edges_cover. cbn. auto. Qed.
  Lemma carried_inside p q : carried A T ML p q -> p = q \/ inside A p.
  Proof. intros C. destruct C as [|? ? ? H|? ? ? H]; auto; right; apply H. Qed.
  Lemma p2_carried p q : carried A T ML p q -> (forall c, inset c p = inset c q) /\ count a (hue p) = count a (hue q).
  Proof.
    intros C. destruct (carried_inside p q C) as [->|Hp]; [auto|].
    destruct (C51_colour_transported g (EBool true) a T (2 ^ (h / 2)) ML W p2_cover p2_solves (pr_colouring _ _ _ _ PR) R eq_refl) as [_ X]. specialize (X p q Hp C).
    assert (B : forall c, inset c p = inset c q) by (intros c; rewrite <- !value_testbit, X; reflexivity). split; [exact B|].
    rewrite !(count_bits a _ bits) by apply (hue_length w h ul). apply zsum_ext. intros c _. rewrite B. reflexivity.
  Qed.
  Lemma p2_source y c : 0 <= y < h -> inset c (0, y) = (Z.of_nat c =? y / 2).
  Proof.
    intros Hy. destruct (pr_first _ _ _ _ PR y Hy) as [_ E]. change (pg w h ul) with g in E. rewrite <- value_testbit, E, Z.pow2_bits_eqb by (apply Z.div_pos; lia). apply Z.eqb_sym.
  Qed.
  Lemma p2_bits : Z.of_nat bits = h / 2 /\ h = 2 * (h / 2).
  Proof. split; [apply (pow2_bits w h ul Hh He)|]. pose proof (Z.div_mod h 2). lia. Qed.
  Lemma p2_half : 2 <= h / 2 -> h / 2 = 2 ^ (Z.of_nat k + 1).
  Proof.
    intros H2. destruct (pf_pow _ _ _ _ PF) as (j & Hj & Ej). unfold levels. rewrite Ej in *. rewrite Z.log2_pow2 by lia.
    assert (J : 2 <= j). { destruct (Z.eq_dec j 1) as [->|]; [|lia]. change (2 ^ 1 / 2) with 1 in H2. lia. }
    rewrite Z2Nat.id by lia. replace j with (Z.succ (j - 1)) at 1 by lia. rewrite Z.pow_succ_r by lia. rewrite Z.mul_comm, Z.div_mul by lia. f_equal. lia.
  Qed.
  Lemma p2_single y : 0 <= y < h -> count a (hue (0, y)) = 1.
  Proof.
    intros Hy. destruct p2_bits as [B1 B2]. rewrite (count_bits a _ bits) by apply (hue_length w h ul).
    assert (Q : 0 <= y / 2 < h / 2) by (split; [apply Z.div_pos; lia|apply Z.div_lt_upper_bound; lia]).
    rewrite (zsum_ext _ (fun c => if y / 2 =? Z.of_nat c then 1 else 0)).
    - rewrite zsum_pick by lia. destruct (Z.ltb_spec (y / 2) (Z.of_nat bits)); lia.
    - intros c _. rewrite p2_source by exact Hy. rewrite Z.eqb_sym. destruct (_ =? _); reflexivity.
  Qed.
  Lemma p2_outlet_size y : 0 <= y < h -> exists i, (i <= k)%nat /\ count a (hue (w - 1, y)) = 2 ^ Z.of_nat i.
  Proof.
    intros Hy. assert (Rp : reaches A T (Leave (w - 1, y)) (w - 1, y)) by (apply (proj2 p2_outlets), rows_in; cbn; lia).
    destruct (outlet_joined A T ML (WA g W) p2_valid _ Rp) as (s & q & r & B & C & (-> & _)). destruct (p2_carried _ _ C) as [_ Cn]. destruct s as [p|p].
    - destruct B as (-> & Hp & d & Tk & En). assert (Hi : In p (rows 0 0 h)) by (apply (proj2 p2_inlets); split; [reflexivity|]; split; [exact Hp|]; exists d; auto).
      apply rows_in in Hi; [|lia]. destruct p as [x z]. cbn [fst snd] in Hi. destruct Hi as [-> Hz]. exists 0%nat. split; [lia|]. rewrite <- Cn. apply p2_single. lia.
    - destruct B as (Hp & d & b & Tp & En & Tk). destruct (splitter_halves A T ML (WA g W) p2_valid p d b Hp Tp) as (s & Hs & Eh). apply (splitter_list_at A T ML p2_valid) in Hs.
      destruct (p2_splitter s Hs) as (d' & p10 & p11 & i & T1 & T2 & _ & _ & _ & _ & N1 & N2 & Hi & _ & _ & _ & _ & Q1 & Q2 & _).
      exists (S i). split; [lia|]. rewrite <- Cn. rewrite Nat2Z.inj_succ, <- Z.add_1_r. destruct b; subst p.
      + assert (d' = d) by congruence. subst d'. assert (q = p10) by congruence. subst q. exact Q1.
      + assert (d' = d) by congruence. subst d'. assert (q = p11) by congruence. subst q. exact Q2.
  Qed.
  Lemma p2_pair y c : 0 <= y < h / 2 -> (c < bits)%nat -> inset c (w - 1, 2 * y + 1) = negb (inset c (w - 1, 2 * y)).
  Proof. intros Hy Hc. apply (pr_pair _ _ _ _ PR y Hy c Hc). Qed.
  Lemma p2_size : 4 <= h /\ h = 4 * 2 ^ Z.of_nat k /\ forall y, 0 <= y < h -> count a (hue (w - 1, y)) = 2 ^ Z.of_nat k.
  Proof.
    destruct p2_bits as [B1 B2].
    assert (X : forall y, 0 <= y < h / 2 -> count a (hue (w - 1, 2 * y)) + count a (hue (w - 1, 2 * y + 1)) = h / 2).
    { intros y Hy. rewrite !(count_bits a _ bits) by apply (hue_length w h ul). rewrite <- zsum_add.
      rewrite (zsum_ext _ (fun _ => 1)); [rewrite zsum_const, seq_length; lia|]. intros c Hc. apply in_seq in Hc. rewrite p2_pair by lia. destruct (inset c (w - 1, 2 * y)); reflexivity. }
    assert (P : forall y, 0 <= y < h -> 1 <= count a (hue (w - 1, y)) <= 2 ^ Z.of_nat k).
    { intros y Hy. destruct (p2_outlet_size y Hy) as (i & Hi & ->). split; [pose proof (Z.pow_pos_nonneg 2 (Z.of_nat i)); lia|apply Z.pow_le_mono_r; lia]. }
    assert (H2 : 2 <= h / 2).
    { pose proof (X 0 ltac:(lia)). pose proof (P (2 * 0) ltac:(lia)). pose proof (P (2 * 0 + 1) ltac:(lia)). lia. }
    pose proof (p2_half H2) as Eh. rewrite Z.pow_add_r, Z.pow_1_r in Eh by lia. split; [lia|]. split; [lia|]. intros y Hy.
    pose proof (Z.div_mod y 2 ltac:(lia)) as Dm. pose proof (Z.mod_pos_bound y 2 ltac:(lia)) as Mb. assert (Hd : 0 <= y / 2 < h / 2) by lia.
    pose proof (X (y / 2) Hd). pose proof (P (2 * (y / 2)) ltac:(lia)). pose proof (P (2 * (y / 2) + 1) ltac:(lia)).
    assert (E : y = 2 * (y / 2) \/ y = 2 * (y / 2) + 1) by lia. destruct E as [E|E]; rewrite E; lia.
  Qed.

  (** ** Flows *)
  Definition part (c : nat) (p : pos) : Z := if inset c p then 2 ^ Z.of_nat k / count a (hue p) else 0.
  Lemma part_carried c p q : carried A T ML p q -> part c p = part c q.
  Proof. intros C. destruct (p2_carried p q C) as [X Y]. unfold part. rewrite X, Y. reflexivity. Qed.
  Lemma pow_quot i : (i <= k)%nat -> 2 ^ Z.of_nat k / 2 ^ Z.of_nat i = 2 ^ (Z.of_nat k - Z.of_nat i).
  Proof. intros H. symmetry. apply Z.pow_sub_r; lia. Qed.
  Lemma part_steady c : (c < bits)%nat -> steady_flow A T ML (fun s => inject_Z (into_of g a T (part c) s)) (fun f => inject_Z (from_of g a T (part c) f)).
  Proof.
    intros Hc. apply (flow_witness g W a (proj1 p2_solves) (proj1 (proj2 p2_solves)) T R ML p2_valid p2_border p2_touching (part c)).
    - apply part_carried.
    - intros s Hs. destruct (p2_splitter s Hs) as (d & p10 & p11 & i & T1 & T2 & P1 & P2 & P3 & P4 & N1 & N2 & Hi & _ & _ & C1 & C2 & C3 & C4 & J).
      destruct (p2_full _ _ _ P1 T1) as [I1 O1]. destruct (p2_full _ _ _ P2 T2) as [I2 O2]. cbn [into_of from_of]. rewrite T1, T2, I1, I2, O1, O2, N1, N2.
      destruct (J c Hc) as (J1 & J2 & J3). unfold part. rewrite C1, C2, C3, C4, J2, J3.
      pose proof (pow_quot i ltac:(lia)) as Q1. pose proof (pow_quot (S i) ltac:(lia)) as Q2. replace (Z.of_nat (S i)) with (Z.of_nat i + 1) in Q2 by lia. rewrite Q1, Q2.
      assert (Q3 : 2 ^ (Z.of_nat k - Z.of_nat i) = 2 * 2 ^ (Z.of_nat k - (Z.of_nat i + 1))).
      { rewrite <- Z.pow_succ_r by lia. f_equal. lia. }
      split; [destruct (inset c (fst s)), (inset c (snd s)); cbn [andb orb] in *; try discriminate; lia|]. intros; reflexivity.
  Qed.
  Notation IN y := (Enter (0%Z, y%Z)).
  Notation OUT y := (Leave ((w - 1)%Z, y)).
  Theorem p2_flow into from : steady_flow A T ML into from ->
    (forall y, 0 <= y < h / 2 -> (into (IN (2 * y)) == into (IN (2 * y + 1)))%Q) ->
    forall y, 0 <= y < h ->
      (inject_Z (2 ^ Z.of_nat k) * from (OUT y) ==
       qsum (map (fun c => if inset c ((w - 1)%Z, y) then into (IN (2 * Z.of_nat c)) else 0) (seq 0 bits)))%Q.
  Proof.
    intros St Eq y Hy. destruct p2_bits as [B1 B2]. destruct p2_size as (_ & _ & Sz). set (D := inject_Z (2 ^ Z.of_nat k)) in *.
    assert (ND : ~ (D == 0)%Q).
    { unfold D, Qeq. cbn [Qnum Qden inject_Z]. pose proof (Z.pow_pos_nonneg 2 (Z.of_nat k) ltac:(lia) ltac:(lia)). lia. }
    pose proof (steady_sum A T ML into from _ _ (fun c => - (into (IN (2 * Z.of_nat c)) / D))%Q (seq 0 bits) St (fun c Hc => part_steady c ltac:(apply in_seq in Hc; lia))) as S0.
    pose proof (no_source A T ML (WA g W) p2_valid _ _ S0) as N0. 
    assert (Rp : reaches A T (Leave (w - 1, y)) (w - 1, y)) by (apply (proj2 p2_outlets), rows_in; cbn; lia).
    assert (Zi : forall p, begins A T (Enter p) p -> (into (Enter p) + qsum (map (fun c => - (into (IN (2 * Z.of_nat c)) / D) * inject_Z (into_of g a T (part c) (Enter p))) (seq 0 bits)) == 0)%Q).
    { intros p Bp. apply (proj2 p2_inlets) in Bp. apply rows_in in Bp; [|lia]. destruct p as [x z]. cbn [fst snd] in Bp. destruct Bp as [-> Hz]. assert (Hz' : 0 <= z < h) by lia. clear Hz.
      assert (Hd : 0 <= z / 2 < h / 2) by (split; [apply Z.div_pos; lia|apply Z.div_lt_upper_bound; lia]).
      assert (Ep : (into (IN z) == into (IN (2 * (z / 2))))%Q).
      { pose proof (Z.div_mod z 2 ltac:(lia)) as Dm. pose proof (Z.mod_pos_bound z 2 ltac:(lia)) as Mb. assert (E : z = 2 * (z / 2) \/ z = 2 * (z / 2) + 1) by lia.
        destruct E as [E|E]; [rewrite <- E; reflexivity|]. rewrite (Eq (z / 2) Hd). rewrite <- E. reflexivity. }
      rewrite Ep.
      assert (X : forall n, (qsum (map (fun c => - (into (IN (2 * Z.of_nat c)) / D) * inject_Z (into_of g a T (part c) (IN z))) (seq 0 n)) ==
        if z / 2 <? Z.of_nat n then - into (IN (2 * (z / 2))) else 0)%Q).
      { induction n as [|n IH].
        - cbn [seq map]. destruct (Z.ltb_spec (z / 2) (Z.of_nat 0)); [lia|reflexivity].
        - rewrite seq_S, map_app, qsum_app, IH. cbn [map plus]. rewrite qsum_cons. change (qsum []) with 0%Q. cbn [into_of]. unfold part. rewrite p2_source, p2_single by exact Hz'.
          rewrite Z.div_1_r. fold D. destruct (Z.eqb_spec (Z.of_nat n) (z / 2)) as [En|En].
          + rewrite <- En. destruct (Z.ltb_spec (Z.of_nat n) (Z.of_nat n)), (Z.ltb_spec (Z.of_nat n) (Z.of_nat (S n))); try lia. fold D. field. exact ND.
          + destruct (Z.ltb_spec (z / 2) (Z.of_nat n)), (Z.ltb_spec (z / 2) (Z.of_nat (S n))); try lia; change (inject_Z 0) with 0%Q; ring. }
      rewrite X. destruct (Z.ltb_spec (z / 2) (Z.of_nat bits)); [ring|lia]. }
    specialize (N0 Zi _ Rp). cbv beta in N0.
    assert (Y : forall l, (qsum (map (fun c => - (into (IN (2 * Z.of_nat c)) / D) * inject_Z (from_of g a T (part c) (OUT y))) l) ==
      - (qsum (map (fun c => if inset c ((w - 1)%Z, y) then into (IN (2 * Z.of_nat c)) else 0) l) / D))%Q).
    { induction l as [|c l IH]; [cbn; field; exact ND|]. cbn [map].
      rewrite !qsum_cons, IH. cbn [from_of]. unfold part. rewrite (Sz y Hy).
      rewrite Z.div_same by (apply Z.pow_nonzero; lia). destruct (inset c (w - 1, y)); change (inject_Z 1) with 1%Q; change (inject_Z 0) with 0%Q; field; exact ND. }
    rewrite Y in N0. set (X := qsum _) in *. assert (Z0 : (from (OUT y) == X / D)%Q) by lra. rewrite Z0. field. exact ND.
  Qed.

  (** ** The number of splitters *)
  Definition is_odd (p : pos) : bool := (fst p + snd p) mod 2 =? 1.
  Definition odd_half (s : pos * pos) : pos := if is_odd (fst s) then fst s else snd s.
  Lemma odd_next p d q : neighbour A p d = Some q -> is_odd q = negb (is_odd p).
  Proof.
    intros E. unfold neighbour, ahead, place in E. destruct p as [x y]. cbn [garea area_of wrapx wrapy aw ah fst snd pow2_grid geo wrap_x wrap_y] in E. destruct (insideb _ _); [|discriminate]. injection E as <-.
    unfold is_odd. cbn [fst snd].
    match goal with |- ((?u mod 2) =? 1) = _ => assert (X : u = x + y + 1 \/ u = x + y - 1) by (destruct d; cbn [step_x step_y]; lia) end.
    pose proof (Z.mod_pos_bound (x + y) 2 ltac:(lia)). pose proof (Z.div_mod (x + y) 2 ltac:(lia)).
    destruct X as [-> | ->];
    match goal with |- ((?u mod 2) =? 1) = _ => pose proof (Z.mod_pos_bound u 2 ltac:(lia)); pose proof (Z.div_mod u 2 ltac:(lia)); destruct (Z.eqb_spec (u mod 2) 1), (Z.eqb_spec ((x + y) mod 2) 1); cbn; try reflexivity; exfalso; lia end.
  Qed.
  Lemma odd_half_odd s : is_splitter_at A T s -> is_odd (odd_half s) = true.
  Proof.
    intros (_ & _ & d & _ & _ & En). pose proof (odd_next _ _ _ En) as O. unfold odd_half. destruct (is_odd (fst s)) eqn:E; [exact E|]. rewrite O. reflexivity.
  Qed.
  Lemma odd_half_only s p : is_splitter_at A T s -> (p = fst s \/ p = snd s) -> is_odd p = true -> p = odd_half s.
  Proof.
    intros (_ & _ & d & _ & _ & En) Hp Op. pose proof (odd_next _ _ _ En) as O. unfold odd_half. destruct (is_odd (fst s)) eqn:E; cbn [negb] in O; destruct Hp as [-> | ->]; try reflexivity; congruence.
  Qed.
  Lemma p2_primary p : inside A p -> zsum (map (fun i => Z.b2z (evl a (nth_primary g k i p))) (seq 0 k)) = if vs (V p) then 1 else 0.
  Proof.
    intros Hp. destruct (pr_level _ _ _ _ PR p Hp) as (_ & H2 & H3 & H4). change (pg w h ul) with g in *. destruct (level_length w h ul p) as [_ Lp]. change (pg w h ul) with g in Lp.
    transitivity (count a (level_primary g k p)).
    - rewrite (count_bits a _ k Lp). apply zsum_ext. intros i Hi. apply in_seq in Hi. f_equal. unfold bit_at, values, nth_primary.
      rewrite (nth_indep (map (evl a) (level_primary g k p)) false (evl a 0)) by (rewrite map_length; lia). rewrite map_nth. reflexivity.
    - destruct (vs (V p)) eqn:E; [|apply H3; reflexivity]. unfold count. rewrite <- (H4 eq_refl). apply H2. auto.
  Qed.
  Lemma zsum_swap {X Y} (u : X -> Y -> Z) l m : zsum (map (fun x => zsum (map (u x) m)) l) = zsum (map (fun y => zsum (map (fun x => u x y) l)) m).
  Proof.
    induction l as [|x l IH]; [symmetry; cbn [map]; change (zsum []) with 0; rewrite zsum_const; lia|]. cbn [map].
    change (zsum (map (u x) m) + zsum (map (fun x => zsum (map (u x) m)) l) = zsum (map (fun y => u x y + zsum (map (fun x => u x y) l)) m)). rewrite IH. symmetry. apply zsum_add.
  Qed.
  Lemma count_zsum ls : count a ls = zsum (map (fun l => Z.b2z (evl a l)) ls).
  Proof. induction ls as [|l ls IH]; [reflexivity|]. rewrite count_cons, IH. reflexivity. Qed.
  Lemma checkerboard_NoDup : NoDup (checkerboard g).
  Proof.
    unfold checkerboard. apply NoDup_filter, NoDup_flat_map; [apply range_NoDup| |].
    - intros x _. apply NoDup_map_inj; [congruence|apply range_NoDup].
    - intros x x' q _ _ H1 H2. apply in_map_iff in H1. apply in_map_iff in H2. destruct H1 as (y & <- & _). destruct H2 as (y' & E & _). congruence.
  Qed.
  Theorem p2_number sp : NoDup sp -> (forall s, In s sp <-> is_splitter_at A T s) -> Z.of_nat (List.length sp) = h / 2 * Z.of_nat k.
  Proof.
    intros Nd Hs.
    assert (E1 : zsum (map (fun p => zsum (map (fun i => Z.b2z (evl a (nth_primary g k i p))) (seq 0 k))) (checkerboard g)) = h / 2 * Z.of_nat k).
    { rewrite zsum_swap. rewrite (zsum_ext _ (fun _ => h / 2)); [rewrite zsum_const, seq_length; lia|]. intros i Hi. apply in_seq in Hi.
      rewrite <- (pr_checker _ _ _ _ PR i ltac:(lia)). rewrite count_zsum, map_map. reflexivity. }
    rewrite <- E1. rewrite (zsum_ext _ (fun p => Z.b2z (evl a (is_splitter (tile_at g p))))).
    - rewrite <- (map_map (fun p => is_splitter (tile_at g p)) (fun l => Z.b2z (evl a l))), <- count_zsum.
      rewrite (P_Lossless.count_listed a (fun p => is_splitter (tile_at g p)) _ (map odd_half sp)); [rewrite map_length; reflexivity|apply checkerboard_NoDup| |].
      + apply NoDup_map_on; [exact Nd|]. intros s s' H H' E. apply Hs in H, H'. 
        assert (X : forall s, is_splitter_at A T s -> (odd_half s = fst s \/ odd_half s = snd s)) by (intros t _; unfold odd_half; destruct (is_odd (fst t)); auto).
        pose proof H as (_ & _ & d & T1 & T2 & N1). pose proof H' as (_ & _ & d' & T1' & T2' & N1'). pose proof H as (P1 & P2 & _). pose proof H' as (P1' & P2' & _).
        destruct s as [s1 s2], s' as [r1 r2]. cbn [fst snd] in *. destruct (X _ H) as [F1|F1], (X _ H') as [F2|F2]; rewrite F1, F2 in E; cbn [fst snd] in E; subst; try congruence.
        assert (d = d') by congruence. subst d'. pose proof (neighbour_back _ _ _ _ (WA g W) P1 N1) as B1. pose proof (neighbour_back _ _ _ _ (WA g W) P1' N1') as B2. f_equal. apply Some_inj. exact (eq_trans (eq_sym B1) B2).
      + intros p. rewrite in_map_iff. rewrite (checkerboard_in w h ul p). change (pg w h ul) with g. split.
        * intros (s & <- & H). apply Hs in H. pose proof H as (P1 & P2 & d & T1 & T2 & _). assert (Ip : inside A (odd_half s)) by (unfold odd_half; destruct (is_odd (fst s)); assumption).
          split; [split; [exact Ip|apply Z.eqb_eq, odd_half_odd; exact H]|]. change (vs (V (odd_half s)) = true). pose proof (sight _ Ip) as (_ & _ & _ & Ss & _). rewrite Ss.
          unfold odd_half. destruct (is_odd (fst s)); [rewrite T1|rewrite T2]; reflexivity.
        * intros [[Ip Op] Vs]. change (vs (V p) = true) in Vs. pose proof (sight _ Ip) as (_ & _ & _ & Ss & _). rewrite Ss in Vs. destruct (T p) as [| | | |d b| |] eqn:Tp; try discriminate.
          destruct (splitter_halves A T ML (WA g W) p2_valid p d b Ip Tp) as (s & Hin & Eh). apply (splitter_list_at A T ML p2_valid) in Hin. exists s. split; [|apply Hs; exact Hin].
          symmetry. apply odd_half_only; [exact Hin|destruct b; auto|]. apply Z.eqb_eq. exact Op.
    - intros p Hp. apply (checkerboard_in w h ul p) in Hp. rewrite p2_primary by apply Hp. change (evl a (is_splitter (tile_at g p))) with (vs (V p)). destruct (vs (V p)); reflexivity.
  Qed.
End Solution.
