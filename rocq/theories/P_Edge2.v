(** What the clauses of create_edge and of the flows through an edge say. *)
From Coq Require Import String ZArith List Bool Lia.
From Verif Require Import Spec_Cnf Spec_Tile Spec_Layout M_Json M_Tile M_Util M_Card M_Network M_Template M_Grid M_Oracle M_Balancer M_Optimise M_Interchange
  P_Cnf P_Util P_Card P_Tile P_Layout P_List P_Template P_Walk P_Grid P_GridSound P_GridComplete P_Transport T_Grid P_GridOk P_Gen P_Balancer P_NetFree P_Pow2 P_Pow2Flow P_Alloc.
Import ListNotations.
Open Scope Z_scope.

Definition edge_ok (top : Z) (e : edge) : Prop :=
  lit_ok top (present e) /\ Forall (lit_ok top) (edge_colour e) /\ length (edge_colour e) = 1%nat.
(** The edge is crossed or not, and by what. *)
Definition edge_says (a : assignment) (e : edge) (x : bool * Z) : Prop :=
  evl a (present e) = fst x /\ (fst x = true -> value a (edge_colour e) = snd x).
Lemma edge_ok_mono n m e : n <= m -> edge_ok n e -> edge_ok m e.
Proof. intros H (X1 & X2 & X3). split; [unfold lit_ok in *; lia|]. split; [eapply Forall_ok_mono; [exact H|exact X2]|exact X3]. Qed.
Lemma edge_says_agree n a b e x : edge_ok n e -> agree n a b -> edge_says a e x -> edge_says b e x.
Proof. intros (X1 & X2 & _) Ag [H1 H2]. split; [rewrite <- H1; symmetry; apply (evl_agree n); assumption|intros Hx; rewrite <- (H2 Hx); symmetry; apply (value_agree n); assumption]. Qed.

(** ** One flow *)
Definition hits (a : assignment) (c : Z) (e : edge) : bool := evl a (present e) && (value a (edge_colour e) =? c).
Lemma flow_clauses_exact n c e l : 0 <= c < 2 -> edge_ok n e -> lit_ok n l ->
  exists cs, flow_clauses c (e, l) = Some cs /\ cnf_ok n cs /\ forall a, sat a cs = true <-> evl a l = hits a c e.
Proof.
  intros Hc (O1 & O2 & Le) Ol. unfold flow_clauses.
  assert (Lc : len (edge_colour e) = 1) by (unfold len; rewrite Le; reflexivity).
  destruct (proj2 (set_number_some c (edge_colour e))) as [c1 E1]; [rewrite Lc; cbn; lia|]. rewrite E1. cbn [obind].
  assert (E2 : set_not_number c (edge_colour e) = Some (map (fun c => - nth 0 c 0) c1)) by (unfold set_not_number; rewrite E1; reflexivity). rewrite E2. cbn [obind].
  pose proof (set_not_number_ok n c (edge_colour e) _ O2 E2) as On. pose proof (set_number_ok n c (edge_colour e) c1 O2 E1) as Os.
  eexists. split; [reflexivity|]. split.
  - apply cnf_ok_app; apply implies_ok; lits_solve.
  - intros a. assert (Nl : l <> 0) by (unfold lit_ok in Ol; lia). assert (Np : present e <> 0) by (unfold lit_ok in O1; lia).
    rewrite sat_app_iff, !sat_implies1, sat_one, sat_cons_iff, satc_one, satc_cons_iff, !evl_neg_iff by (assumption || lia).
    pose proof (Forall_ok_nonzero _ _ O2) as Nz.
    rewrite (set_number_sat c _ c1 a Nz ltac:(lia) E1), (set_not_number_spec c _ _ Nz E2 a), Lc. change (2 ^ 1) with 2. rewrite (Z.mod_small c 2 Hc). unfold hits.
    destruct (evl a l), (evl a (present e)); cbn [andb]; destruct (Z.eqb_spec (value a (edge_colour e)) c); intuition congruence.
Qed.

Lemma flow_literals_ok n c es : 0 <= n -> 0 <= c < 2 -> Forall (edge_ok n) es ->
  alloc_ok n (flow_literals c es) (fun _ => True) (fun a ls => Forall nonzero ls /\ values a ls = map (hits a c) es) (fun top ls => Forall (lit_ok top) ls).
Proof.
  intros Hn Hc He. split; [intros a b _ _; exact Logic.I|]. intros top ls cs top' Ht E. unfold flow_literals in E.
  set (k := length es) in *. assert (Ol : Forall (lit_ok (top + Z.of_nat k)) (fresh top k)) by (apply fresh_ok; lia).
  assert (He' : Forall (edge_ok (top + Z.of_nat k)) es) by (eapply Forall_impl; [|exact He]; intros e; apply edge_ok_mono; lia).
  destruct (oflat (flow_clauses c) (combine es (fresh top k))) as [c1|] eqn:Ef; [|discriminate]. cbn [obind] in E. apply Some_inj in E.
  assert (ls = fresh top k) by congruence. assert (c1 = cs) by congruence. assert (top' = top + Z.of_nat k) by congruence. subst ls c1 top'. clear E.
  assert (X : exists cs', oflat (flow_clauses c) (combine es (fresh top k)) = Some cs' /\ cnf_ok (top + Z.of_nat k) cs' /\ forall a, sat a cs' = true <-> forall el, In el (combine es (fresh top k)) -> evl a (snd el) = hits a c (fst el)).
  { apply oflat_exact with (P := fun (el : edge * lit) a => evl a (snd el) = hits a c (fst el)). intros [e l] Hel. apply flow_clauses_exact; [exact Hc| |].
    - rewrite Forall_forall in He'. apply He'. eapply in_combine_l; exact Hel.
    - rewrite Forall_forall in Ol. apply Ol. eapply in_combine_r; exact Hel. }
  destruct X as (cs' & E' & O' & Sp). assert (cs' = cs) by congruence. subst cs'. clear E'. split; [lia|]. split; [exact O'|]. split; [exact Ol|].
  assert (V : forall a, sat a cs = true <-> values a (fresh top k) = map (hits a c) es).
  { intros a. rewrite Sp. assert (Lk : length es = length (fresh top k)) by (rewrite fresh_length; reflexivity). clear - Lk. revert Lk. generalize (fresh top k) as ls. generalize es as xs. induction xs as [|x xs IH]; intros [|l ls] Lk; try discriminate.
    - split; [reflexivity|intros _ el []].
    - cbn [combine]. unfold values in *. cbn [map]. injection Lk as Lk. specialize (IH ls Lk). split.
      + intros H. f_equal; [apply (H (x, l)); left; reflexivity|apply IH; intros el Hel; apply H; right; exact Hel].
      + intros H el [<-|Hel]; cbn [fst snd]; [congruence|]. apply IH; [congruence|exact Hel]. }
  split; [intros a Sa; split; [exact Logic.I|split; [eapply Forall_ok_nonzero; exact Ol|apply V; exact Sa]]|]. intros a _.
  destruct (extend_values (map (hits a c) es) a top ltac:(lia)) as (b & Ab & Vb). rewrite map_length in Vb. fold k in Vb. exists b. split; [exact Ab|]. apply V. rewrite Vb.
  apply map_ext_in. intros e Hin. unfold hits. rewrite Forall_forall in He. destruct (He e Hin) as (O1 & O2 & _). assert (Ag : agree n a b) by (eapply agree_mono; [exact Ht|exact Ab]).
  rewrite (evl_agree n a b _ Ag O1), (value_agree n a b _ Ag O2). reflexivity.
Qed.

(** ** The edges *)
Definition beyond (p : pos) (d : dir) : pos := (fst p + dx d, snd p + dy d).
Definition hidden_hue (d : dir) (t : tvars) : list lit := if is_horizontal d then colour_ux t else colour_uy t.

Section Edges.
  Variable g : grid.
  Hypothesis W : wf_grid g.
  Hypothesis Bits : colour_bits g = 1%nat.
  Notation A := (garea g).
  Notation N := (grid_size g).
  Notation V a p := (view_of a (tile_at g p)).

  (** What crosses from [p] in direction [d], above the ground and below it. *)
  Definition crossings (a : assignment) (d : dir) (p : pos) : list (bool * Z) :=
    let q := beyond p d in
    [(vo (V a p) d, value a (colour (tile_at g q)));
     (vu (V a p) d || vu (V a q) d, if vu (V a p) d then value a (hidden_hue d (tile_at g p)) else value a (hidden_hue d (tile_at g q)))].
  Definition coherent (a : assignment) (d : dir) (p : pos) : Prop :=
    vu (V a p) d = true -> vu (V a (beyond p d)) d = true -> value a (hidden_hue d (tile_at g p)) = value a (hidden_hue d (tile_at g (beyond p d))).

  Lemma size_pos : 0 <= N.
  Proof. unfold grid_size. pose proof (tile_size_pos g). destruct W as ((W1 & W2) & W3 & _). assert (0 <= width (geo g) * height (geo g) * tile_size g) by (repeat apply Z.mul_nonneg_nonneg; lia). lia. Qed.
  Lemma hidden_length d p : length (hidden_hue d (tile_at g p)) = 1%nat.
  Proof. unfold hidden_hue. destruct (is_horizontal d); etransitivity; [apply fresh_length|exact Bits|apply fresh_length|exact Bits]. Qed.
  Lemma hidden_ok d p : inside A p -> Forall (lit_ok N) (hidden_hue d (tile_at g p)).
  Proof. intros Hp. unfold hidden_hue. destruct (is_horizontal d); apply (lits g W p Hp). Qed.

  Lemma local_view a b p : agree N a b -> inside A p -> (forall d, vu (V a p) d = vu (V b p) d) /\ (forall d, vo (V a p) d = vo (V b p) d) /\
    value a (colour (tile_at g p)) = value b (colour (tile_at g p)) /\ forall d, value a (hidden_hue d (tile_at g p)) = value b (hidden_hue d (tile_at g p)).
  Proof.
    intros Ag Hp. pose proof (lits g W p Hp) as Ot. cbn [view_of vu vo]. split; [intros d; apply (evl_agree N); [exact Ag|apply Ot]|]. split; [intros d; apply (evl_agree N); [exact Ag|apply Ot]|].
    split; [apply (value_agree N); [exact Ag|apply Ot]|]. intros d. apply (value_agree N); [exact Ag|apply hidden_ok; exact Hp].
  Qed.
  Lemma crossings_local a b d p : agree N a b -> inside A p -> inside A (beyond p d) -> crossings a d p = crossings b d p.
  Proof.
    intros Ag Hp Hq. destruct (local_view a b p Ag Hp) as (V1 & V2 & V3 & V4). destruct (local_view a b _ Ag Hq) as (U1 & U2 & U3 & U4).
    unfold crossings. rewrite V1, V2, V4, U1, U3, U4. reflexivity.
  Qed.
  Lemma coherent_local d p : inside A p -> inside A (beyond p d) -> local N (fun a => coherent a d p).
  Proof.
    intros Hp Hq a b Ag. destruct (local_view a b p Ag Hp) as (V1 & V2 & V3 & V4). destruct (local_view a b _ Ag Hq) as (U1 & U2 & U3 & U4).
    unfold coherent. rewrite V1, V4, U1, U4. auto.
  Qed.

  Lemma grid_inside p : in_grid g (fst p) (snd p) = true <-> inside A p.
  Proof. unfold in_grid, inside. cbn [garea area_of aw ah]. rewrite !andb_true_iff, !Z.leb_le, !Z.ltb_lt. lia. Qed.
  Lemma edge_at_ok p d : inside A p -> inside A (beyond p d) ->
    alloc_ok N (edge_at g d p) (fun a => coherent a d p) (fun a es => Forall2 (edge_says a) es (crossings a d p)) (fun top es => Forall (edge_ok top) es).
  Proof.
    intros Hp Hq. split; [apply coherent_local; assumption|]. intros top es cs top' Ht E. unfold edge_at in E. fold (beyond p d) in E.
    rewrite (proj2 (grid_inside p) Hp), (proj2 (grid_inside (beyond p d)) Hq) in E. cbn [andb negb] in E.
    fold (hidden_hue d (tile_at g p)) in E. fold (hidden_hue d (tile_at g (beyond p d))) in E. set (q := beyond p d) in *.
    pose proof size_pos as N0. rewrite hidden_length in E. change (fresh (top + 1) 1) with [top + 1 + 1] in E.
    assert (L1 : length (hidden_hue d (tile_at g p)) = length [top + 1 + 1]) by apply hidden_length. assert (L2 : length (hidden_hue d (tile_at g q)) = length [top + 1 + 1]) by apply hidden_length.
    destruct (proj2 (set_numbers_equal_some (hidden_hue d (tile_at g p)) [top + 1 + 1] false)) as [c1 E1]; [right; exact L1|].
    destruct (proj2 (set_numbers_equal_some (hidden_hue d (tile_at g q)) [top + 1 + 1] false)) as [c2 E2]; [right; exact L2|].
    rewrite E1, E2 in E. cbn [obind] in E. apply Some_inj in E.
    match type of E with (?x, ?y, ?z) = _ => assert (Ex : x = es) by congruence; assert (Ey : y = cs) by congruence; assert (Ez : z = top') by congruence end. clear E. change (Z.of_nat 1) with 1 in Ez. subst top'.
    pose proof (lits g W p Hp) as Op. pose proof (lits g W q Hq) as Oq.
    assert (M : N <= top + 1 + 1) by lia.
    assert (OK : forall l, lit_ok N l -> lit_ok (top + 1 + 1) l) by (intros l Hl; unfold lit_ok in *; lia).
    assert (Ov : lit_ok (top + 1 + 1) (top + 1)) by (unfold lit_ok; lia). assert (Ow : Forall (lit_ok (top + 1 + 1)) [top + 1 + 1]) by (constructor; [unfold lit_ok; lia|constructor]).
    assert (Oh1 : Forall (lit_ok (top + 1 + 1)) (hidden_hue d (tile_at g p))) by (eapply Forall_ok_mono; [exact M|apply hidden_ok; exact Hp]).
    assert (Oh2 : Forall (lit_ok (top + 1 + 1)) (hidden_hue d (tile_at g q))) by (eapply Forall_ok_mono; [exact M|apply hidden_ok; exact Hq]).
    assert (Ou1 : lit_ok (top + 1 + 1) (underground (tile_at g p) d)) by (apply OK, Op). assert (Ou2 : lit_ok (top + 1 + 1) (underground (tile_at g q) d)) by (apply OK, Oq).
    assert (Nu1 : underground (tile_at g p) d <> 0) by (unfold lit_ok in Ou1; lia). assert (Nu2 : underground (tile_at g q) d <> 0) by (unfold lit_ok in Ou2; lia).
    assert (Sp : forall a, sat a cs = true <->
      evl a (top + 1) = vu (V a p) d || vu (V a q) d /\ (vu (V a p) d = true -> value a (hidden_hue d (tile_at g p)) = value a [top + 1 + 1]) /\ (vu (V a q) d = true -> value a (hidden_hue d (tile_at g q)) = value a [top + 1 + 1])).
    { intros a. rewrite <- Ey. rewrite !sat_app_iff, !sat_implies1, sat_one, sat_all_false, satc_cons_iff, satc_one, !evl_neg_iff by (assumption || lia || (repeat constructor; assumption)).
      rewrite (set_numbers_equal_spec _ _ false c1 (Forall_ok_nonzero _ _ Oh1) (Forall_ok_nonzero _ _ Ow) E1), (set_numbers_equal_spec _ _ false c2 (Forall_ok_nonzero _ _ Oh2) (Forall_ok_nonzero _ _ Ow) E2).
      cbn [view_of vu In]. split.
      - intros (H1 & H2 & H3 & H4). split; [|tauto]. destruct (evl a (top + 1)) eqn:Ev.
        + destruct (H1 eq_refl) as [H|H]; rewrite H; [reflexivity|rewrite orb_true_r; reflexivity].
        + rewrite (H2 eq_refl (underground (tile_at g p) d)), (H2 eq_refl (underground (tile_at g q) d)) by auto. reflexivity.
      - intros (H1 & H3 & H4). split; [|split; [|tauto]]; rewrite H1.
        + destruct (evl a (underground (tile_at g p) d)); auto.
        + rewrite orb_false_iff. intros [F1 F2] l [<-|[<-|[]]]; assumption. }
    split; [lia|]. split; [|split; [|split]].
    - rewrite <- Ey. repeat apply cnf_ok_app; apply implies_ok; lits_solve; first [apply set_all_false_ok; lits_solve|eapply set_numbers_equal_ok; [| |eassumption]; assumption].
    - rewrite <- Ex. apply Forall_cons; [|apply Forall_cons; [|apply Forall_nil]]; unfold edge_ok; cbn [present edge_colour].
      + split; [apply OK, Op|]. split; [eapply Forall_ok_mono; [exact M|apply Oq]|etransitivity; [apply fresh_length|exact Bits]].
      + split; [exact Ov|]. split; [exact Ow|reflexivity].
    - intros a Sa. apply Sp in Sa. destruct Sa as (H1 & H2 & H3). split; [intros X1 X2; rewrite (H2 X1); symmetry; apply H3; exact X2|].
      rewrite <- Ex. unfold crossings. fold q. constructor; [split; cbn [present edge_colour fst snd]; auto|]. constructor; [|constructor].
      split; cbn [present edge_colour fst snd]; [exact H1|]. intros Hx. destruct (vu (V a p) d) eqn:Eu; [symmetry; auto|]. cbn [orb] in Hx. symmetry. auto.
    - intros a Co. set (bits := if vu (V a p) d then values a (hidden_hue d (tile_at g p)) else values a (hidden_hue d (tile_at g q))).
      assert (Lb : length bits = 1%nat) by (unfold bits; destruct (vu (V a p) d); rewrite values_length; apply hidden_length).
      destruct (extend_values ((vu (V a p) d || vu (V a q) d) :: bits) a top ltac:(lia)) as (b & Ab & Vb). cbn [length] in Vb. rewrite Lb in Vb.
      change (fresh top 2) with [top + 1; top + 1 + 1] in Vb. unfold values in Vb. cbn [map] in Vb. fold (values b [top + 1 + 1]) in Vb.
      assert (Ag : agree N a b) by (eapply agree_mono; [exact Ht|exact Ab]). destruct (local_view a b p Ag Hp) as (V1 & _ & _ & V4). destruct (local_view a b q Ag Hq) as (U1 & _ & _ & U4).
      exists b. split; [exact Ab|]. apply Sp. rewrite <- V1, <- V4, <- U1, <- U4. assert (Vp : evl b (top + 1) = vu (V a p) d || vu (V a q) d) by congruence.
      assert (Vc : values b [top + 1 + 1] = bits) by (unfold values; cbn [map]; congruence). split; [exact Vp|]. unfold value at 2 4. rewrite Vc. unfold bits.
      split; intros Hu; [rewrite Hu; reflexivity|]. destruct (vu (V a p) d) eqn:Eu; [|reflexivity]. symmetry. exact (Co Eu Hu).
  Qed.

  Lemma edge_loop_ok d line : (forall p, In p line -> inside A p /\ inside A (beyond p d)) ->
    alloc_ok N (edge_loop g d line) (fun a => forall p, In p line -> coherent a d p)
      (fun a es => Forall2 (edge_says a) es (flat_map (crossings a d) line)) (fun top es => Forall (edge_ok top) es).
  Proof.
    induction line as [|p line IH]; intros H.
    - split; [intros a b _ _ p []|]. intros top es cs top' Ht E. cbn [edge_loop] in E. apply Some_inj in E. assert (es = []) by congruence. assert (cs = []) by congruence. assert (top' = top) by congruence. subst.
      split; [lia|]. split; [constructor|]. split; [constructor|]. split; [intros a _; split; [intros p []|constructor]|]. intros a _. exists a. split; [apply agree_refl|reflexivity].
    - destruct (H p (or_introl eq_refl)) as [Hp Hq]. destruct (IH (fun x Hx => H x (or_intror Hx))) as [L2 H2]. destruct (edge_at_ok p d Hp Hq) as [L1 H1]. split.
      { intros a b Ag Ha x [<-|Hx]; [eapply L1; [exact Ag|apply Ha; left; reflexivity]|]. eapply (L2 a b Ag); [|exact Hx]. intros y Hy. apply Ha. right. exact Hy. }
      intros top es cs top' Ht E. cbn [edge_loop] in E. destruct (edge_at g d p top) as [[[e1 c1] t1]|] eqn:E1; [|discriminate]. cbn [obind] in E.
      destruct (edge_loop g d line t1) as [[[e2 c2] t2]|] eqn:E2; [|discriminate]. cbn [obind] in E. apply Some_inj in E.
      assert (es = (e1 ++ e2)%list) by congruence. assert (cs = (c1 ++ c2)%list) by congruence. assert (t2 = top') by congruence. subst es cs t2. clear E.
      destruct (H1 top e1 c1 t1 Ht E1) as (M1 & O1 & K1 & S1 & C1). destruct (H2 t1 e2 c2 top' ltac:(lia) E2) as (M2 & O2 & K2 & S2 & C2).
      split; [lia|]. split; [apply cnf_ok_app; [eapply cnf_ok_mono; [exact M2|exact O1]|exact O2]|].
      split; [apply Forall_app; split; [eapply Forall_impl; [|exact K1]; intros e; apply edge_ok_mono; lia|exact K2]|]. split.
      + intros a. rewrite sat_app_iff. intros [Sa Sb]. destruct (S1 a Sa) as [Pa Ra]. destruct (S2 a Sb) as [Pb Rb]. split; [intros x [<-|Hx]; auto|].
        cbn [flat_map]. apply Forall2_app; assumption.
      + intros a Ha. destruct (C1 a (Ha p (or_introl eq_refl))) as (b & Ab & Sb).
        assert (Hb : forall x, In x line -> coherent b d x).
        { eapply L2; [eapply agree_mono; [exact Ht|exact Ab]|]. intros x Hx. apply Ha. right. exact Hx. }
        destruct (C2 b Hb) as (c & Ac & Sc). exists c. split; [eapply agree_trans; [exact Ab|eapply agree_mono; [exact M1|exact Ac]]|].
        rewrite sat_app_iff. split; [|exact Sc]. rewrite <- (sat_agree t1 b c c1 Ac O1). exact Sb.
  Qed.
End Edges.

(** ** Cuts *)
Lemma alloc_ok_mono {X} n m (f : Z -> option (X * cnf * Z)) P R ok : n <= m -> alloc_ok n f P R ok -> alloc_ok m f P R ok.
Proof.
  intros H [L F]. split; [intros a b Ag; apply L; eapply agree_mono; [exact H|exact Ag]|]. intros top x cs top' Ht E. apply (F top x cs top'); [lia|exact E].
Qed.
Lemma count_invert a ls : Forall nonzero ls -> count a (invert_components ls) = len ls - count a ls.
Proof.
  unfold len. induction 1 as [|l ls Hl _ IH]; [reflexivity|]. unfold invert_components in *. cbn [map length]. rewrite !count_cons, IH, P_Cnf.evl_neg by exact Hl.
  destruct (evl a l); cbn [negb Z.b2z]; lia.
Qed.
Definition tally (a : assignment) (c : Z) (es : list edge) : Z := count_true (map (hits a c) es).
Definition crossed (c : Z) (x : bool * Z) : bool := fst x && (snd x =? c).
Lemma hits_local n a b c es : agree n a b -> Forall (edge_ok n) es -> map (hits a c) es = map (hits b c) es.
Proof.
  intros Ag He. apply map_ext_in. intros e Hin. rewrite Forall_forall in He. destruct (He e Hin) as (O1 & O2 & _). unfold hits.
  rewrite (evl_agree n a b _ Ag O1), (value_agree n a b _ Ag O2). reflexivity.
Qed.
Lemma hits_says a c es xs : Forall2 (edge_says a) es xs -> map (hits a c) es = map (crossed c) xs.
Proof.
  induction 1 as [|e x es xs [H1 H2] _ IH]; [reflexivity|]. cbn [map]. f_equal; [|exact IH]. unfold hits, crossed. rewrite H1. destruct (fst x); [|reflexivity]. rewrite (H2 eq_refl). reflexivity.
Qed.
Lemma present_says a es xs : Forall2 (edge_says a) es xs -> values a (map present es) = map fst xs.
Proof. induction 1 as [|e x es xs [H1 _] _ IH]; [reflexivity|]. unfold values in *. cbn [map]. congruence. Qed.

Section Cuts.
  Variable E : card_encoder.
  Hypothesis HE : honest E.

  Lemma equals_cut n c m us vs : 0 <= n -> 0 <= c < 2 -> Forall (edge_ok n) us -> Forall (edge_ok n) vs ->
    gen_ok n (bind_gen (flow_literals c us) (fun f => bind_gen (flow_literals c vs) (fun k => library_equals E (f ++ invert_components k)%list (m + len k))))
      (fun a => tally a c us - tally a c vs = m).
  Proof.
    intros Hn Hc Hu Hv. eapply gen_ok_ext; [|eapply gen_ok_bind with (Q := fun f a => True /\ count a f - tally a c vs = m) (Q' := fun a => tally a c us - tally a c vs = m); [apply flow_literals_ok; assumption| | |]].
    - intros a. cbv beta. tauto.
    - intros top f Ht Of. assert (Hv' : Forall (edge_ok top) vs) by (eapply Forall_impl; [|exact Hv]; intros e; apply edge_ok_mono; lia).
      eapply gen_ok_bind with (Q := fun k a => count a (f ++ invert_components k)%list = m + len k); [apply flow_literals_ok; (assumption || lia)| | |].
      + intros top' k Ht' Ok'. apply gen_ok_equals; [exact HE|lia|]. apply Forall_app. split; [eapply Forall_ok_mono; [exact Ht'|exact Of]|].
        unfold invert_components. apply Forall_map. eapply Forall_impl; [|exact Ok']. intros l. apply lit_ok_opp.
      + intros a b Ag. unfold tally. rewrite (hits_local top a b c vs Ag Hv'), (count_agree top a b f Ag Of). auto.
      + intros a k [Nk Rk]. unfold tally. rewrite <- Rk. fold (count a k). rewrite count_app, count_invert by exact Nk. lia.
    - intros a b Ag. unfold tally. rewrite !(hits_local n a b c _ Ag) by assumption. auto.
    - intros a f [_ Rf]. unfold tally. rewrite <- Rf. fold (count a f). tauto.
  Qed.
  Lemma flows_cut n m us vs : 0 <= n -> Forall (edge_ok n) us -> Forall (edge_ok n) vs ->
    gen_ok n (bind_gen (flow_literals 1 us) (fun f => bind_gen (flow_literals 1 vs) (fun k => seq_gen
        [library_atleast E (f ++ invert_components k)%list (m + len k);
         bind_gen (flow_literals 0 vs) (fun f' => bind_gen (flow_literals 0 us) (fun k' => library_equals E (f' ++ invert_components k')%list (m + len k')))])))
      (fun a => m <= tally a 1 us - tally a 1 vs /\ tally a 0 vs - tally a 0 us = m).
  Proof.
    intros Hn Hu Hv. set (Z0 := fun a => tally a 0 vs - tally a 0 us = m).
    assert (L0 : forall top, n <= top -> local top Z0).
    { intros top Ht a b Ag. unfold Z0, tally. rewrite !(hits_local n a b 0 _) by (assumption || (eapply agree_mono; [exact Ht|exact Ag])). auto. }
    eapply gen_ok_ext; [|eapply gen_ok_bind with (Q := fun f a => True /\ m <= count a f - tally a 1 vs /\ Z0 a) (Q' := fun a => m <= tally a 1 us - tally a 1 vs /\ Z0 a); [apply flow_literals_ok; (assumption || lia)| | |]].
    - intros a. cbv beta. unfold Z0. tauto.
    - intros top f Ht Of. assert (Hu' : Forall (edge_ok top) us) by (eapply Forall_impl; [|exact Hu]; intros e; apply edge_ok_mono; lia).
      assert (Hv' : Forall (edge_ok top) vs) by (eapply Forall_impl; [|exact Hv]; intros e; apply edge_ok_mono; lia).
      eapply gen_ok_bind with (Q := fun k a => m + len k <= count a (f ++ invert_components k)%list /\ Z0 a /\ True); [apply flow_literals_ok; (assumption || lia)| | |].
      + intros top' k Ht' Ok'. apply gen_ok_cons; [|apply gen_ok_cons; [|apply gen_ok_nil]].
        * apply gen_ok_atleast; [exact HE|lia|]. apply Forall_app. split; [eapply Forall_ok_mono; [exact Ht'|exact Of]|apply invert_ok; exact Ok'].
        * apply equals_cut; try lia; (eapply Forall_impl; [|eassumption]); intros e; apply edge_ok_mono; lia.
      + intros a b Ag [X1 X2]. split; [|eapply L0; [exact Ht|exact Ag|exact X2]]. unfold tally in *. rewrite <- (hits_local top a b 1 vs Ag Hv'), <- (count_agree top a b f Ag Of). exact X1.
      + intros a k [Nk Rk]. unfold tally. rewrite <- Rk. fold (count a k). rewrite count_app, count_invert by exact Nk. split; [intros (X1 & X2 & _); split; [lia|exact X2]|intros (X1 & X2); split; [lia|split; [exact X2|exact Logic.I]]].
    - intros a b Ag [X1 X2]. split; [|eapply L0; [reflexivity|exact Ag|exact X2]]. unfold tally in *. rewrite <- !(hits_local n a b 1 _ Ag) by assumption. exact X1.
    - intros a f [_ Rf]. unfold tally. rewrite <- Rf. fold (count a f). tauto.
  Qed.

  Variable g : grid.
  Hypothesis W : wf_grid g.
  Hypothesis Bits : colour_bits g = 1%nat.
  Notation A := (garea g).
  Notation N := (grid_size g).

  (** The number of lines of colour [c], and of all lines, that cross from the
      cells of [line] in direction [d]. *)
  Definition flow (a : assignment) (d : dir) (c : Z) (line : list pos) : Z := count_true (map (crossed c) (flat_map (crossings g a d) line)).
  Definition total_flow (a : assignment) (d : dir) (line : list pos) : Z := count_true (map fst (flat_map (crossings g a d) line)).
  Definition good_line (d : dir) (line : list pos) : Prop := forall p, In p line -> inside A p /\ inside A (beyond p d).
  Lemma crossings_line a b d line : good_line d line -> agree N a b -> flat_map (crossings g a d) line = flat_map (crossings g b d) line.
  Proof.
    intros H Ag. induction line as [|p line IH]; [reflexivity|]. cbn [flat_map]. destruct (H p (or_introl eq_refl)) as [H1 H2].
    rewrite (crossings_local g W a b d p Ag H1 H2), IH; [reflexivity|]. intros x Hx. apply H. right. exact Hx.
  Qed.

  Lemma row_cut_ok y m : let up := edge_line g UP (y + 1) in let down := edge_line g DOWN y in
    good_line UP up -> good_line DOWN down ->
    gen_ok N (row_cut E g y m) (fun a => (forall p, In p up -> coherent g a UP p) /\ (forall p, In p down -> coherent g a DOWN p) /\
      m <= flow a UP 1 up - flow a DOWN 1 down /\ flow a DOWN 0 down - flow a UP 0 up = m).
  Proof.
    intros up down Hu Hd. pose proof (size_pos g W) as N0.
    assert (LF : forall top c, N <= top -> forall a b, agree top a b -> flow a UP c up = flow b UP c up /\ flow a DOWN c down = flow b DOWN c down).
    { intros top c Ht a b Ag. assert (Ag' : agree N a b) by (eapply agree_mono; [exact Ht|exact Ag]). unfold flow. rewrite (crossings_line a b UP up Hu Ag'), (crossings_line a b DOWN down Hd Ag'). auto. }
    unfold row_cut. eapply gen_ok_bind with
      (Q := fun es a => (forall p, In p down -> coherent g a DOWN p) /\ m <= tally a 1 es - flow a DOWN 1 down /\ flow a DOWN 0 down - tally a 0 es = m); [apply (edge_loop_ok g W Bits UP up Hu)| | |].
    - intros top es Ht Oe. eapply gen_ok_bind with (Q := fun fs a => m <= tally a 1 es - tally a 1 fs /\ tally a 0 fs - tally a 0 es = m);
        [eapply alloc_ok_mono; [exact Ht|apply (edge_loop_ok g W Bits DOWN down Hd)]| | |].
      + intros top' fs Ht' Of. apply flows_cut; [lia|eapply Forall_impl; [|exact Oe]; intros e; apply edge_ok_mono; lia|exact Of].
      + intros a b Ag. destruct (LF top 1 Ht a b Ag) as [_ F1]. destruct (LF top 0 Ht a b Ag) as [_ F2]. unfold tally. rewrite F1, F2, !(hits_local top a b _ es Ag Oe). auto.
      + intros a fs Rf. unfold tally, flow. rewrite !(hits_says a _ fs _ Rf). reflexivity.
    - intros a b Ag. destruct (LF N 1 (Z.le_refl N) a b Ag) as [F1 F2]. destruct (LF N 0 (Z.le_refl N) a b Ag) as [F3 F4]. rewrite F1, F2, F3, F4. intros (X1 & X2 & X3). split; [|auto].
      intros p Hp. destruct (Hd p Hp) as [I1 I2]. eapply (coherent_local g W DOWN p I1 I2); [exact Ag|auto].
    - intros a es Re. unfold tally, flow. rewrite !(hits_says a _ es _ Re). reflexivity.
  Qed.

  Lemma column_cut_ok x : let right := edge_line g RIGHT x in let left := edge_line g LEFT (x + 1) in
    good_line RIGHT right -> good_line LEFT left ->
    gen_ok N (column_cut E g x) (fun a => (forall p, In p right -> coherent g a RIGHT p) /\ (forall p, In p left -> coherent g a LEFT p) /\
      total_flow a RIGHT right - total_flow a LEFT left = height (geo g)).
  Proof.
    intros right left Hr Hl. pose proof (size_pos g W) as N0.
    assert (LF : forall top, N <= top -> forall a b, agree top a b -> total_flow a RIGHT right = total_flow b RIGHT right /\ total_flow a LEFT left = total_flow b LEFT left).
    { intros top Ht a b Ag. assert (Ag' : agree N a b) by (eapply agree_mono; [exact Ht|exact Ag]). unfold total_flow. rewrite (crossings_line a b RIGHT right Hr Ag'), (crossings_line a b LEFT left Hl Ag'). auto. }
    unfold column_cut. eapply gen_ok_bind with
      (Q := fun es a => (forall p, In p left -> coherent g a LEFT p) /\ count a (map present es) - total_flow a LEFT left = height (geo g)); [apply (edge_loop_ok g W Bits RIGHT right Hr)| | |].
    - intros top es Ht Oe. assert (Oe' : forall top', top <= top' -> Forall (lit_ok top') (map present es)).
      { intros top' Ht'. apply Forall_map. eapply Forall_impl; [|exact Oe]. intros e (He & _). unfold lit_ok in *. lia. }
      eapply gen_ok_bind with (Q := fun fs a => count a (map present es ++ invert_components (map present fs))%list = height (geo g) + Z.of_nat (length fs)) (Q' := fun a => count a (map present es) - total_flow a LEFT left = height (geo g))
        (R := fun a fs => Forall nonzero (map present fs) /\ Forall2 (edge_says a) fs (flat_map (crossings g a LEFT) left)) (ok := fun top es => Forall (edge_ok top) es).
      + eapply alloc_ok_mono; [exact Ht|]. destruct (edge_loop_ok g W Bits LEFT left Hl) as [L1 H1]. split; [exact L1|].
        intros t fs cs t' Ht' E'. destruct (H1 t fs cs t' Ht' E') as (M1 & O1 & K1 & S1 & C1). split; [exact M1|]. split; [exact O1|]. split; [exact K1|]. split; [|exact C1].
        intros a Sa. destruct (S1 a Sa) as [X1 X2]. split; [exact X1|]. split; [|exact X2]. apply Forall_map. eapply Forall_impl; [|exact K1]. intros e (He & _). unfold lit_ok in He. unfold nonzero. lia.
      + intros top' fs Ht' Of. apply gen_ok_equals; [exact HE|lia|]. apply Forall_app. split; [apply Oe'; exact Ht'|]. apply invert_ok, Forall_map. eapply Forall_impl; [|exact Of]. intros e (He & _). exact He.
      + intros a b Ag. destruct (LF top Ht a b Ag) as [_ F2]. rewrite F2, (count_agree top a b _ Ag (Oe' top ltac:(lia))). auto.
      + intros a fs [Nz Rf]. rewrite count_app, count_invert by exact Nz. unfold len, total_flow. rewrite map_length. unfold count at 2. rewrite (present_says a fs _ Rf). lia.
    - intros a b Ag. destruct (LF N (Z.le_refl N) a b Ag) as [F1 F2]. rewrite F1, F2. intros (X1 & X2). split; [|exact X2].
      intros p Hp. destruct (Hl p Hp) as [I1 I2]. eapply (coherent_local g W LEFT p I1 I2); [exact Ag|auto].
    - intros a es Re. unfold total_flow. unfold count. rewrite (present_says a es _ Re). reflexivity.
  Qed.
End Cuts.
