(** The meaning of the clauses of create_balancer. *)
From Coq Require Import String ZArith List Bool Lia.
From Verif Require Import P_Network P_Network2.
From Verif Require Import Spec_Cnf Spec_Tile Spec_Layout Spec_Network M_Json M_Dict M_Tile M_Util M_Card M_Network M_Template M_Grid M_Oracle M_Balancer
  P_Cnf P_Util P_Card P_Tile P_Layout P_List P_Template P_Walk P_Grid P_GridSound P_GridOk P_Gen T_Grid.
Import ListNotations.
Open Scope Z_scope.

(** One side of a splitter: which halves are connected, and the colours of the
    cells next to them. *)
Definition side_rule (s : side) (la lb : bool) (ca cb : Z) : Prop :=
  match s with
  | (Some x, Some y) => la = true /\ lb = true /\ ((ca = x /\ cb = y) \/ (ca = y /\ cb = x))
  | (Some c, None) | (None, Some c) => la <> lb /\ (la = true -> ca = c) /\ (lb = true -> cb = c)
  | (None, None) => False
  end.

Lemma set_number_sat v ls cs a : Forall nonzero ls -> 0 <= v -> set_number v ls = Some cs -> (sat a cs = true <-> value a ls = v).
Proof.
  intros H Hv E. rewrite (set_number_spec v ls cs H E). assert (v < 2 ^ len ls) by (apply set_number_some; eauto).
  rewrite Z.mod_small by lia. reflexivity.
Qed.

Definition side_nonneg (s : side) : Prop := (forall c, fst s = Some c -> 0 <= c) /\ (forall c, snd s = Some c -> 0 <= c).

Lemma sat_implies_all a pre cs : Forall nonzero pre ->
  (sat a (implies pre cs) = true <-> ((forall l, In l pre -> evl a l = true) -> sat a cs = true)).
Proof.
  intros H. rewrite sat_implies by exact H. destruct (forallb (evl a) pre) eqn:E; cbn [negb orb].
  - rewrite forallb_forall in E. split; auto.
  - split; [|reflexivity]. intros _ C. exfalso. assert (forallb (evl a) pre = true) by (apply forallb_forall; exact C). congruence.
Qed.

Lemma side_clauses_sat pre s la lb ca cb cs a : Forall nonzero pre -> la <> 0 -> lb <> 0 -> Forall nonzero ca -> Forall nonzero cb ->
  side_nonneg s -> side_clauses pre s la lb ca cb = Some cs ->
  (sat a cs = true <-> ((forall l, In l pre -> evl a l = true) -> side_rule s (evl a la) (evl a lb) (value a ca) (value a cb))).
Proof.
  intros Hp Hla Hlb Hca Hcb [Nx Ny] E.
  assert (X : forall c, 0 <= c -> forall na nb, set_number c ca = Some na -> set_number c cb = Some nb ->
    (sat a (implies pre (literals_different la lb) ++ implies (pre ++ [la]) na ++ implies (pre ++ [lb]) nb)%list = true <->
     ((forall l, In l pre -> evl a l = true) -> evl a la <> evl a lb /\ (evl a la = true -> value a ca = c) /\ (evl a lb = true -> value a cb = c)))).
  { intros c Hc na nb Ea Eb. rewrite !sat_app_iff, !sat_implies_all by (try (apply Forall_app; split; [exact Hp|constructor; [assumption|constructor]]); exact Hp).
    rewrite literals_different_sat, (set_number_sat c ca na a Hca Hc Ea), (set_number_sat c cb nb a Hcb Hc Eb) by assumption.
    rewrite negb_true_iff. assert (Q : forall x : lit, (forall l, In l (pre ++ [x])%list -> evl a l = true) <-> (forall l, In l pre -> evl a l = true) /\ evl a x = true).
    { intros x. split.
      - intros H. split; [intros l Hl; apply H; apply in_app_iff; left; exact Hl|apply H; apply in_app_iff; right; left; reflexivity].
      - intros [H1 H2] l Hl. apply in_app_iff in Hl. destruct Hl as [Hl|[<-|[]]]; auto. }
    rewrite !Q. rewrite eqb_false_iff. tauto. }
  destruct s as [[x|] [y|]]; cbn [side_clauses] in E; unfold side_rule.
  - destruct (set_numbers x y ca cb) as [n|] eqn:En; [|discriminate]. cbn [obind] in E. apply Some_inj in E. subst cs.
    rewrite sat_app_iff, !sat_implies_all by exact Hp. rewrite (set_numbers_spec x y ca cb n (Nx x eq_refl) (Ny y eq_refl) Hca Hcb En a).
    rewrite !sat_cons_iff, sat_nil, !satc_one. tauto.
  - destruct (set_number x ca) as [na|] eqn:Ea; [|discriminate]. cbn [obind] in E.
    destruct (set_number x cb) as [nb|] eqn:Eb; [|discriminate]. cbn [obind] in E. apply Some_inj in E. subst cs. apply X; auto.
  - destruct (set_number y ca) as [na|] eqn:Ea; [|discriminate]. cbn [obind] in E.
    destruct (set_number y cb) as [nb|] eqn:Eb; [|discriminate]. cbn [obind] in E. apply Some_inj in E. subst cs. apply X; auto.
  - discriminate.
Qed.

Lemma side_clauses_ok n pre s la lb ca cb cs : Forall (lit_ok n) pre -> lit_ok n la -> lit_ok n lb -> Forall (lit_ok n) ca -> Forall (lit_ok n) cb ->
  side_clauses pre s la lb ca cb = Some cs -> cnf_ok n cs.
Proof.
  intros Hp Hla Hlb Hca Hcb E.
  assert (X : forall c na nb, set_number c ca = Some na -> set_number c cb = Some nb ->
    cnf_ok n (implies pre (literals_different la lb) ++ implies (pre ++ [la]) na ++ implies (pre ++ [lb]) nb)%list).
  { intros c na nb Ea Eb. repeat apply cnf_ok_app; apply implies_ok; auto.
    - apply literals_different_ok; assumption.
    - apply Forall_app. split; [exact Hp|constructor; [assumption|constructor]].
    - eapply set_number_ok; [|exact Ea]. exact Hca.
    - apply Forall_app. split; [exact Hp|constructor; [assumption|constructor]].
    - eapply set_number_ok; [|exact Eb]. exact Hcb. }
  destruct s as [[x|] [y|]]; cbn [side_clauses] in E.
  - destruct (set_numbers x y ca cb) as [k|] eqn:En; [|discriminate]. cbn [obind] in E. apply Some_inj in E. subst cs.
    apply cnf_ok_app; apply implies_ok; auto.
    + apply cnf_ok_cons; [constructor; [exact Hla|constructor]|]. apply cnf_ok_cons; [constructor; [exact Hlb|constructor]|]. constructor.
    + eapply set_numbers_ok; [| |exact En]; assumption.
  - destruct (set_number x ca) as [na|] eqn:Ea; [|discriminate]. cbn [obind] in E.
    destruct (set_number x cb) as [nb|] eqn:Eb; [|discriminate]. cbn [obind] in E. apply Some_inj in E. subst cs. eapply X; eauto.
  - destruct (set_number y ca) as [na|] eqn:Ea; [|discriminate]. cbn [obind] in E.
    destruct (set_number y cb) as [nb|] eqn:Eb; [|discriminate]. cbn [obind] in E. apply Some_inj in E. subst cs. eapply X; eauto.
  - discriminate.
Qed.

(** ** The nodes *)
Section Nodes.
  Variable g : grid.
  Hypothesis W : wf_grid g.
  Variable k : nat.
  Hypothesis Hk : gextras g = [("node"%string, TSized OneHot k)].
  Notation A := (garea g).
  Notation N := (grid_size g).

  Lemma node_size : tile_size g = 20 + 3 * Z.of_nat (colour_bits g) + Z.of_nat k.
  Proof.
    unfold tile_size, tile_template. rewrite Hk. unfold colour_bits. destruct (gcolours g) as [c|]; cbn [variable_count app fold_right snd shape_size]; lia.
  Qed.
  Lemma node_ok p i : inside A p -> (i < k)%nat -> lit_ok N (node g p i).
  Proof.
    intros Hp Hi. pose proof (tile_base_nonneg g p W Hp). pose proof (tile_base_top g p W Hp). pose proof node_size.
    destruct W as (_ & Ht & _). unfold lit_ok, node, extras_base. split; lia.
  Qed.

  Definition side_dir (a : assignment) (n : splitter) (p : Z * Z) (d : dir) : bool :=
    if any_missing (fst n) then vo (view_of a (tile_at g p)) d else vi (view_of a (tile_at g p)) d.
  Definition tint (a : assignment) (p : Z * Z) : Z := value a (colour (tile_at g p)).

  (** A splitter of type [n] whose head is at [p] and looks in direction [d]. *)
  Definition splitter_rule (a : assignment) (n : splitter) (p : Z * Z) (d : dir) : Prop :=
    exists p10 p01 p11, neighbour A p d = Some p10 /\ neighbour A p (anticlockwise d) = Some p01 /\ neighbour A p01 d = Some p11 /\
      side_rule (fst n) (vi (view_of a (tile_at g p)) d) (vi (view_of a (tile_at g p01)) d) (tint a p) (tint a p01) /\
      side_rule (snd n) (vo (view_of a (tile_at g p)) d) (vo (view_of a (tile_at g p01)) d) (tint a p10) (tint a p11).

  Lemma diagonal p d : get_tile_instance_offset (geo g) (fst p) (snd p) (dx d + dx (next d)) (dy d + dy (next d)) =
    place A (fst p + (step_x (anticlockwise d) + step_x d), snd p + (step_y (anticlockwise d) + step_y d)).
  Proof. rewrite offset_place by apply W. rewrite !dx_step, !dy_step, next_ac. f_equal. f_equal; lia. Qed.

  Lemma diagonal_neighbour p d q : neighbour A p (anticlockwise d) = Some q ->
    get_tile_instance_offset (geo g) (fst p) (snd p) (dx d + dx (next d)) (dy d + dy (next d)) = neighbour A q d.
  Proof.
    intros E. rewrite diagonal. unfold neighbour, ahead in *.
    assert (WA' : wf_area A) by (apply WA; exact W).
    rewrite (place_shift A _ q _ _ WA' E). cbn [fst snd]. f_equal. f_equal; lia.
  Qed.

  Lemma node_direction_sat a i n p d cs : inside A p -> (i < k)%nat -> side_nonneg (fst n) -> side_nonneg (snd n) ->
    node_direction g i n p d = Some cs ->
    (sat a cs = true <-> (evl a (node g p i) = true -> side_dir a n p d = true -> splitter_rule a n p d)).
  Proof.
    intros Hp Hi N1 N2 E. pose proof (tile_at_ok g p W Hp) as Op. pose proof (node_ok p i Hp Hi) as [Hn _].
    unfold node_direction in E. destruct (any_missing (fst n) && any_missing (snd n)); [discriminate|].
    rewrite offset_neighbour in E by exact W.
    rewrite (offset_neighbour g W p (next d)) in E. replace (neighbour A p (next d)) with (neighbour A p (anticlockwise d)) in E by (rewrite next_ac; reflexivity).
    set (pl := if any_missing (fst n) then output_dir (tile_at g p) d else input_dir (tile_at g p) d) in *.
    assert (Hpl : evl a pl = side_dir a n p d) by (unfold pl, side_dir; destruct (any_missing (fst n)); reflexivity).
    assert (Npl : pl <> 0) by (unfold pl; destruct (any_missing (fst n)); apply Op).
    assert (Hpre : (forall l, In l [node g p i; pl] -> evl a l = true) <-> (evl a (node g p i) = true /\ side_dir a n p d = true)).
    { rewrite <- Hpl. split; [intros H; split; apply H; cbn; tauto|]. intros [H1 H2] l [<-|[<-|[]]]; assumption. }
    assert (None_case : (forall p10 p01 p11, neighbour A p d = Some p10 -> neighbour A p (anticlockwise d) = Some p01 -> neighbour A p01 d = Some p11 -> False) ->
      (sat a [invert_components [node g p i; pl]] = true <-> (evl a (node g p i) = true -> side_dir a n p d = true -> splitter_rule a n p d))).
    { intros H. rewrite sat_one. cbn [invert_components map]. rewrite !satc_cons_iff, satc_nil, !evl_neg_iff, Hpl by assumption. split.
      - intros [C|[C|C]] H1 H2; congruence.
      - intros C. destruct (evl a (node g p i)); [|auto]. destruct (side_dir a n p d); [|auto]. exfalso.
        destruct (C eq_refl eq_refl) as (p10 & p01 & p11 & E1 & E2 & E3 & _). eapply H; eauto. }
    destruct (neighbour A p d) as [p10|] eqn:E10.
    2: { apply Some_inj in E. subst cs. apply None_case. intros ? ? ? [=]. }
    destruct (neighbour A p (anticlockwise d)) as [p01|] eqn:E01.
    2: { apply Some_inj in E. subst cs. apply None_case. intros ? ? ? _ [=]. }
    rewrite (diagonal_neighbour p d p01 E01) in E.
    destruct (neighbour A p01 d) as [p11|] eqn:E11.
    2: { apply Some_inj in E. subst cs. apply None_case. intros x1 x2 x3 _ [= <-] C. congruence. }
    assert (H10 : inside A p10) by (eapply ahead_inside; exact E10). assert (H01 : inside A p01) by (eapply ahead_inside; exact E01).
    assert (H11 : inside A p11) by (eapply ahead_inside; exact E11).
    pose proof (tile_at_ok g p10 W H10) as O10. pose proof (tile_at_ok g p01 W H01) as O01. pose proof (tile_at_ok g p11 W H11) as O11.
    destruct (side_clauses _ (fst n) _ _ _ _) as [c1|] eqn:S1; [|discriminate]. cbn [obind] in E.
    destruct (side_clauses _ (snd n) _ _ _ _) as [c2|] eqn:S2; [|discriminate]. cbn [obind] in E. apply Some_inj in E. subst cs.
    assert (Fp : Forall nonzero [node g p i; pl]) by (constructor; [exact Hn|constructor; [exact Npl|constructor]]).
    rewrite sat_app_iff.
    rewrite (side_clauses_sat _ _ _ _ _ _ _ a Fp (ok_i _ Op d) (ok_i _ O01 d) (ok_c _ Op) (ok_c _ O01) N1 S1).
    rewrite (side_clauses_sat _ _ _ _ _ _ _ a Fp (ok_o _ Op d) (ok_o _ O01 d) (ok_c _ O10) (ok_c _ O11) N2 S2).
    rewrite Hpre. split.
    - intros [R1 R2] X1 X2. exists p10, p01, p11. rewrite E10, E01, E11. repeat split; try reflexivity; [apply R1|apply R2]; auto.
    - intros R. split; intros [X1 X2]; destruct (R X1 X2) as (q10 & q01 & q11 & F10 & F01 & F11 & R1 & R2);
        rewrite E10 in F10; rewrite E01 in F01; injection F10 as <-; injection F01 as <-; rewrite E11 in F11; injection F11 as <-; assumption.
  Qed.

  Lemma node_direction_ok i n p d cs : inside A p -> (i < k)%nat -> node_direction g i n p d = Some cs -> cnf_ok N cs.
  Proof.
    intros Hp Hi E. pose proof (lits g W p Hp) as Lp. pose proof (node_ok p i Hp Hi) as Ln.
    unfold node_direction in E. destruct (any_missing (fst n) && any_missing (snd n)); [discriminate|].
    assert (Fp : Forall (lit_ok N) [node g p i; if any_missing (fst n) then output_dir (tile_at g p) d else input_dir (tile_at g p) d]).
    { constructor; [exact Ln|]. constructor; [|constructor]. destruct (any_missing (fst n)); apply Lp. }
    assert (Fi : cnf_ok N [invert_components [node g p i; if any_missing (fst n) then output_dir (tile_at g p) d else input_dir (tile_at g p) d]]).
    { apply cnf_ok_cons; [apply invert_ok; exact Fp|constructor]. }
    set (pre := [node g p i; if any_missing (fst n) then output_dir (tile_at g p) d else input_dir (tile_at g p) d]) in *. clearbody pre.
    destruct (get_tile_instance_offset (geo g) (fst p) (snd p) (dx d) (dy d)) as [p10|] eqn:E10; [|apply Some_inj in E; subst; exact Fi].
    destruct (get_tile_instance_offset (geo g) (fst p) (snd p) (dx (next d)) (dy (next d))) as [p01|] eqn:E01; [|apply Some_inj in E; subst; exact Fi].
    destruct (get_tile_instance_offset (geo g) (fst p) (snd p) (dx d + dx (next d)) (dy d + dy (next d))) as [p11|] eqn:E11; [|apply Some_inj in E; subst; exact Fi].
    pose proof (lits_offset g W _ _ _ _ E10) as L10. pose proof (lits_offset g W _ _ _ _ E01) as L01. pose proof (lits_offset g W _ _ _ _ E11) as L11.
    destruct (side_clauses _ (fst n) _ _ _ _) as [c1|] eqn:S1; [|discriminate]. cbn [obind] in E.
    destruct (side_clauses _ (snd n) _ _ _ _) as [c2|] eqn:S2; [|discriminate]. cbn [obind] in E. apply Some_inj in E. subst cs.
    apply cnf_ok_app; [eapply side_clauses_ok; [| | | | |exact S1]|eapply side_clauses_ok; [| | | | |exact S2]]; try exact Fp; ok_lits.
  Qed.

  (** Node [i] at [p]. *)
  Definition node_rule (a : assignment) (i : nat) (n : splitter) (p : Z * Z) : Prop :=
    evl a (node g p i) = true ->
    (exists d, side_dir a n p d = true) /\ forall d, side_dir a n p d = true -> splitter_rule a n p d.
  Definition ends_rule (a : assignment) (ic oc : Z) (p : Z * Z) : Prop :=
    (vinp (view_of a (tile_at g p)) = true -> tint a p = ic) /\ (voutp (view_of a (tile_at g p)) = true -> tint a p = oc).

  Lemma node_at_sat a ic oc i n p cs : inside A p -> (i < k)%nat -> 0 <= ic -> 0 <= oc -> side_nonneg (fst n) -> side_nonneg (snd n) ->
    node_at g ic oc i n p = Some cs -> (sat a cs = true <-> ends_rule a ic oc p /\ node_rule a i n p).
  Proof.
    intros Hp Hi Hic Hoc N1 N2 E. pose proof (tile_at_ok g p W Hp) as Op. pose proof (node_ok p i Hp Hi) as [Hn _].
    unfold node_at in E. destruct (set_number ic _) as [ci|] eqn:Ei; [|discriminate]. cbn [obind] in E.
    destruct (set_number oc _) as [co|] eqn:Eo; [|discriminate]. cbn [obind] in E.
    destruct (any_missing (fst n) && any_missing (snd n)); [discriminate|].
    destruct (oflat _ directions) as [cd|] eqn:Ed; [|discriminate]. cbn [obind] in E. apply Some_inj in E. subst cs.
    rewrite !sat_app_iff, !sat_implies1 by apply Op.
    rewrite (set_number_sat _ _ _ a (ok_c _ Op) Hic Ei), (set_number_sat _ _ _ a (ok_c _ Op) Hoc Eo).
    rewrite sat_one, satc_cons_iff, evl_neg_iff, (sat_oflat a _ _ _ Ed) by exact Hn.
    assert (D : satc a (if any_missing (fst n) then outputs (tile_at g p) else inputs (tile_at g p)) = true <-> exists d, side_dir a n p d = true).
    { unfold side_dir, outputs, inputs. destruct (any_missing (fst n)); rewrite satc_dirs; reflexivity. }
    rewrite D. unfold ends_rule, node_rule, tint. cbn [view_of vinp voutp].
    assert (DD : (forall x, In x directions -> exists c, node_direction g i n p x = Some c /\ sat a c = true) <->
      forall d, evl a (node g p i) = true -> side_dir a n p d = true -> splitter_rule a n p d).
    { split.
      - intros H d. destruct (H d (directions_all d)) as (c & Ec & Sc). apply (node_direction_sat a i n p d c Hp Hi N1 N2 Ec). exact Sc.
      - intros H d _. assert (X : exists c, node_direction g i n p d = Some c).
        { unfold oflat in Ed. destruct (omap (node_direction g i n p) directions) as [css|] eqn:Em; [|discriminate].
          clear - Em. assert (Y : forall ls css, omap (node_direction g i n p) ls = Some css -> forall d, In d ls -> exists c, node_direction g i n p d = Some c).
          { induction ls as [|x ls IH]; intros css' E' y []; cbn [omap] in E'.
            - subst y. destruct (node_direction g i n p x) as [c|]; [eauto|discriminate].
            - destruct (node_direction g i n p x); [|discriminate]. cbn [obind] in E'. destruct (omap _ ls) eqn:El; [|discriminate]. eapply IH; eauto. }
          eapply Y; [exact Em|apply directions_all]. }
        destruct X as [c Ec]. exists c. split; [exact Ec|]. apply (node_direction_sat a i n p d c Hp Hi N1 N2 Ec). apply H. }
    rewrite DD. split.
    - intros (H1 & H2 & H3 & H4). split; [split; assumption|]. intros Hx. split; [destruct H3; congruence|auto].
    - intros ((H1 & H2) & H3). split; [exact H1|]. split; [exact H2|]. split; [|intros d Hx; apply H3; exact Hx].
      destruct (evl a (node g p i)); [right; apply H3; reflexivity|left; reflexivity].
  Qed.

  Lemma node_at_ok ic oc i n p cs : inside A p -> (i < k)%nat -> node_at g ic oc i n p = Some cs -> cnf_ok N cs.
  Proof.
    intros Hp Hi E. pose proof (lits g W p Hp) as Lp. pose proof (node_ok p i Hp Hi) as Ln.
    unfold node_at in E. destruct (set_number ic _) as [ci|] eqn:Ei; [|discriminate]. cbn [obind] in E.
    destruct (set_number oc _) as [co|] eqn:Eo; [|discriminate]. cbn [obind] in E.
    destruct (any_missing (fst n) && any_missing (snd n)); [discriminate|].
    destruct (oflat _ directions) as [cd|] eqn:Ed; [|discriminate]. cbn [obind] in E. apply Some_inj in E. subst cs.
    repeat apply cnf_ok_app.
    - apply implies_ok; [ok_lits|]. eapply set_number_ok; [|exact Ei]. apply Lp.
    - apply implies_ok; [ok_lits|]. eapply set_number_ok; [|exact Eo]. apply Lp.
    - apply cnf_ok_cons; [|constructor]. constructor; [apply lit_ok_opp; exact Ln|]. destruct (any_missing (fst n)); ok_lits.
    - apply (cnf_ok_oflat _ _ _ _ Ed). intros d c _ Ec. eapply node_direction_ok; eauto.
  Qed.

  Lemma node_clauses_sat a ic oc i n cs : (i < k)%nat -> 0 <= ic -> 0 <= oc -> side_nonneg (fst n) -> side_nonneg (snd n) ->
    node_clauses g ic oc i n = Some cs ->
    (sat a cs = true <-> forall p, inside A p -> ends_rule a ic oc p /\ node_rule a i n p).
  Proof.
    intros Hi Hic Hoc N1 N2 E. unfold node_clauses in E. destruct (negb _); [discriminate|].
    rewrite (sat_oflat a _ _ _ E). change (cells (width (geo g)) (height (geo g))) with (iterate_tiles (geo g)) in *. split.
    - intros H p Hp. destruct (H p) as (c & Ec & Sc); [apply iterate_tiles_in; exact Hp|]. apply (node_at_sat a ic oc i n p c); auto.
    - intros H p Hp. assert (X : exists c, node_at g ic oc i n p = Some c).
      { unfold oflat in E. destruct (omap _ _) as [css|] eqn:Em; [|discriminate]. clear - Em Hp. revert css Em Hp.
        generalize (iterate_tiles (geo g)) as ls. induction ls as [|x ls IH]; intros css' E' []; cbn [omap] in E'.
        - subst x. destruct (node_at g ic oc i n p) as [c|]; [eauto|discriminate].
        - destruct (node_at g ic oc i n x); [|discriminate]. cbn [obind] in E'. destruct (omap _ ls) eqn:El; [|discriminate]. eapply IH; eauto. }
      apply iterate_tiles_in in Hp. destruct X as [c Ec]. exists c. split; [exact Ec|]. apply (node_at_sat a ic oc i n p c); auto.
  Qed.
  Lemma node_clauses_ok ic oc i n cs : (i < k)%nat -> node_clauses g ic oc i n = Some cs -> cnf_ok N cs.
  Proof.
    intros Hi E. unfold node_clauses in E. destruct (negb _); [discriminate|]. apply (cnf_ok_oflat _ _ _ _ E).
    change (cells (width (geo g)) (height (geo g))) with (iterate_tiles (geo g)). intros p c Hp Ec. apply iterate_tiles_in in Hp. eapply node_at_ok; eauto.
  Qed.

  (** Exactly the heads have a type, and one only. *)
  Definition one_rule (a : assignment) (p : Z * Z) : Prop :=
    count a (nodes g k p) = if vh (view_of a (tile_at g p)) then 1 else 0.
  Lemma nodes_ok p : inside A p -> Forall (lit_ok N) (nodes g k p).
  Proof. intros Hp. unfold nodes. apply Forall_map, Forall_forall. intros i Hi. apply in_seq in Hi. apply node_ok; [exact Hp|lia]. Qed.
  Lemma one_type_sat a p : inside A p ->
    (sat a (quadratic_one (- is_splitter_head (tile_at g p) :: nodes g k p)) = true <-> one_rule a p).
  Proof.
    intros Hp. pose proof (tile_at_ok g p W Hp) as Op. pose proof (nodes_ok p Hp) as No. apply Forall_ok_nonzero in No.
    pose proof (ok_h _ Op) as Hh. rewrite quadratic_one_sat by (constructor; [unfold nonzero; lia|exact No]).
    rewrite count_cons, evl_neg by exact Hh. unfold one_rule. cbn [view_of vh].
    destruct (evl a (is_splitter_head (tile_at g p))); cbn [negb Z.b2z]; lia.
  Qed.
End Nodes.

(** ** The whole of create_balancer *)
Definition nonneg_colours (net : counter) : Prop :=
  forall n c x, In (n, c) net -> In (Some x) (splitter_colours n) -> 0 <= x.

(** Everything the clauses of create_balancer say. *)
Record balancer_rules (g : grid) (net : counter) (ic n oc m : Z) (a : assignment) : Prop := {
  br_init : solves_init g a;
  br_prevent : forall c cs, 0 <= c < match gcolours g with Some k => k | None => 0 end -> ~ In c (all_colours net) -> prevent_colour g c = Some cs -> sat a cs = true;
  br_edges : sat a (block_underground_through_edges g (EBool true)) = true;
  br_under : sat a (prevent_bad_undergrounding g) = true;
  br_colouring : solves_colouring g a;
  br_half : count a (map (fun p => is_splitter (tile_at g p)) (filter (fun p => (fst p + snd p) mod 2 =? 1) (cells (width (geo g)) (height (geo g))))) =
    fold_left Z.add (map snd net) 0;
  br_counts : forall i nd k, nth_error net i = Some (nd, k) -> count a (map (fun p => node g p i) (cells (width (geo g)) (height (geo g)))) = k;
  br_one : forall p, inside (garea g) p -> one_rule g (List.length net) a p;
  br_inputs : count a (map (fun p => is_input (tile_at g p)) (cells (width (geo g)) (height (geo g)))) = n;
  br_outputs : count a (map (fun p => is_output (tile_at g p)) (cells (width (geo g)) (height (geo g)))) = m;
  br_ends : forall p, inside (garea g) p -> ends_rule g a ic oc p;
  br_nodes : forall i nd k p, nth_error net i = Some (nd, k) -> inside (garea g) p -> node_rule g a i nd p }.

Lemma indexed_in {X} (l : list X) i x : In (i, x) (indexed l) <-> nth_error l i = Some x.
Proof.
  unfold indexed. assert (G : forall l s, In (i, x) (combine (seq s (List.length l)) l) <-> (s <= i)%nat /\ nth_error l (i - s) = Some x).
  { clear l. induction l as [|y l IH]; intros s; cbn [List.length seq combine In].
    - split; [intros []|]. intros [_ H]. destruct (i - s)%nat; discriminate.
    - rewrite IH. split.
      + intros [[= -> ->]|[H1 H2]]; [split; [lia|]; replace (i - i)%nat with 0%nat by lia; reflexivity|]. split; [lia|].
        replace (i - s)%nat with (S (i - S s)) by lia. exact H2.
      + intros [H1 H2]. destruct (i - s)%nat as [|j] eqn:Ej.
        * left. cbn [nth_error] in H2. injection H2 as ->. f_equal. lia.
        * right. split; [lia|]. cbn [nth_error] in H2. replace (i - S s)%nat with j by lia. exact H2. }
  rewrite G. rewrite Nat.sub_0_r. split; [intros [_ H]; exact H|intros H; split; [lia|exact H]].
Qed.

Lemma list_max_spec l m : list_max l = Some m -> In m l /\ forall x, In x l -> x <= m.
Proof.
  destruct l as [|x r]; [discriminate|]. cbn [list_max]. intros [= <-].
  assert (G : forall r x, (In (fold_left Z.max r x) (x :: r)) /\ forall y, In y (x :: r) -> y <= fold_left Z.max r x).
  { clear. induction r as [|z r IH]; intros x; cbn [fold_left].
    - split; [left; reflexivity|]. intros y [->|[]]. lia.
    - destruct (IH (Z.max x z)) as [H1 H2]. split.
      + destruct H1 as [H1|H1]; [|right; right; exact H1]. rewrite <- H1. destruct (Z.max_spec x z) as [[_ ->]|[_ ->]]; cbn; tauto.
      + intros y [->|[->|Hy]].
        * specialize (H2 (Z.max y z) (or_introl eq_refl)). lia.
        * specialize (H2 (Z.max x y) (or_introl eq_refl)). lia.
        * apply H2. right. exact Hy. }
  apply G.
Qed.

Lemma all_colours_in net x : In x (all_colours net) <-> exists n c, In (n, c) net /\ In (Some x) (splitter_colours n).
Proof.
  unfold all_colours, set_of, present. rewrite nodup_In, in_flat_map. split.
  - intros ([y|] & H1 & H2); [|destruct H2]. cbn in H2. destruct H2 as [->|[]]. apply in_flat_map in H1.
    destruct H1 as ([n c] & H1 & H3). exists n, c. split; [exact H1|exact H3].
  - intros (n & c & H1 & H2). exists (Some x). split; [|left; reflexivity]. apply in_flat_map. exists (n, c). split; assumption.
Qed.

Lemma nonneg_sides net nd k : nonneg_colours net -> In (nd, k) net -> side_nonneg (fst nd) /\ side_nonneg (snd nd).
Proof.
  intros H Hin. destruct nd as [[a b] [c d]]. assert (X : forall x, In (Some x) (splitter_colours ((a, b), (c, d))) -> 0 <= x) by (intros x Hx; eapply H; eauto).
  cbn in X. unfold side_nonneg. cbn [fst snd]. repeat split; intros x ->; apply X; tauto.
Qed.

Lemma balancer_grid_wf net w h ul t : 0 < w -> 0 < h -> 0 <= t -> match ul with Some l => 0 <= l | None => True end -> wf_grid (balancer_grid net w h ul t).
Proof.
  intros Hw Hh Ht Hu. unfold wf_grid, balancer_grid. cbn [geo gtop gcolours glen width height]. repeat split; cbn [width height]; try lia. exact Hu.
Qed.

Lemma ends_colours net ic n oc m : get_input_output_colours (elements net) = Some ((ic, n), (oc, m)) ->
  In ic (all_colours net) /\ In oc (all_colours net).
Proof.
  intros E. apply ends_spec in E. destruct E as ((H1 & H2) & H3 & H4 & _).
  pose proof (occurs_nonneg ic (flat_map (fun nd : splitter => [fst (snd nd); snd (snd nd)]) (elements net))).
  pose proof (occurs_nonneg oc (flat_map (fun nd : splitter => [fst (fst nd); snd (fst nd)]) (elements net))).
  unfold consumed, produced in *.
  assert (X : forall nd, In nd (elements net) -> exists k, In (nd, k) net).
  { intros nd H'. unfold elements in H'. apply in_flat_map in H'. destruct H' as ([nd' k] & H5 & H6). apply repeat_spec in H6. cbn in H6. subst. eauto. }
  split.
  - assert (Y : 0 < occurs ic (flat_map (fun nd : splitter => [fst (fst nd); snd (fst nd)]) (elements net))) by lia.
    apply occurs_in, in_flat_map in Y. destruct Y as (nd & Y1 & Y2). destruct (X nd Y1) as [k Hk]. apply all_colours_in. exists nd, k. split; [exact Hk|].
    unfold splitter_colours. apply in_app_iff. left. exact Y2.
  - assert (Y : 0 < occurs oc (flat_map (fun nd : splitter => [fst (snd nd); snd (snd nd)]) (elements net))) by lia.
    apply occurs_in, in_flat_map in Y. destruct Y as (nd & Y1 & Y2). destruct (X nd Y1) as [k Hk]. apply all_colours_in. exists nd, k. split; [exact Hk|].
    unfold splitter_colours. apply in_app_iff. right. exact Y2.
Qed.

Lemma oflat_each {X} (F : X -> option cnf) l cs : oflat F l = Some cs -> forall x, In x l -> exists c, F x = Some c.
Proof.
  unfold oflat. destruct (omap F l) as [css|] eqn:Em; [|discriminate]. intros _. revert css Em.
  induction l as [|x l IH]; intros css' E' y []; cbn [omap] in E'.
  - subst y. destruct (F x) as [c|]; [eauto|discriminate].
  - destruct (F x); [|discriminate]. cbn [obind] in E'. destruct (omap F l) eqn:El; [|discriminate]. eapply IH; eauto.
Qed.

Lemma pure_some o top cs top' : pure o top = Some (cs, top') -> o = Some cs.
Proof. unfold pure. destruct o; [|discriminate]. cbn [obind]. intros [= -> _]. reflexivity. Qed.

Lemma seq_gen_each gs : forall top r, seq_gen gs top = Some r -> forall f, In f gs -> exists t u, f t = Some u.
Proof.
  induction gs as [|f gs IH]; intros top r E h []; rewrite seq_gen_cons in E; destruct (f top) as [[c t]|] eqn:Ef; try discriminate.
  - subst h. eauto.
  - destruct (seq_gen gs t) eqn:Eg; [|discriminate]. eapply IH; eauto.
Qed.
Lemma seq_gen_pure gs top r o : seq_gen gs top = Some r -> In (pure o) gs -> exists cs, o = Some cs.
Proof. intros E H. destruct (seq_gen_each gs top r E _ H) as (t & [cs t'] & Hc). exists cs. eapply pure_some; exact Hc. Qed.

Lemma gen_ok_sat n o P : (forall cs, o = Some cs -> cnf_ok n cs) -> (exists cs, o = Some cs) ->
  (forall a, P a <-> match o with Some cs => sat a cs = true | None => True end) -> gen_ok n (pure o) P.
Proof. intros H1 _ H2. eapply gen_ok_ext; [|apply gen_ok_pure; exact H1]. intros a. rewrite H2. reflexivity. Qed.

Theorem create_balancer_spec E net w h ul g cs top : honest E -> nonneg_colours net ->
  match ul with Some l => 0 <= l | None => True end ->
  create_balancer E net w h ul = Some (g, cs, top) ->
  exists ic n oc m, get_input_output_colours (elements net) = Some ((ic, n), (oc, m)) /\
    wf_grid g /\ (exists t, list_max (all_colours net) = Some t /\ g = balancer_grid net w h ul t /\ 0 <= t) /\
    grid_size g <= top /\ cnf_ok top cs /\ encodes (grid_size g) cs (balancer_rules g net ic n oc m) /\
    0 <= ic /\ 0 <= oc.
Proof.
  intros HE HN Hul E0. unfold create_balancer in E0.
  destruct (Z.ltb_spec 0 w) as [Hw|]; [|discriminate]. destruct (Z.ltb_spec 0 h) as [Hh|]; [|discriminate]. cbn [andb negb] in E0.
  destruct (list_max (all_colours net)) as [t|] eqn:Et; [|discriminate]. cbn [obind] in E0.
  destruct (init_clauses (balancer_grid net w h ul t)) as [init|] eqn:Ei; [|discriminate]. cbn [obind] in E0.
  destruct (list_max_spec _ _ Et) as [Tin Tmax].
  assert (Ht : 0 <= t) by (apply all_colours_in in Tin; destruct Tin as (nd & k & H1 & H2); eapply HN; eauto).
  pose proof (balancer_grid_wf net w h ul t Hw Hh Ht Hul) as W.
  destruct (balancer_clauses E (balancer_grid net w h ul t) net t (grid_top (balancer_grid net w h ul t))) as [[c1 t1]|] eqn:Eb; [|discriminate].
  cbn [obind] in E0. injection E0 as E1 E2 E3. subst t1.
  assert (Hx : gextras (balancer_grid net w h ul t) = [("node"%string, TSized OneHot (List.length net))]) by reflexivity.
  assert (Hg : grid_top (balancer_grid net w h ul t) = grid_size (balancer_grid net w h ul t)) by reflexivity.
  assert (Hcol : gcolours (balancer_grid net w h ul t) = Some (t + 1)) by reflexivity.
  rewrite Hg in Eb. rewrite E1 in *.
  unfold balancer_clauses in Eb.
  match type of Eb with obind (seq_gen ?l _) _ = _ => set (before := l) in *; destruct (seq_gen before (grid_size g)) as [[b1 tb]|] eqn:Eb1; [|discriminate] end.
  cbn [obind] in Eb. destruct (get_input_output_colours (elements net)) as [[[ic n] [oc m]]|] eqn:Ends; [|discriminate]. cbn [obind] in Eb.
  match type of Eb with obind (seq_gen ?l _) _ = _ => set (after := l) in *; destruct (seq_gen after tb) as [[b2 t2]|] eqn:Eb2; [|discriminate] end.
  cbn [obind] in Eb. injection Eb as Ec1 Et2. subst t2 c1.
  destruct (ends_colours net ic n oc m Ends) as [Iic Ioc].
  assert (Hnn : forall x, In x (all_colours net) -> 0 <= x) by (intros x Hx'; apply all_colours_in in Hx'; destruct Hx' as (nd & k & H1 & H2); eapply HN; eauto).
  assert (Hic := Hnn ic Iic). assert (Hoc := Hnn oc Ioc).
  set (N := grid_size g) in *.
  assert (HN0 : 0 <= N).
  { unfold N, grid_size. destruct W as ((W1 & W2) & W3 & _). pose proof (tile_size_pos g). assert (0 <= width (geo g) * height (geo g)) by (apply Z.mul_nonneg_nonneg; lia).
    assert (0 <= width (geo g) * height (geo g) * tile_size g) by (apply Z.mul_nonneg_nonneg; lia). lia. }
  assert (CL : forall p, In p (cells (width (geo g)) (height (geo g))) <-> inside (garea g) p).
  { intros p. change (cells (width (geo g)) (height (geo g))) with (iterate_tiles (geo g)). apply iterate_tiles_in. }
  assert (LK : forall i nd k, nth_error net i = Some (nd, k) -> (i < List.length net)%nat) by (intros i nd k H; apply nth_error_Some; congruence).
  set (k := List.length net) in *.
  assert (P1 : exists o, oflat (fun c => if mem c (all_colours net) then Some [] else prevent_colour g c) (range (t + 1)) = Some o) by
    (apply (seq_gen_pure before _ _ _ Eb1); left; reflexivity).
  assert (P2 : exists o, prevent_bad_colouring g = Some o) by (apply (seq_gen_pure before _ _ _ Eb1); do 3 right; left; reflexivity).
  assert (P3 : exists o, oflat (fun ie => node_clauses g ic oc (fst ie) (fst (snd ie))) (indexed net) = Some o) by
    (apply (seq_gen_pure after _ _ _ Eb2); do 2 right; left; reflexivity).
  destruct P1 as [o1 P1]. destruct P2 as [o2 P2]. destruct P3 as [o3 P3].
  (* the first list *)
  assert (GB : gen_ok N (seq_gen before) (fun a =>
    ((forall c cs, 0 <= c < t + 1 -> ~ In c (all_colours net) -> prevent_colour g c = Some cs -> sat a cs = true) /\
     sat a (block_underground_through_edges g (EBool true)) = true /\ sat a (prevent_bad_undergrounding g) = true /\ solves_colouring g a /\
     count a (map (fun p => is_splitter (tile_at g p)) (filter (fun p => (fst p + snd p) mod 2 =? 1) (cells (width (geo g)) (height (geo g))))) =
       fold_left Z.add (map snd net) 0 /\ True) /\
    (forall x, In x (indexed net) -> count a (map (fun p => node g p (fst x)) (cells (width (geo g)) (height (geo g)))) = snd (snd x)) /\
    (forall p, inside (garea g) p -> one_rule g k a p) /\ True)).
  { unfold before. apply gen_ok_app; [|apply gen_ok_app].
    - repeat apply gen_ok_cons; try apply gen_ok_nil.
      + eapply gen_ok_ext; [|apply gen_ok_pure; intros c Hc; rewrite P1 in Hc; apply Some_inj in Hc; subst c;
          apply (cnf_ok_oflat _ _ _ _ P1); intros x c _ Hc; destruct (mem x (all_colours net)); [apply Some_inj in Hc; subst c; constructor|];
          eapply prevent_colour_ok; [exact W|exact Hc]].
        intros a. cbv beta. rewrite P1, (sat_oflat a _ _ _ P1). split.
        * intros H c cs' Hc Hn Ecs. destruct (H c) as (c' & H1 & H2); [apply range_in; exact Hc|].
          destruct (mem c (all_colours net)) eqn:Em; [apply mem_in in Em; contradiction|]. congruence.
        * intros H c Hc. apply range_in in Hc. destruct (oflat_each _ _ _ P1 c) as [c' H1]; [apply range_in; exact Hc|]. cbv beta in H1.
          destruct (mem c (all_colours net)) eqn:Em; [exists []; split; reflexivity|]. exists c'. split; [exact H1|]. apply (H c c' Hc); [|exact H1].
          intros C. apply mem_in in C. congruence.
      + eapply gen_ok_ext; [|apply gen_ok_pure; intros c Hc; apply Some_inj in Hc; subst c; apply block_underground_ok; exact W]. intros a. reflexivity.
      + eapply gen_ok_ext; [|apply gen_ok_pure; intros c Hc; apply Some_inj in Hc; subst c; apply undergrounding_ok; exact W]. intros a. reflexivity.
      + eapply gen_ok_ext; [|apply gen_ok_pure; intros c Hc; eapply colouring_ok; [exact W|exact Hc]].
        intros a. cbv beta. rewrite P2. unfold solves_colouring. split; [intros S; exists o2; split; [exact P2|exact S]|].
        intros (c & H1 & H2). congruence.
      + apply gen_ok_equals; [exact HE|exact HN0|]. apply Forall_map, Forall_forall. intros p Hp. apply filter_In in Hp. destruct Hp as [Hp _].
        apply CL in Hp. apply (lits g W p Hp).
    - apply (gen_ok_map N (fun ie => library_equals E (map (fun p => node g p (fst ie)) (cells (width (geo g)) (height (geo g)))) (snd (snd ie)))
        (fun ie a => count a (map (fun p => node g p (fst ie)) (cells (width (geo g)) (height (geo g)))) = snd (snd ie))).
      intros [i [nd c]] Hi. apply indexed_in in Hi. cbn [fst snd].
      apply gen_ok_equals; [exact HE|exact HN0|]. apply Forall_map, Forall_forall. intros p Hp. apply CL in Hp.
      apply (node_ok g W k Hx p i Hp). eapply LK; exact Hi.
    - apply gen_ok_cons; [|apply gen_ok_nil].
      eapply gen_ok_ext; [|apply gen_ok_pure; intros c Hc; apply Some_inj in Hc; subst c; apply cnf_ok_flat_map; intros p Hp; apply CL in Hp;
        apply quadratic_one_ok; constructor; [apply lit_ok_opp; apply (lits g W p Hp)|apply (nodes_ok g W k Hx p Hp)]].
      intros a. cbv beta. rewrite sat_flat_map. split.
      + intros H p Hp. apply (one_type_sat g W k Hx a p Hp). apply H. apply CL. exact Hp.
      + intros H p Hp. apply CL in Hp. apply (one_type_sat g W k Hx a p Hp). apply H. exact Hp. }
  assert (GA : gen_ok N (seq_gen after) (fun a =>
    (count a (map (fun p => is_input (tile_at g p)) (cells (width (geo g)) (height (geo g)))) = n /\
     count a (map (fun p => is_output (tile_at g p)) (cells (width (geo g)) (height (geo g)))) = m /\ True) /\
    (forall i nd c p, nth_error net i = Some (nd, c) -> inside (garea g) p -> ends_rule g a ic oc p /\ node_rule g a i nd p) /\ True)).
  { unfold after. apply gen_ok_app; [apply gen_ok_cons; [|apply gen_ok_cons; [|apply gen_ok_nil]]|apply gen_ok_cons; [|apply gen_ok_nil]].
    - apply gen_ok_equals; [exact HE|exact HN0|]. apply Forall_map, Forall_forall. intros p Hp. apply CL in Hp. apply (lits g W p Hp).
    - apply gen_ok_equals; [exact HE|exact HN0|]. apply Forall_map, Forall_forall. intros p Hp. apply CL in Hp. apply (lits g W p Hp).
    - eapply gen_ok_ext; [|apply gen_ok_pure; intros c Hc; apply (cnf_ok_oflat _ _ _ _ Hc); intros [i [nd c']] c2 Hi Hc2; apply indexed_in in Hi;
        cbn [fst snd] in Hc2; eapply (node_clauses_ok g W k Hx); [eapply LK; exact Hi|exact Hc2]].
      intros a. cbv beta. rewrite P3, (sat_oflat a _ _ _ P3). split.
      + intros H i nd c p Hi Hp. destruct (H (i, (nd, c))) as (c' & H1 & H2); [apply indexed_in; exact Hi|]. cbn [fst snd] in H1.
        destruct (nonneg_sides net nd c HN) as [N1 N2]; [eapply nth_error_In; exact Hi|].
        apply (proj1 (node_clauses_sat g W k Hx a ic oc i nd c' (LK _ _ _ Hi) Hic Hoc N1 N2 H1) H2 p Hp).
      + intros H [i [nd c]] Hi. destruct (oflat_each _ _ _ P3 _ Hi) as [c' H1]. exists c'. split; [exact H1|]. cbn [fst snd] in H1. apply indexed_in in Hi.
        destruct (nonneg_sides net nd c HN) as [N1 N2]; [eapply nth_error_In; exact Hi|].
        apply (proj2 (node_clauses_sat g W k Hx a ic oc i nd c' (LK _ _ _ Hi) Hic Hoc N1 N2 H1)). intros p Hp. eapply H; eauto. }
  destruct GB as [LB GB]. destruct GA as [LA GA].
  destruct (GB N b1 tb (Z.le_refl _) Eb1) as (M1 & O1 & C1). destruct (GA tb b2 top ltac:(lia) Eb2) as (M2 & O2 & C2).
  assert (OI : cnf_ok N init) by (eapply init_ok; [exact W|exact Ei]).
  exists ic, n, oc, m. split; [reflexivity|]. split; [exact W|]. split; [exists t; split; [reflexivity|]; split; [symmetry; exact E1|exact Ht]|].
  split; [lia|]. subst cs. split.
  { apply cnf_ok_app; [eapply cnf_ok_mono; [|exact OI]; lia|]. apply cnf_ok_app; [eapply cnf_ok_mono; [exact M2|exact O1]|exact O2]. }
  split; [|split; assumption].
  assert (CI : encodes N init (fun a => solves_init g a)).
  { split.
    - intros a S. exists init. split; [exact Ei|exact S].
    - intros a (c & H1 & H2). exists a. split; [apply agree_refl|]. congruence. }
  assert (L1 := encodes_app N tb b1 b2 _ _ N (Z.le_refl _) M1 LA O1 C1 C2).
  assert (L2 := encodes_app N N init (b1 ++ b2) _ _ N (Z.le_refl _) (Z.le_refl _) (local_and _ _ _ LB LA) OI CI L1).
  destruct L2 as [Snd Cmp]. split.
  - intros a S. apply Snd in S. destruct S as (S1 & ((S2 & S3 & S4 & S5 & S6 & _) & S7 & S8 & _) & (S9 & S10 & _) & S11 & _).
    constructor; try assumption.
    + rewrite Hcol. exact S2.
    + intros i nd c Hi. apply (S7 (i, (nd, c))). apply indexed_in. exact Hi.
    + intros p Hp. apply all_colours_in in Iic. destruct Iic as (nd & c & H1 & _). apply In_nth_error in H1. destruct H1 as [i Hi]. eapply S11; eauto.
    + intros i nd c p Hi Hp. eapply S11; eauto.
  - intros a [B1 B2 B3 B4 B5 B6 B7 B8 B9 B10 B11 B12]. apply Cmp. rewrite Hcol in B2. split; [exact B1|]. split.
    + split; [repeat (split; [assumption|]); exact Logic.I|]. split; [|split; [exact B8|exact Logic.I]].
      intros [i [nd c]] Hi. apply indexed_in in Hi. cbn [fst snd]. eapply B7; exact Hi.
    + split; [repeat (split; [assumption|]); exact Logic.I|]. split; [|exact Logic.I]. intros i nd c p Hi Hp. split; [apply B11; exact Hp|eapply B12; eauto].
Qed.
