(** Property theorems C21-C24: blueprints and blueprint books. *)
From Coq Require Import ZArith List Bool String Lia.
From Verif Require Import Spec_Tile Spec_Layout Spec_Transform Spec_Blueprint M_Json M_Tile M_Blueprint
  P_Tile P_Rotate P_Layout P_Blueprint.
Import ListNotations.
Local Open Scope string_scope.
Open Scope Z_scope.

(** * C21 *)
(** [rect h w g]: [g] has [h] rows of [w] tiles. The imported grid is the crop
    to the bounding box of the non-blank cells (filler tiles, which a blueprint
    does not record, read back as empty cells). *)
Theorem C21_round_trip l w h g :
  rect (Z.to_nat h) (Z.to_nat w) g -> 0 < w -> 0 < h ->
  (forall p, inside (closed w h) p -> blueprintable (layout_of g p)) ->
  splitters_paired (closed w h) (layout_of g) ->
  inputs_inferred (closed w h) (layout_of g) ->
  exists es, make_blueprint l g = Some es /\
    ((forall p, inside (closed w h) p -> blank (layout_of g p)) -> import_blueprint es = Some []) /\
    ((exists p, inside (closed w h) p /\ ~ blank (layout_of g p)) ->
     exists x0 y0 w' h' g', import_blueprint es = Some g' /\ 0 < w' /\ 0 < h' /\
       rect (Z.to_nat h') (Z.to_nat w') g' /\ bounding_box (closed w h) (layout_of g) x0 y0 w' h' /\
       forall x y, 0 <= x < w' -> 0 <= y < h' ->
         layout_of g' (x, y) = unfill (layout_of g (x + x0, y + y0))).
Proof. exact (blueprint_round_trip l w h g). Qed.

(** When the layout touches all four sides and has no filler, the import is the
    layout itself. *)
Theorem C21_identity l w h g :
  rect (Z.to_nat h) (Z.to_nat w) g -> 0 < w -> 0 < h ->
  (forall p, inside (closed w h) p -> blueprintable (layout_of g p)) ->
  splitters_paired (closed w h) (layout_of g) ->
  inputs_inferred (closed w h) (layout_of g) ->
  (forall p, inside (closed w h) p -> layout_of g p <> Filler) ->
  bounding_box (closed w h) (layout_of g) 0 0 w h ->
  exists es, make_blueprint l g = Some es /\ import_blueprint es = Some g.
Proof.
  intros R Hw Hh HB HS HI HF HX.
  destruct (blueprint_round_trip l w h g R Hw Hh HB HS HI) as (es & E & _ & H). exists es. split; [exact E|].
  destruct HX as (X1 & (y1 & X2) & (y2 & X3) & (x1 & X4) & (x2 & X5)).
  destruct H as (x0 & y0 & w' & h' & g' & Ei & Hw' & Hh' & R' & BB & HG); [eexists; exact X2|].
  destruct BB as (B1 & (z1 & B2) & (z2 & B3) & (z3 & B4) & (z4 & B5)).
  assert (x0 = 0 /\ y0 = 0 /\ w' = w /\ h' = h) as (-> & -> & -> & ->).
  { pose proof (B1 _ _ (proj1 X2) (proj2 X2)). pose proof (B1 _ _ (proj1 X3) (proj2 X3)).
    pose proof (B1 _ _ (proj1 X4) (proj2 X4)). pose proof (B1 _ _ (proj1 X5) (proj2 X5)).
    pose proof (X1 _ _ (proj1 B2) (proj2 B2)). pose proof (X1 _ _ (proj1 B3) (proj2 B3)).
    pose proof (X1 _ _ (proj1 B4) (proj2 B4)). pose proof (X1 _ _ (proj1 B5) (proj2 B5)). lia. }
  rewrite Ei. f_equal. apply (rect_ext Empty _ _ _ _ R' R). intros y x Hy Hx.
  specialize (HG (Z.of_nat x) (Z.of_nat y) ltac:(lia) ltac:(lia)). rewrite !Z.add_0_r in HG.
  specialize (HF (Z.of_nat x, Z.of_nat y)). unfold layout_of in HG, HF. cbn [fst snd] in HG, HF. rewrite !Nat2Z.id in HG, HF.
  unfold gg. rewrite HG. destruct (nth x (nth y g []) Empty); try reflexivity.
  exfalso. apply HF; [|reflexivity]. unfold inside. cbn. lia.
Qed.

(** In a valid layout the input of every belt is the one Factorio infers,
    provided belts fed from outside the area are straight; so every such
    solver output survives the round trip. *)
Theorem C21_valid_layouts L w h T : valid_layout (closed w h) T L ->
  (forall p i o, inside (closed w h) p -> T p = Belt i o ->
     neighbour (closed w h) p (opposite i) = None -> i = o) ->
  inputs_inferred (closed w h) T.
Proof.
  intros (_ & _ & R3 & R4 & R5 & _) HE p i o Hp Tp.
  assert (U : forall d, fed_from (closed w h) T p d -> d = i).
  { intros d (q & Hq & HP). apply closed_neighbour in Hq. destruct Hq as [-> Hi].
    assert (Hn : neighbour (closed w h) (fst p + step_x (opposite d), snd p + step_y (opposite d)) d = Some p).
    { apply closed_neighbour. split; [|exact Hp]. destruct p, d; cbn; f_equal; lia. }
    destruct (T (fst p + step_x (opposite d), snd p + step_y (opposite d))) eqn:Eq; cbn in HP; try contradiction; subst.
    - assert (takes (T p) d); [|rewrite Tp in *; cbn in *; congruence].
      eapply R3; [exact Hi|rewrite Eq; reflexivity|rewrite Eq; intros []|exact Hn].
    - destruct entrance; [contradiction|]. subst.
      assert (takes (T p) d); [|rewrite Tp in *; cbn in *; congruence].
      eapply R3; [exact Hi|rewrite Eq; reflexivity|rewrite Eq; intros []|exact Hn].
    - symmetry. eapply R5; [exact Hi|exact Eq|exact Hn|exact Tp]. }
  destruct (neighbour (closed w h) p (opposite i)) as [q|] eqn:En.
  - left. split; [|exact U]. exists q. split; [exact En|].
    eapply R4; [exact Hp|rewrite Tp; reflexivity|rewrite Tp; intros []|exact En].
  - right. split; [eapply HE; eassumption|]. intros (d & Hd & _).
    rewrite (U d Hd) in Hd. destruct Hd as (q & Hq & _). congruence.
Qed.

(** A 4 x 3 layout with an empty last row: a splitter facing right, a tunnel, and a curve. *)
Definition sample_blueprint : list (list tile) :=
  [[Empty; Splitter RIGHT false; Underground RIGHT true; Empty];
   [Belt RIGHT RIGHT; Splitter RIGHT true; Belt RIGHT UP; Empty];
   [Filler; Empty; Empty; Empty]].

Lemma small_cells w h p : inside (closed w h) p -> In p (cells w h).
Proof. intros H. apply cells_in. exact H. Qed.

Example C21_example :
  rect 3 4 sample_blueprint /\
  (forall p, inside (closed 4 3) p -> blueprintable (layout_of sample_blueprint p)) /\
  splitters_paired (closed 4 3) (layout_of sample_blueprint) /\
  inputs_inferred (closed 4 3) (layout_of sample_blueprint) /\
  (let* es := make_blueprint FAST sample_blueprint in import_blueprint es) =
    Some [[Empty; Splitter RIGHT false; Underground RIGHT true];
          [Belt RIGHT RIGHT; Splitter RIGHT true; Belt RIGHT UP]].
Proof.
  split; [split; [reflexivity|repeat constructor]|].
  split.
  { intros p Hp. apply small_cells in Hp. cbn in Hp.
    repeat (destruct Hp as [<-|Hp]); try destruct Hp; cbn; try exact I; discriminate. }
  split.
  { intros p d hd Hp. apply small_cells in Hp. cbn in Hp.
    repeat (destruct Hp as [<-|Hp]); try destruct Hp; cbn; intros [= <- <-];
      (eexists; split; [reflexivity|reflexivity]). }
  split; [|reflexivity].
  intros p i o Hp. apply small_cells in Hp. cbn in Hp.
  repeat (destruct Hp as [<-|Hp]); try destruct Hp; cbn; intros [= <- <-].
  - right. split; [reflexivity|]. intros (d & (q & H1 & H2) & _).
    destruct d; cbn in H1; try discriminate H1; injection H1 as <-; cbn in H2; try contradiction; discriminate.
  - left. split.
    + exists (1, 1). split; reflexivity.
    + intros d (q & H1 & H2). destruct d; cbn in H1; try discriminate H1; injection H1 as <-; cbn in H2; try contradiction; try discriminate; reflexivity.
Qed.

(** * C22 *)
(** [ps] is the list of cells that get an entity, in order; [entity_for] spells
    out the name, half-integer centre (doubled), direction and type. *)
Theorem C22_entities l w h g :
  rect (Z.to_nat h) (Z.to_nat w) g -> 0 <= w -> 0 <= h ->
  (forall p, inside (closed w h) p -> match layout_of g p with Assembler _ _ => False | _ => True end) ->
  splitters_paired (closed w h) (layout_of g) ->
  exists es ps, make_blueprint l g = Some es /\
    map e_number es = map (Z.add 1) (zrange (Z.of_nat (List.length es))) /\
    Forall2 (fun p e => entity_for l p (layout_of g p) e) ps es /\
    (forall p, In p ps <-> inside (closed w h) p /\ has_entity (layout_of g p)) /\ NoDup ps /\
    NoDup (map (fun e => (e_x2 e, e_y2 e)) es).
Proof. exact (blueprint_entities l w h g). Qed.

(** An assembling machine cannot be exported: the code raises. *)
Theorem C22_machines_raise l w h g p x y :
  rect (Z.to_nat h) (Z.to_nat w) g -> 0 <= w -> 0 <= h ->
  inside (closed w h) p -> layout_of g p = Assembler x y -> make_blueprint l g = None.
Proof.
  intros R Hw Hh Hp Tp. unfold make_blueprint. rewrite (enum_grid_eq _ _ _ R), !Z2Nat.id by lia.
  assert (H : In (p, Assembler x y) (map (fun p => (p, layout_of g p)) (cells w h))).
  { apply in_map_iff. exists p. rewrite Tp. split; [reflexivity|apply cells_in; exact Hp]. }
  revert H. generalize (map (fun p => (p, layout_of g p)) (cells w h)) as cs. generalize 1 as n.
  intros n cs. revert n. induction cs as [|c cs IH]; intros n; [intros []|].
  cbn [In make_entities]. intros [->|H].
  - destruct p. reflexivity.
  - destruct (tile_entity l n c) as [[e|]|]; cbn [obind]; [|apply IH; exact H|reflexivity].
    rewrite IH by exact H. reflexivity.
Qed.

Example C22_example :
  make_blueprint NORMAL [[Belt RIGHT RIGHT; Splitter UP false; Splitter UP true]] = Some
   [ {| e_number := 1; e_x2 := 1; e_y2 := 1; e_name := Some "transport-belt"; e_direction := Some 2; e_type := None |};
     {| e_number := 2; e_x2 := 4; e_y2 := 1; e_name := Some "splitter"; e_direction := None; e_type := None |} ].
Proof. reflexivity. Qed.

(** * C23: refuted *)
(** A blueprint of two belts that face each other is never imported: the code
    tries to build a belt that turns back on itself. *)
Theorem C23_facing_refuted l m x y d :
  import_blueprint [belt_entity l 1 x y d; belt_entity m 2 (x + step_x d) (y + step_y d) (opposite d)] = None.
Proof.
  unfold import_blueprint. cbn [import_entities]. rewrite !import_belt. cbn [obind import_entities].
  cbn [obind app map min_list max_list fold_left fst snd].
  set (mx := Z.min _ _). set (my := Z.min _ _).
  destruct d; cbn [opposite step_x step_y] in *.
  - assert (mx = x) by (unfold mx; lia). assert (my = y) by (unfold my; lia).
    replace (x + 1 - mx) with 1 by lia. replace (x - mx) with 0 by lia.
    replace (y + 0 - my) with 0 by lia. replace (y - my) with 0 by lia. reflexivity.
  - assert (mx = x) by (unfold mx; lia). assert (my = y + -1) by (unfold my; lia).
    replace (x + 0 - mx) with 0 by lia. replace (x - mx) with 0 by lia.
    replace (y + -1 - my) with 0 by lia. replace (y - my) with 1 by lia. reflexivity.
  - assert (mx = x + -1) by (unfold mx; lia). assert (my = y) by (unfold my; lia).
    replace (x + -1 - mx) with 0 by lia. replace (x - mx) with 1 by lia.
    replace (y + 0 - my) with 0 by lia. replace (y - my) with 0 by lia. reflexivity.
  - assert (mx = x) by (unfold mx; lia). assert (my = y) by (unfold my; lia).
    replace (x + 0 - mx) with 0 by lia. replace (x - mx) with 0 by lia.
    replace (y + 1 - my) with 1 by lia. replace (y - my) with 0 by lia. reflexivity.
Qed.

(** What does hold: belts, no two of which face each other, are imported. *)
Theorem C23_accepts bs : bs <> [] ->
  (forall b c, In b bs -> In c bs -> dir_of c = opposite (dir_of b) ->
     cell_of c <> (fst (cell_of b) + step_x (dir_of b), snd (cell_of b) + step_y (dir_of b))) ->
  exists g, import_blueprint (map belt_of bs) = Some g.
Proof. exact (import_belts_some bs). Qed.

Example C23_example : import_blueprint (map belt_of [(NORMAL, 1, (5, 7), RIGHT); (NORMAL, 2, (6, 7), DOWN); (FAST, 3, (6, 6), LEFT)]) =
  Some [[Empty; Belt LEFT LEFT]; [Belt RIGHT RIGHT; Belt RIGHT DOWN]].
Proof. reflexivity. Qed.

(** * C24 *)
(** Packing gives each blueprint object its position as index, changes no other
    key, and unpacking returns exactly that list. *)
Lemma set_indices_spec bs : (forall b, In b bs -> exists o, b = JObj o) -> forall i,
  exists bs', set_indices i bs = Some bs' /\ List.length bs' = List.length bs /\
    forall n b, nth_error bs n = Some b -> exists b', nth_error bs' n = Some b' /\
      jget "index" b' = Some (JNum (i + Z.of_nat n)) /\ (forall k, k <> "index" -> jget k b' = jget k b).
Proof.
  induction bs as [|b bs IH]; intros H i; cbn [set_indices].
  - exists []. repeat split; auto. intros [|n] b; discriminate.
  - destruct (H b (or_introl eq_refl)) as [o ->]. cbn [jset obind].
    destruct (IH (fun b Hb => H b (or_intror Hb)) (i + 1)) as (bs' & -> & HL & HN). cbn [obind].
    eexists. split; [reflexivity|]. split; [cbn; congruence|].
    intros [|n] b Hb; cbn [nth_error] in *.
    + injection Hb as <-. eexists. split; [reflexivity|]. cbn [jget]. rewrite Z.add_0_r. split.
      * apply assoc_aset.
      * intros k Hk. apply assoc_aset_other. exact Hk.
    + destruct (HN n b Hb) as (b' & E & E1 & E2). exists b'. split; [exact E|]. split; [|exact E2].
      rewrite E1. do 2 f_equal. lia.
Qed.

Theorem C24_book bs label : (forall b, In b bs -> exists o, b = JObj o) ->
  exists book bs', pack_book bs label = Some book /\ unpack_book book = Some (JArr bs') /\
    List.length bs' = List.length bs /\
    forall n b, nth_error bs n = Some b -> exists b', nth_error bs' n = Some b' /\
      jget "index" b' = Some (JNum (Z.of_nat n)) /\ (forall k, k <> "index" -> jget k b' = jget k b).
Proof.
  intros H. destruct (set_indices_spec bs H 0) as (bs' & E & HL & HN).
  unfold pack_book. rewrite E. cbn [obind]. eexists. exists bs'. split; [reflexivity|]. split.
  - destruct label; reflexivity.
  - split; [exact HL|]. intros n b Hb. destruct (HN n b Hb) as (b' & ?). exists b'. exact H0.
Qed.

(** Packing what was unpacked from a packed book changes nothing. *)
Theorem C24_book_stable bs label book bs' : pack_book bs label = Some book -> unpack_book book = Some (JArr bs') ->
  pack_book bs' label = Some book.
Proof.
  unfold pack_book. destruct (set_indices 0 bs) as [l|] eqn:E; [|discriminate]. cbn [obind].
  intros [= <-] HU. assert (l = bs') as -> by (destruct label; cbn in HU; congruence).
  assert (S : forall bs i bs', set_indices i bs = Some bs' -> set_indices i bs' = Some bs').
  { clear. induction bs as [|b bs IH]; intros i bs'; cbn [set_indices]; [intros [= <-]; reflexivity|].
    destruct b as [| | | | |o]; try discriminate. cbn [jset obind].
    destruct (set_indices (i + 1) bs) as [r|] eqn:Er; [|discriminate]. cbn [obind]. intros [= <-].
    cbn [set_indices jset obind]. rewrite (IH _ _ Er). cbn [obind].
    assert (HA : aset "index" (JNum i) (aset "index" (JNum i) o) = aset "index" (JNum i) o); [|rewrite HA; reflexivity].
    clear. induction o as [|[k v] o IH]; [reflexivity|]. cbn [aset].
    destruct (String.eqb "index" k) eqn:Ek; cbn [aset]; [rewrite String.eqb_refl; reflexivity|].
    rewrite Ek, IH. reflexivity. }
  rewrite (S _ _ _ E). reflexivity.
Qed.

Example C24_book_example :
  (let* b := pack_book [JObj [("label", JStr "a")]; JObj [("index", JNum 7)]] (Some "x") in unpack_book b) =
  Some (JArr [JObj [("label", JStr "a"); ("index", JNum 0)]; JObj [("index", JNum 1)]]).
Proof. reflexivity. Qed.

Theorem C24_version a b c d :
  0 <= a < 65536 -> 0 <= b < 65536 -> 0 <= c < 65536 -> 0 <= d < 65536 ->
  exists v, encode_factorio_version a b c d = Some v /\
    v = a + 65536 * b + 65536 ^ 2 * c + 65536 ^ 3 * d /\
    decode_factorio_version v = Some (a, b, c, d).
Proof.
  intros Ha Hb Hc Hd. set (v := a + 65536 * b + 65536 ^ 2 * c + 65536 ^ 3 * d).
  assert (Hv : 0 <= v < 2 ^ 64) by (unfold v; lia).
  assert (F2 : forall x, 0 <= x < 65536 -> exists u t, pack_field 2 x = Some [u; t] /\ x = u + 256 * t).
  { intros x Hx. unfold pack_field. change (256 ^ Z.of_nat 2) with 65536.
    destruct (Z.leb_spec 0 x); [|lia]. destruct (Z.ltb_spec x 65536); [|lia]. cbn [andb le_bytes].
    rewrite (Z.mod_small (x / 256)) by (Z.div_mod_to_equations; lia).
    eexists. eexists. split; [reflexivity|]. rewrite Z.add_comm. apply Z.div_mod. lia. }
  exists v. unfold encode_factorio_version.
  destruct (F2 a Ha) as (a0 & a1 & -> & Ea), (F2 b Hb) as (b0 & b1 & -> & Eb),
    (F2 c Hc) as (c0 & c1 & -> & Ec), (F2 d Hd) as (d0 & d1 & -> & Ed). clear F2.
  cbn [obind app of_bytes]. split; [|split; [reflexivity|]].
  - f_equal. unfold v. lia.
  - unfold decode_factorio_version, pack_field. change (256 ^ Z.of_nat 8) with (2 ^ 64).
    destruct (Z.leb_spec 0 v); [|lia]. destruct (Z.ltb_spec v (2 ^ 64)); [|lia].
    cbn [andb obind le_bytes firstn skipn Nat.mul Nat.add of_bytes].
    assert (P : forall x, x mod 256 + 256 * ((x / 256) mod 256 + 256 * 0) = x mod 65536).
    { intros x. rewrite Z.mul_0_r, Z.add_0_r. change 65536 with (256 * 256).
      rewrite Z.rem_mul_r by lia. reflexivity. }
    assert (Q : forall x, x / 256 / 256 = x / 65536) by (intros x; rewrite Z.div_div by lia; reflexivity).
    assert (S : forall x y, 0 <= x < 65536 -> (x + 65536 * y) / 65536 = y /\ (x + 65536 * y) mod 65536 = x).
    { intros x y Hx. split.
      - symmetry. apply (Z.div_unique _ _ _ x); [left; exact Hx|lia].
      - symmetry. apply (Z.mod_unique _ _ y); [left; exact Hx|lia]. }
    rewrite !Q, !P. clear P Q Ea Eb Ec Ed.
    replace v with (a + 65536 * (b + 65536 * (c + 65536 * (d + 65536 * 0)))) by (unfold v; lia).
    destruct (S a (b + 65536 * (c + 65536 * (d + 65536 * 0))) Ha) as [-> ->].
    destruct (S b (c + 65536 * (d + 65536 * 0)) Hb) as [-> ->].
    destruct (S c (d + 65536 * 0) Hc) as [-> ->].
    destruct (S d 0 Hd) as [_ ->]. reflexivity.
Qed.

(** And back: every 64-bit number is the code of the version it decodes to. *)
Theorem C24_version_inverse v : 0 <= v < 2 ^ 64 ->
  exists a b c d, decode_factorio_version v = Some (a, b, c, d) /\ encode_factorio_version a b c d = Some v.
Proof.
  intros Hv.
  destruct (C24_version (v mod 65536) (v / 65536 mod 65536) (v / 65536 / 65536 mod 65536) (v / 65536 / 65536 / 65536 mod 65536))
    as (v' & E & Ev & D); try (apply Z.mod_pos_bound; lia).
  assert (v' = v).
  { rewrite Ev.
    rewrite (Z.mod_small (v / 65536 / 65536 / 65536)).
    - pose proof (Z.div_mod v 65536 ltac:(lia)). pose proof (Z.div_mod (v / 65536) 65536 ltac:(lia)).
      pose proof (Z.div_mod (v / 65536 / 65536) 65536 ltac:(lia)). clear -H H0 H1.
      change (65536 ^ 2) with (65536 * 65536). change (65536 ^ 3) with (65536 * 65536 * 65536).
      revert H H0 H1. generalize (v / 65536 / 65536 / 65536), (v / 65536 / 65536 mod 65536), (v / 65536 mod 65536), (v mod 65536).
      generalize (v / 65536 / 65536). generalize (v / 65536). intros. lia.
    - rewrite !Z.div_div by lia. split; [apply Z.div_pos; lia|]. apply Z.div_lt_upper_bound; lia. }
  clear Ev.   rewrite H in E, D. do 4 eexists. split; [exact D|exact E].
Qed.

Example C24_version_example : encode_factorio_version 1 1 0 0 = Some 65537 /\ decode_factorio_version 281474976710656 = Some (0, 0, 0, 1).
Proof. split; reflexivity. Qed.

Print Assumptions C21_round_trip.
Print Assumptions C21_identity.
Print Assumptions C21_valid_layouts.
Print Assumptions C22_entities.
Print Assumptions C22_machines_raise.
Print Assumptions C23_facing_refuted.
Print Assumptions C23_accepts.
Print Assumptions C24_book.
Print Assumptions C24_book_stable.
Print Assumptions C24_version.
Print Assumptions C24_version_inverse.
