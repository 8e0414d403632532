(** Proofs about network.py: files, flipping and colour clean-up. *)
From Coq Require Import String Ascii ZArith List Bool Lia Permutation Sorted DecimalString DecimalZ.
From Verif Require Import M_Json M_Dict P_Dict M_Solve P_Solve M_Network Spec_Network P_Network P_Benes.
Import ListNotations.
Local Open Scope string_scope.
Open Scope Z_scope.

(** * Text *)
Lemma split_lstrip s : split (lstrip s) = split s.
Proof. unfold split. induction s as [|c s IH]; cbn; [reflexivity|]. destruct (is_space c) eqn:E; [exact IH|]. cbn. rewrite E. reflexivity. Qed.
Lemma rstrip_blank s : rstrip s = "" -> blank s.
Proof.
  unfold blank. induction s as [|c s IH]; cbn; [reflexivity|]. destruct (rstrip s) eqn:E; [|discriminate].
  destruct (is_space c); [|discriminate]. intros _. apply IH. reflexivity.
Qed.
Lemma split_rstrip s : forall w, split_words w (rstrip s) = split_words w s.
Proof.
  induction s as [|c s IH]; intros w; cbn [rstrip]; [reflexivity|].
  destruct (rstrip s) as [|d r] eqn:E.
  - pose proof (rstrip_blank s E) as B. destruct (is_space c) eqn:C.
    + cbn. rewrite C. rewrite (split_blank s B). destruct w; reflexivity.
    + cbn. rewrite C. rewrite (split_blank s B). reflexivity.
  - set (t := String d r) in *. clearbody t. cbn [split_words]. rewrite !IH. reflexivity.
Qed.
Lemma split_strip s : split (strip s) = split s.
Proof. unfold strip, split. rewrite split_rstrip. apply split_lstrip. Qed.
Lemma lstrip_blank_app pre s : blank pre -> lstrip (pre ++ s) = lstrip s.
Proof. unfold blank. induction pre as [|c pre IH]; cbn; [reflexivity|]. destruct (is_space c); [|discriminate]. exact IH. Qed.
Lemma strip_first pre c r : blank pre -> is_space c = false -> exists r', strip (pre ++ String c r) = String c r'.
Proof.
  intros B C. unfold strip. rewrite lstrip_blank_app by exact B. cbn [lstrip]. rewrite C. cbn [rstrip].
  destruct (rstrip r); [rewrite C|]; eexists; reflexivity.
Qed.
Lemma strip_blank s : blank s -> strip s = "".
Proof. intros B. unfold strip. replace s with (s ++ "") by apply string_app_nil. rewrite lstrip_blank_app by exact B. reflexivity. Qed.

(** The lines of a network file: comments and blank lines anywhere, and one line
    per splitter with its four colours, spaced out freely. *)
Definition one_line (s : string) : Prop := all_chars (fun c => negb (Ascii.eqb c newline)) s = true.
Inductive file_lines : network -> list string -> Prop :=
| lines_end : file_lines [] []
| lines_blank net s ls : one_line s -> blank s -> file_lines net ls -> file_lines net (s :: ls)
| lines_comment net pre s ls : one_line (pre ++ String "#" s) -> blank pre -> file_lines net ls ->
    file_lines net ((pre ++ String "#" s) :: ls)
| lines_splitter a b c d net pre s ls : one_line (pre ++ decimal (to_number a) ++ s) -> blank pre ->
    values_text [to_number b; to_number c; to_number d] s -> file_lines net ls ->
    file_lines (((a, b), (c, d)) :: net) ((pre ++ decimal (to_number a) ++ s) :: ls).

Definition usable (c : colour) : Prop := c <> Some (-1).
Lemma of_to_number c : usable c -> of_number (to_number c) = c.
Proof. destruct c as [x|]; cbn; [|reflexivity]. unfold usable, of_number. intros H. destruct (Z.eqb_spec x (-1)); congruence. Qed.

Definition line_text (s : string) : string := (s ++ String newline EmptyString).
Lemma space_newline : is_space newline = true. Proof. reflexivity. Qed.
Lemma blank_app a b : blank a -> blank b -> blank (a ++ b).
Proof. unfold blank. induction a as [|c a IH]; cbn; [auto|]. destruct (is_space c); [|discriminate]. exact IH. Qed.
Lemma values_text_blank vs s t : values_text vs s -> blank t -> values_text vs (s ++ t).
Proof.
  induction 1 as [s B|sep z r s B N V IH]; intros T.
  - constructor. apply blank_app; assumption.
  - rewrite !string_app_assoc. constructor; auto.
Qed.
Lemma first_value a vs pre s : blank pre -> values_text vs s -> split (pre ++ decimal a ++ s) = map decimal (a :: vs).
Proof.
  intros B V. unfold split. destruct (decimal_solid a) as [Sa Na]. cbn [map].
  assert (split_words "" (decimal a ++ s) = decimal a :: map decimal vs) as E.
  { rewrite (split_solid _ Sa), (split_values vs s V). cbn [append]. destruct (decimal a); [congruence|reflexivity]. }
  destruct pre as [|c pre]; [exact E|]. rewrite (split_sep (String c pre) B ltac:(discriminate)). cbn [word_of app]. exact E.
Qed.
Lemma first_char a s : exists c r, decimal a ++ s = String c r /\ is_space c = false /\ Ascii.eqb c "#" = false.
Proof.
  assert (G : forall d, exists c r, NilZero.string_of_uint d = String c r /\ is_space c = false /\ Ascii.eqb c "#" = false).
  { intros d. destruct d; cbn; eexists _, _; repeat split; reflexivity. }
  unfold decimal, NilZero.string_of_int. destruct (Z.to_int a) as [d|d].
  - destruct (G d) as (c & r & -> & H1 & H2). exists c, (r ++ s). auto.
  - cbn. eexists _, _. repeat split; reflexivity.
Qed.

Lemma open_lines_file tail : (forall s, blank (tail s)) -> forall net ls, file_lines net ls ->
  Forall (fun n : splitter => usable (fst (fst n)) /\ usable (snd (fst n)) /\ usable (fst (snd n)) /\ usable (snd (snd n))) net ->
  open_lines (map (fun s => s ++ tail s) ls) = Some net.
Proof.
  intros T. induction 1 as [|net s ls O B FL IH|net pre s ls O B FL IH|a b c d net pre s ls O B V FL IH]; intros U; cbn [map open_lines].
  - reflexivity.
  - rewrite strip_blank by (apply blank_app; auto). auto.
  - rewrite string_app_assoc. cbn [append]. destruct (strip_first pre "#" (s ++ tail (pre ++ String "#" s)) B eq_refl) as (r & ->). cbn [Ascii.eqb Bool.eqb]. auto.
  - inversion U; subst. destruct H1 as (U1 & U2 & U3 & U4). cbn [fst snd] in *.
    set (t := tail _). assert (Bt : blank t) by apply T. clearbody t. rewrite !string_app_assoc.
    assert (V' := values_text_blank _ _ t V Bt).
    pose proof (first_value (to_number a) _ pre (s ++ t) B V') as Sp. rewrite <- split_strip in Sp.
    destruct (first_char (to_number a) (s ++ t)) as (x & r & E & X1 & X2).
    destruct (strip_first pre x r B X1) as (r' & Es). rewrite E in *. rewrite Es in *. cbn zeta iota. rewrite X2, Sp.
    rewrite omap_decimal. cbn [obind map]. rewrite !of_to_number by assumption. rewrite IH by assumption. reflexivity.
Qed.

Lemma readlines_line s t : one_line s -> readlines (s ++ String newline t) = line_text s :: readlines t.
Proof.
  unfold one_line, line_text. induction s as [|c s IH]; cbn [all_chars append readlines]; intros H.
  - rewrite Ascii.eqb_refl. reflexivity.
  - apply andb_prop in H. destruct H as [H1 H2]. rewrite (IH H2). destruct (Ascii.eqb c newline); [discriminate|]. reflexivity.
Qed.
Lemma readlines_last s : one_line s -> s <> "" -> readlines s = [s].
Proof.
  unfold one_line. induction s as [|c s IH]; cbn [all_chars readlines]; intros H N; [congruence|].
  apply andb_prop in H. destruct H as [H1 H2]. destruct (Ascii.eqb c newline); [discriminate|].
  destruct s as [|d s]; [reflexivity|]. rewrite IH; [reflexivity|exact H2|discriminate].
Qed.
Lemma readlines_all ls t : Forall one_line ls -> readlines (String.concat "" (map line_text ls) ++ t) = (map line_text ls ++ readlines t)%list.
Proof.
  assert (C : forall l r, String.concat "" (l :: r) = l ++ String.concat "" r).
  { intros l [|x r]; cbn; [rewrite string_app_nil; reflexivity|reflexivity]. }
  induction 1 as [|s ls H F IH]; [reflexivity|]. cbn [map]. rewrite C. unfold line_text at 1. rewrite !string_app_assoc. cbn [append].
  rewrite (readlines_line s _ H), IH. reflexivity.
Qed.
Lemma file_lines_one net ls : file_lines net ls -> Forall one_line ls.
Proof. induction 1; constructor; assumption. Qed.

Lemma all_chars_app f a b : all_chars f (a ++ b) = all_chars f a && all_chars f b.
Proof. induction a as [|c a IH]; cbn; [reflexivity|]. rewrite IH. apply andb_assoc. Qed.
Lemma solid_one s : solid s -> one_line s.
Proof.
  unfold solid, one_line. induction s as [|c s IH]; cbn [all_chars]; [reflexivity|]. intros H. apply andb_prop in H. destruct H as [H1 H2].
  rewrite (IH H2). destruct (Ascii.eqb_spec c newline) as [->|]; [discriminate|reflexivity].
Qed.

(** The lines save_network writes. *)
Definition saved_line (n : splitter) : string :=
  "" ++ decimal (to_number (fst (fst n))) ++ (" " ++ decimal (to_number (snd (fst n))) ++ (" " ++ decimal (to_number (fst (snd n))) ++ (" " ++ decimal (to_number (snd (snd n))) ++ ""))).
Lemma save_lines net : save_network net = String.concat "" (map line_text (map saved_line net)).
Proof.
  unfold save_network. rewrite map_map. f_equal. apply map_ext. intros n. unfold splitter_line_text, line_text, saved_line, str_int, decimal.
  repeat (cbn [append]; rewrite string_app_assoc). reflexivity.
Qed.
Lemma saved_file net : file_lines net (map saved_line net).
Proof.
  induction net as [|[[a b] [c d]] net IH]; cbn [map]; [constructor|]. unfold saved_line at 1. cbn [fst snd].
  apply lines_splitter; [|reflexivity| |exact IH].
  - unfold one_line. cbn [append]. repeat (rewrite all_chars_app || cbn [append all_chars]).
    assert (D : forall n, all_chars (fun c => negb (Ascii.eqb c newline)) (decimal n) = true) by (intros n; apply solid_one, decimal_solid).
    rewrite !D. reflexivity.
  - repeat (constructor; [reflexivity|discriminate|]). constructor. reflexivity.
Qed.

(** * Flipping *)
Lemma flip_counts net c : consumed (flip_network net) c = produced net c /\ produced (flip_network net) c = consumed net c.
Proof.
  induction net as [|[[a b] [d e]] net [IH1 IH2]]; [split; reflexivity|]. cbn [flip_network map]. fold (flip_network net).
  rewrite !consumed_cons, !produced_cons, IH1, IH2. auto.
Qed.

(** * Colour clean-up *)
Lemma number_from_spec cs : NoDup cs -> forall i d x,
  dget Z.eqb x (number_from i cs d) = match index x cs with Some k => Some (i + k) | None => dget Z.eqb x d end.
Proof.
  induction 1 as [|c cs Hc N IH]; intros i d x; cbn [number_from index]; [reflexivity|].
  rewrite IH, (dget_dset Z.eqb Z.eqb_spec). destruct (Z.eqb_spec x c) as [->|].
  - rewrite (proj2 (index_none c cs) Hc). f_equal. lia.
  - destruct (index x cs); [f_equal; lia|reflexivity].
Qed.
Lemma number_from_nodup cs : forall i d, NoDup (map fst d) -> NoDup (map fst (number_from i cs d)).
Proof. induction cs as [|c cs IH]; intros i d N; cbn; [exact N|]. apply IH. apply (dset_nodup Z.eqb Z.eqb_spec). exact N. Qed.
Lemma number_from_keys cs : forall i d x, In x (map fst (number_from i cs d)) <-> In x cs \/ In x (map fst d).
Proof.
  induction cs as [|c cs IH]; intros i d x; cbn; [tauto|]. rewrite IH, (dset_keys Z.eqb Z.eqb_spec). intuition congruence.
Qed.
Lemma mem_in x l : mem x l = true <-> In x l.
Proof. unfold mem. rewrite existsb_exists. split; [intros (y & H & E); apply Z.eqb_eq in E; congruence|intros H; exists x; rewrite Z.eqb_refl; auto]. Qed.
Lemma minus_in x a b : In x (set_minus a b) <-> In x a /\ ~ In x b.
Proof. unfold set_minus. rewrite filter_In, negb_true_iff, <- (mem_in x b). destruct (mem x b); intuition discriminate. Qed.
Lemma inter_in x a b : In x (set_inter a b) <-> In x a /\ In x b.
Proof. unfold set_inter. rewrite filter_In, mem_in. reflexivity. Qed.
Lemma union_in x a b : In x (set_union a b) <-> In x a \/ In x b.
Proof.
  unfold set_union. rewrite in_app_iff, minus_in. destruct (in_dec Z.eq_dec x a); tauto.
Qed.
Lemma set_nodup l : NoDup (set_of l). Proof. apply NoDup_nodup. Qed.
Lemma partition_length (a : list Z) f : (length (filter f a) + length (filter (fun x => negb (f x)) a) = length a)%nat.
Proof. induction a as [|x a IH]; cbn; [reflexivity|]. destruct (f x); cbn; lia. Qed.
Lemma input_set_in net c : In c (input_set net) <-> 0 < consumed net c.
Proof. unfold input_set, set_of. rewrite nodup_In, present_in. symmetry. apply (occurs_in c (input_slots net)). Qed.
Lemma output_set_in net c : In c (output_set net) <-> 0 < produced net c.
Proof. unfold output_set, set_of. rewrite nodup_In, present_in. symmetry. apply (occurs_in c (output_slots net)). Qed.
Lemma colours_in net c : In c (colours_of net) <-> 0 < consumed net c \/ 0 < produced net c.
Proof.
  unfold colours_of. rewrite present_in, in_app_iff. unfold consumed, produced. rewrite !occurs_in. reflexivity.
Qed.

Section Fix.
  Variables (order : list Z -> list Z) (net : network).
  Hypothesis perm : forall l, Permutation (order l) l.
  Let ins := input_set net.
  Let outs := output_set net.
  Let all := set_union ins outs.
  Let only_in := set_minus ins outs.
  Let both := set_inter ins outs.
  Let only_out := set_minus outs ins.

  Lemma order_in l x : In x (order l) <-> In x l.
  Proof using perm. split; apply Permutation_in; [apply perm|apply Permutation_sym, perm]. Qed.
  Lemma order_length l : length (order l) = length l.
  Proof using perm. apply Permutation_length, perm. Qed.
  Lemma order_nodup l : NoDup l -> NoDup (order l).
  Proof using perm. apply Permutation_NoDup, Permutation_sym, perm. Qed.

  Lemma all_length : (length all = length only_in + length both + length only_out)%nat.
  Proof using.
    unfold all, set_union. rewrite app_length. fold only_out. pose proof (partition_length ins (fun x => mem x outs)) as P.
    unfold only_in, both, set_inter, set_minus. lia.
  Qed.
  Lemma all_nodup : NoDup all.
  Proof using.
    unfold all, set_union. pose proof (set_nodup (present (input_slots net))) as N1. pose proof (set_nodup (present (output_slots net))) as N2.
    fold (input_set net) in N1. fold (output_set net) in N2. fold ins in N1. fold outs in N2. clear -N1 N2.
    assert (N3 : NoDup (set_minus outs ins)) by (apply NoDup_filter; exact N2).
    assert (D : forall x, In x ins -> ~ In x (set_minus outs ins)) by (intros x H C; apply minus_in in C; tauto).
    revert D. generalize (set_minus outs ins) N3. clear N2 N3. intros l Nl. induction N1 as [|x s Hx N IH]; intros D; cbn; [exact Nl|].
    constructor; [rewrite in_app_iff; intros [C|C]; [contradiction|apply (D x); [left; reflexivity|exact C]]|]. apply IH. intros y Hy. apply D. right. exact Hy.
  Qed.
  Lemma only_in_nodup : NoDup only_in. Proof using. apply NoDup_filter, set_nodup. Qed.
  Lemma both_nodup : NoDup both. Proof using. apply NoDup_filter, set_nodup. Qed.
  Lemma only_out_nodup : NoDup only_out. Proof using. apply NoDup_filter, set_nodup. Qed.

  Lemma fix_map_eq : fix_map order net =
    number_from (Z.of_nat (length only_in)) (order both)
      (number_from (Z.of_nat (length only_in + length both)) (order only_out) (number_from 0 (order only_in) [])).
  Proof using perm.
    unfold fix_map. fold ins outs. fold all only_in both only_out.
    rewrite !firstn_all2; [reflexivity| |]; rewrite order_length, all_length; lia.
  Qed.
  Definition new_colour (x : Z) : Z :=
    match index x (order both) with
    | Some k => Z.of_nat (length only_in) + k
    | None => match index x (order only_out) with
              | Some k => Z.of_nat (length only_in + length both) + k
              | None => match index x (order only_in) with Some k => k | None => -1 end
              end
    end.
  Lemma index_some x l : In x l -> exists k, index x l = Some k.
  Proof using. intros H. destruct (index x l) as [k|] eqn:E; [eauto|]. apply index_none in E. contradiction. Qed.
  Lemma classes x : In x all -> (In x only_in /\ ~ In x both /\ ~ In x only_out) \/ (In x both /\ ~ In x only_in /\ ~ In x only_out) \/ (In x only_out /\ ~ In x only_in /\ ~ In x both).
  Proof using.
    intros H. apply union_in in H. unfold only_in, both, only_out. rewrite !minus_in, !inter_in.
    destruct (in_dec Z.eq_dec x ins), (in_dec Z.eq_dec x outs); tauto.
  Qed.
  (** Where the new colour of [x] lies. *)
  Lemma new_colour_place x : In x all ->
    (In x only_in /\ exists k, index x (order only_in) = Some k /\ new_colour x = k /\ 0 <= k < Z.of_nat (length only_in)) \/
    (In x both /\ exists k, index x (order both) = Some k /\ new_colour x = Z.of_nat (length only_in) + k /\ 0 <= k < Z.of_nat (length both)) \/
    (In x only_out /\ exists k, index x (order only_out) = Some k /\ new_colour x = Z.of_nat (length only_in) + Z.of_nat (length both) + k /\ 0 <= k < Z.of_nat (length only_out)).
  Proof using perm.
    assert (NI : forall l, ~ In x l -> index x (order l) = None) by (intros l H; apply index_none; rewrite order_in; exact H).
    assert (YI : forall l, In x l -> exists k, index x (order l) = Some k /\ 0 <= k < Z.of_nat (length l)).
    { intros l H. destruct (index_some x (order l)) as (k & E); [apply order_in; exact H|]. exists k. split; [exact E|].
      apply index_range in E. rewrite order_length in E. exact E. }
    intros H. unfold new_colour. destruct (classes x H) as [(H1 & H2 & H3)|[(H1 & H2 & H3)|(H1 & H2 & H3)]].
    - left. split; [exact H1|]. destruct (YI _ H1) as (k & E & R). exists k. rewrite (NI _ H2), (NI _ H3), E. auto.
    - right. left. split; [exact H1|]. destruct (YI _ H1) as (k & E & R). exists k. rewrite E. auto.
    - right. right. split; [exact H1|]. destruct (YI _ H1) as (k & E & R). exists k. rewrite (NI _ H3), E, Nat2Z.inj_add. auto.
  Qed.
  Lemma new_colour_inj x y : In x all -> In y all -> new_colour x = new_colour y -> x = y.
  Proof using perm.
    intros Hx Hy E. destruct (new_colour_place x Hx) as [(_ & k & I & Ek & R)|[(_ & k & I & Ek & R)|(_ & k & I & Ek & R)]];
    destruct (new_colour_place y Hy) as [(_ & j & J & Ej & R')|[(_ & j & J & Ej & R')|(_ & j & J & Ej & R')]]; try lia;
    eapply index_inj; [exact I| |exact I| |exact I|]; rewrite J; f_equal; lia.
  Qed.
  Lemma all_colours x : In x (colours_of net) <-> In x all.
  Proof using. unfold all. rewrite union_in. unfold ins, outs. rewrite input_set_in, output_set_in. apply colours_in. Qed.

  Theorem fix_colours_total : fix_colours order net = Some (rename new_colour net).
  Proof using perm.
    unfold fix_colours. fold ins outs. fold all.
    assert (K : forall x, In x (map fst (fix_map order net)) <-> In x all).
    { intros x. rewrite fix_map_eq, !number_from_keys, !order_in. cbn [map In]. split.
      - unfold all. rewrite union_in. unfold both, only_in, only_out. rewrite !minus_in, inter_in. tauto.
      - intros H. destruct (classes x H) as [H'|[H'|H']]; tauto. }
    assert (N : NoDup (map fst (fix_map order net))) by (rewrite fix_map_eq; repeat apply number_from_nodup; constructor).
    assert (L : length (fix_map order net) = length all).
    { rewrite <- (map_length fst). apply Permutation_length. apply NoDup_Permutation; [exact N|apply all_nodup|exact K]. }
    rewrite L, Nat.eqb_refl. f_equal. apply remap_rename. intros c Hc. apply all_colours in Hc.
    rewrite fix_map_eq, !number_from_spec by (apply order_nodup; first [apply only_in_nodup|apply both_nodup|apply only_out_nodup]).
    unfold new_colour. destruct (index c (order both)) eqn:E1; [reflexivity|]. destruct (index c (order only_out)) eqn:E2; [reflexivity|].
    destruct (index c (order only_in)) eqn:E; [reflexivity|]. exfalso.
    destruct (new_colour_place c Hc) as [(H & k & I & _)|[(H & k & I & _)|(H & k & I & _)]]; congruence.
  Qed.
End Fix.

(** * deduplicate_network and tidy_network *)
Notation same_side := same_belts (only parsing).
Notation same_splitter := same_node (only parsing).

Lemma colour_eqb_spec a b : reflect (a = b) (colour_eqb a b).
Proof. destruct a as [x|], b as [y|]; cbn; try (constructor; congruence). destruct (Z.eqb_spec x y); constructor; congruence. Qed.
Lemma side_eqb_spec a b : reflect (a = b) (side_eqb a b).
Proof.
  destruct a as [a1 a2], b as [b1 b2]. unfold side_eqb. cbn. destruct (colour_eqb_spec a1 b1), (colour_eqb_spec a2 b2); cbn; constructor; congruence.
Qed.
Lemma splitter_eqb_spec a b : reflect (a = b) (splitter_eqb a b).
Proof.
  destruct a as [a1 a2], b as [b1 b2]. unfold splitter_eqb. cbn. destruct (side_eqb_spec a1 b1), (side_eqb_spec a2 b2); cbn; constructor; congruence.
Qed.
Lemma sort_side_same s t : same_side s t <-> sort_side s = sort_side t.
Proof.
  destruct s as [a b], t as [c d]. unfold same_belts, sort_side. cbn [fst snd].
  assert (T : forall x y, colour_le x y = false -> colour_le y x = true).
  { intros [x|] [y|]; cbn; try congruence. rewrite Z.leb_gt, Z.leb_le. lia. }
  assert (AS : forall x y, colour_le x y = true -> colour_le y x = true -> x = y).
  { intros [x|] [y|]; cbn; try congruence. rewrite !Z.leb_le. intros. f_equal. lia. }
  destruct (colour_le a b) eqn:E1, (colour_le c d) eqn:E2; split; intros H; try (destruct H as [H|H]; injection H as -> ->; auto); try (injection H as -> ->; auto).
  all: try (f_equal; auto using eq_sym; fail); try congruence.
  all: try (rewrite (AS _ _ E1 E2); reflexivity).
Qed.
Lemma same_sorted a b : same_splitter a b <-> sort_sides a = sort_sides b.
Proof.
  unfold same_node, sort_sides. rewrite !sort_side_same. split; [intros [-> ->]; reflexivity|]. intros [= -> ->]. auto.
Qed.
Lemma sort_side_idem s : sort_side (sort_side s) = sort_side s.
Proof. symmetry. apply sort_side_same. unfold sort_side, same_belts. destruct (colour_le (fst s) (snd s)); auto. Qed.

Definition amount (d : list (splitter * Z)) (s : splitter) : Z := match dget splitter_eqb s d with Some k => k | None => 0 end.
Lemma count_fold l : forall d, NoDup (map fst d) ->
  NoDup (map fst (fold_left count_one l d)) /\
  (forall s, amount (fold_left count_one l d) s = amount d s + Z.of_nat (length (filter (splitter_eqb s) l))) /\
  (forall s, In s (map fst (fold_left count_one l d)) <-> In s (map fst d) \/ In s l).
Proof.
  induction l as [|x l IH]; intros d N; cbn [fold_left filter length].
  - repeat split; try tauto; try (intros; lia). cbn. tauto.
  - destruct (IH (count_one d x)) as (I1 & I2 & I3); [apply (dset_nodup splitter_eqb splitter_eqb_spec); exact N|].
    split; [exact I1|]. split.
    + intros s. rewrite I2. unfold amount at 1. unfold count_one. rewrite (dget_dset splitter_eqb splitter_eqb_spec).
      destruct (splitter_eqb_spec s x) as [->|]; cbn [length]; [unfold amount|fold (amount d s)]; lia.
    + intros s. rewrite I3. unfold count_one. rewrite (dset_keys splitter_eqb splitter_eqb_spec). cbn. intuition congruence.
Qed.
