(** Proofs about the reading of the tables of export_crosstable. *)
From Coq Require Import String Ascii ZArith List Bool Lia.
From Verif Require Import M_Json M_Solve P_Solve M_Network P_Network2 M_Optimal Spec_Table.
Import ListNotations.
Local Open Scope string_scope.

Definition free (c : ascii) (s : string) : Prop := all_chars (fun d => negb (Ascii.eqb d c)) s = true.
Lemma free_app c a b : free c (a ++ b) <-> free c a /\ free c b.
Proof. unfold free. rewrite all_chars_app, andb_true_iff. reflexivity. Qed.
Lemma split_free c a : free c a -> split_at c a = [a].
Proof.
  unfold free. induction a as [|d a IH]; [reflexivity|]. cbn [all_chars split_at]. intros H. apply andb_true_iff in H. destruct H as [H1 H2]. apply negb_true_iff in H1. rewrite H1, (IH H2). reflexivity.
Qed.
Lemma split_more c a b : free c a -> split_at c (a ++ String c b) = a :: split_at c b.
Proof.
  unfold free. induction a as [|d a IH]; cbn [append split_at all_chars].
  - intros _. rewrite Ascii.eqb_refl. reflexivity.
  - intros H. apply andb_true_iff in H. destruct H as [H1 H2]. apply negb_true_iff in H1. rewrite H1, (IH H2). reflexivity.
Qed.
Lemma concat_more l r : String.concat "" (l :: r) = l ++ String.concat "" r.
Proof. destruct r as [|x r]; cbn; [rewrite string_app_nil; reflexivity|reflexivity]. Qed.
Lemma split_each c l rest : Forall (free c) l -> split_at c (String.concat "" (map (fun s => s ++ String c "") l) ++ rest) = (l ++ split_at c rest)%list.
Proof.
  induction 1 as [|s l F Fs IH]; [reflexivity|]. cbn [map app]. rewrite concat_more, !string_app_assoc. cbn [append]. rewrite (split_more c s _ F), IH. reflexivity.
Qed.
Definition bars (l : list string) : string := "|" ++ String.concat "" (map (fun s => s ++ "|") l).
Lemma cells_bars l : Forall (free "|") l -> cells (bars l) = map trim l.
Proof.
  intros F. unfold cells, bars. cbn [append split_at]. cbn [Ascii.eqb Bool.eqb tl].
  assert (E : split_at "|" (String.concat "" (map (fun s => s ++ "|") l)) = (l ++ [""])%list).
  { rewrite <- (string_app_nil (String.concat "" _)). rewrite (split_each "|" l "" F). reflexivity. }
  rewrite E, removelast_last. reflexivity.
Qed.
Lemma free_concat c (l : list string) : Forall (free c) l -> free c (String.concat "" l).
Proof. induction 1 as [|s l F Fs IH]; [reflexivity|]. rewrite concat_more. apply free_app. auto. Qed.
Lemma free_bars c l : c <> "|"%char -> Forall (free c) l -> free c (bars l).
Proof.
  intros N F. unfold bars. assert (B : free c "|") by (unfold free; cbn [all_chars]; destruct (Ascii.eqb_spec "|" c) as [E|]; [exfalso; congruence|reflexivity]).
  apply free_app. split; [exact B|]. apply free_concat. apply Forall_map. apply Forall_forall. rewrite Forall_forall in F. intros s Hs. apply free_app. auto.
Qed.

(** ** Trimming *)
Definition solid (s : string) : Prop := all_chars (fun c => negb (Ascii.eqb c " ")) s = true.
Lemma skip_spaces n l : skip_blanks (list_ascii_of_string (spaces n) ++ l) = skip_blanks l.
Proof. induction n as [|n IH]; [reflexivity|]. exact IH. Qed.
Lemma list_app a b : list_ascii_of_string (a ++ b) = (list_ascii_of_string a ++ list_ascii_of_string b)%list.
Proof. induction a as [|c a IH]; [reflexivity|]. cbn. rewrite IH. reflexivity. Qed.
Lemma rev_spaces n : rev (list_ascii_of_string (spaces n)) = list_ascii_of_string (spaces n).
Proof.
  assert (E : list_ascii_of_string (spaces n) = repeat " "%char n) by (induction n as [|n IH]; [reflexivity|cbn; rewrite IH; reflexivity]). rewrite E.
  induction n as [|n IH]; [reflexivity|]. cbn [repeat rev]. rewrite IH by (clear; induction n as [|n IH]; [reflexivity|cbn; rewrite IH; reflexivity]). clear. induction n as [|n IH]; [reflexivity|]. cbn [repeat app]. rewrite IH. reflexivity.
Qed.
Lemma skip_solid l : Forall (fun c => Ascii.eqb c " " = false) l -> skip_blanks l = l.
Proof. intros [|c r H _]; [reflexivity|]. cbn [skip_blanks]. unfold blank. rewrite H. reflexivity. Qed.
Lemma solid_list s : solid s -> Forall (fun c => Ascii.eqb c " " = false) (list_ascii_of_string s).
Proof.
  unfold solid. induction s as [|c s IH]; [constructor|]. cbn [all_chars list_ascii_of_string]. intros H. apply andb_true_iff in H. destruct H as [H1 H2]. constructor; [apply negb_true_iff; exact H1|apply IH; exact H2].
Qed.
Lemma trim_padded a s b : solid s -> trim (spaces a ++ s ++ spaces b) = s.
Proof.
  intros H. unfold trim. rewrite !list_app, skip_spaces. pose proof (solid_list s H) as L. destruct s as [|c s].
  - cbn [list_ascii_of_string app]. assert (E : skip_blanks (list_ascii_of_string (spaces b)) = []) by (rewrite <- (app_nil_r (list_ascii_of_string (spaces b))), skip_spaces; reflexivity). rewrite E. reflexivity.
  - assert (E : skip_blanks (list_ascii_of_string (String c s) ++ list_ascii_of_string (spaces b)) = (list_ascii_of_string (String c s) ++ list_ascii_of_string (spaces b))%list).
    { cbn [list_ascii_of_string app skip_blanks]. inversion L as [|? ? L1 L2]; subst. unfold blank. rewrite L1. reflexivity. }
    rewrite E, rev_app_distr, rev_spaces, skip_spaces. rewrite skip_solid by (apply Forall_rev; exact L). rewrite rev_involutive. apply string_of_list_ascii_of_string.
Qed.

(** ** Numbers and marks *)
Definition word (s : string) : Prop := all_chars (fun c => negb (Ascii.eqb c " ") && negb (Ascii.eqb c "|") && negb (Ascii.eqb c newline)) s = true.
Lemma all_chars_weaken (f g : ascii -> bool) s : (forall c, f c = true -> g c = true) -> all_chars f s = true -> all_chars g s = true.
Proof. intros H. induction s as [|c s IH]; [reflexivity|]. cbn. rewrite !andb_true_iff. intros [A B]. auto. Qed.
Lemma word_solid s : word s -> solid s.
Proof. apply all_chars_weaken. intros c H. apply andb_true_iff in H. destruct H as [H _]. apply andb_true_iff in H. tauto. Qed.
Lemma word_bar s : word s -> free "|" s.
Proof. apply all_chars_weaken. intros c H. apply andb_true_iff in H. destruct H as [H _]. apply andb_true_iff in H. tauto. Qed.
Lemma word_line s : word s -> free newline s.
Proof. apply all_chars_weaken. intros c H. apply andb_true_iff in H. tauto. Qed.
Lemma uint_word d : word (DecimalString.NilEmpty.string_of_uint d).
Proof. unfold word. induction d; cbn; auto. Qed.
Lemma str_int_word n : word (str_int n).
Proof.
  unfold str_int, DecimalString.NilZero.string_of_int.
  assert (Z0 : forall d, word (DecimalString.NilZero.string_of_uint d)) by (intros d; unfold DecimalString.NilZero.string_of_uint; destruct d; [reflexivity|apply uint_word..]).
  destruct (Z.to_int n); [apply Z0|]. unfold word. cbn [all_chars]. apply andb_true_iff. split; [reflexivity|apply Z0].
Qed.
Lemma mark_word m : word (mark_text m).
Proof. destruct m; reflexivity. Qed.
Lemma spaces_free c n : c <> " "%char -> free c (spaces n).
Proof. intros N. unfold free. induction n as [|n IH]; [reflexivity|]. cbn [spaces all_chars]. rewrite IH, andb_true_r. apply negb_true_iff. destruct (Ascii.eqb_spec " " c) as [E|]; [exfalso; congruence|reflexivity]. Qed.
Definition wide (s : string) : string := " " ++ s ++ spaces (3 - String.length s) ++ " ".
Lemma wide_free c s : c <> " "%char -> free c s -> free c (wide s).
Proof. intros N F. unfold wide. change " " with (spaces 1). repeat (apply free_app; split); try apply spaces_free; assumption. Qed.
Lemma spaces_app a b : spaces a ++ spaces b = spaces (a + b).
Proof. induction a as [|a IH]; [reflexivity|]. cbn. rewrite IH. reflexivity. Qed.
Lemma trim_wide s : solid s -> trim (wide s) = s.
Proof. intros H. unfold wide. change (" " ++ s ++ spaces (3 - String.length s) ++ " ") with (spaces 1 ++ s ++ spaces (3 - String.length s) ++ spaces 1). rewrite spaces_app. apply trim_padded. exact H. Qed.

(** ** The text *)
Lemma read_rows_bars (ls : list (list string)) : Forall (Forall (free "|")) ls -> Forall (fun l => l <> []) ls ->
  read_rows (map bars ls ++ [""; ""]) = map (fun l => (hd "" (map trim l), tl (map trim l))) ls.
Proof.
  induction ls as [|l ls IH]; intros F N; [reflexivity|]. inversion F as [|? ? F1 F2]; subst. inversion N as [|? ? N1 N2]; subst. cbn [map app].
  assert (E : read_rows (bars l :: map bars ls ++ [""; ""]) = match cells (bars l) with h :: cs => (h, cs) :: read_rows (map bars ls ++ [""; ""]) | [] => read_rows (map bars ls ++ [""; ""]) end) by reflexivity.
  rewrite E, (cells_bars l F1), (IH F2 N2). destruct l as [|x l]; [contradiction N1; reflexivity|]. reflexivity.
Qed.
Lemma zrange_length a b : List.length (zrange a b) = Z.to_nat (b - a).
Proof. unfold zrange. rewrite map_length, seq_length. reflexivity. Qed.
Lemma zrange_nth a b i : (i < Z.to_nat (b - a))%nat -> nth_error (zrange a b) i = Some (a + Z.of_nat i)%Z.
Proof.
  intros H. unfold zrange. rewrite nth_error_map. assert (E : forall n s i, (i < n)%nat -> nth_error (seq s n) i = Some (s + i)%nat).
  { induction n as [|n IH]; intros s j Hj; [lia|]. destruct j; cbn [seq nth_error]; [f_equal; lia|]. rewrite IH by lia. f_equal. lia. }
  rewrite (E _ 0%nat i H). cbn [option_map]. f_equal.
Qed.
(** The lines as bars. *)
Lemma pad_wide s : " " ++ pad3 s ++ " |" = wide s ++ "|".
Proof. unfold pad3, wide. rewrite !string_app_assoc. reflexivity. Qed.
Lemma mark_wide m : exists n, " " ++ mark_text m ++ "   |" = (spaces 1 ++ mark_text m ++ spaces n) ++ "|".
Proof. exists 3%nat. rewrite !string_app_assoc. reflexivity. Qed.
Lemma concat_map {X} (f g : X -> string) l : (forall x, f x = g x ++ "|") -> String.concat "" (map f l) = String.concat "" (map (fun s => s ++ "|") (map g l)).
Proof. intros H. rewrite map_map. f_equal. apply map_ext. exact H. Qed.
Lemma bars_cons s l : bars (s :: l) = "|" ++ s ++ "|" ++ String.concat "" (map (fun s => s ++ "|") l).
Proof. unfold bars. cbn [map]. rewrite concat_more, string_app_assoc. reflexivity. Qed.
Lemma concat_lines (ls : list string) rest : Forall (free newline) ls -> split_at newline (String.concat "" (map (fun l => l ++ nl) ls) ++ rest) = (ls ++ split_at newline rest)%list.
Proof. apply (split_each newline). Qed.

Definition heads (w : Z) : list string := spaces 5 :: map (fun i => wide (str_int i)) (zrange 1 (w + 1)).
Definition rule (w : Z) : list string := repeat "-----" (Z.to_nat (w + 1)).
Definition marked (m : mark) : string := spaces 1 ++ mark_text m ++ spaces 3.
Definition row {A} (st : store A) (w h : Z) : list string := wide (str_int h) :: map (fun i => marked (cell st i h)) (zrange 1 (w + 1)).
Lemma store_lines {A} (st : store A) text mh : st_exist st <> [] -> min_height (st_network st) = Some mh -> store_text st = Some text ->
  text = String.concat "" (map (fun l => l ++ nl) ([("## " ++ st_name st); bars (heads (zmax (map (fun e => snd (fst (fst e))) (st_exist st)) - 2)); bars (rule (zmax (map (fun e => snd (fst (fst e))) (st_exist st)) - 2))]
    ++ map (fun h => bars (row st (zmax (map (fun e => snd (fst (fst e))) (st_exist st)) - 2) h)) (zrange mh (zmax (map (fun e => snd (fst e)) (st_exist st)) + 1)))) ++ nl.
Proof.
  intros N M. unfold store_text. destruct (st_exist st) as [|e0 es] eqn:Ee; [contradiction N; reflexivity|]. rewrite <- Ee. rewrite M. cbn [obind].
  set (W := (zmax (map (fun e => snd (fst (fst e))) (st_exist st)) - 2)%Z). set (H := zmax (map (fun e => snd (fst e)) (st_exist st))).
  assert (E1 : "|     |" ++ String.concat "" (map (fun i => " " ++ pad3 (str_int i) ++ " |") (zrange 1 (W + 1))) = bars (heads W)).
  { unfold heads. rewrite bars_cons, (concat_map _ (fun i => wide (str_int i))) by (intros i; apply pad_wide). reflexivity. }
  assert (E2 : "|" ++ String.concat "" (repeat "-----|" (Z.to_nat (W + 1))) = bars (rule W)).
  { unfold bars, rule. do 2 f_equal. induction (Z.to_nat (W + 1)) as [|n IH]; [reflexivity|]. cbn [repeat map]. rewrite <- IH. reflexivity. }
  assert (E3 : forall h, "| " ++ pad3 (str_int h) ++ " |" ++ String.concat "" (map (fun w => " " ++ mark_text (cell st w h) ++ "   |") (zrange 1 (W + 1))) ++ nl = bars (row st W h) ++ nl).
  { intros h. unfold row. rewrite bars_cons, (concat_map _ (fun i => marked (cell st i h))) by (intros i; unfold marked; rewrite !string_app_assoc; reflexivity).
    unfold wide, pad3. rewrite !string_app_assoc. reflexivity. }
  intros E. assert (K : forall a b : string, Some a = Some b -> b = a) by congruence. apply K in E. rewrite E. clear E K.
  rewrite (map_ext _ _ E3). cbn [map app]. rewrite !concat_more, <- E1, <- E2, map_map. rewrite !string_app_assoc. cbn [append]. reflexivity.
Qed.
Lemma heads_free w c : c <> " "%char -> (forall s, word s -> free c s) -> Forall (free c) (heads w).
Proof. intros N F. constructor; [apply spaces_free; exact N|]. apply Forall_map, Forall_forall. intros i _. apply wide_free; [exact N|]. apply F, str_int_word. Qed.
Lemma row_free {A} (st : store A) w h c : c <> " "%char -> (forall s, word s -> free c s) -> Forall (free c) (row st w h).
Proof.
  intros N F. constructor; [apply wide_free; [exact N|]; apply F, str_int_word|]. apply Forall_map, Forall_forall. intros i _.
  unfold marked. repeat (apply free_app; split); try (apply spaces_free; exact N). apply F, mark_word.
Qed.
Lemma rule_free w c : c <> "-"%char -> Forall (free c) (rule w).
Proof.
  intros N. apply Forall_forall. intros s Hs. apply repeat_spec in Hs. subst s. unfold free. cbn [all_chars]. destruct (Ascii.eqb_spec "-" c) as [E|]; [exfalso; congruence|reflexivity].
Qed.
Lemma table_read {A} (st : store A) text mh : st_exist st <> [] -> min_height (st_network st) = Some mh -> store_text st = Some text -> free newline (st_name st) ->
  let W := (zmax (map (fun e => snd (fst (fst e))) (st_exist st)) - 2)%Z in
  let H := zmax (map (fun e => snd (fst e)) (st_exist st)) in (0 <= W)%Z ->
  read_table text = Some {| title := st_name st; columns := map str_int (zrange 1 (W + 1)); rows := map (fun h => (str_int h, map (fun w => mark_text (cell st w h)) (zrange 1 (W + 1)))) (zrange mh (H + 1)) |}.
Proof.
  intros N M E Fn W H W0. rewrite (store_lines st text mh N M E). fold W H.
  assert (NL : newline <> " "%char) by discriminate. assert (NB : newline <> "|"%char) by discriminate. assert (ND : newline <> "-"%char) by discriminate. assert (BS : "|"%char <> " "%char) by discriminate. assert (BD : "|"%char <> "-"%char) by discriminate.
  assert (L : Forall (free newline) (["## " ++ st_name st; bars (heads W); bars (rule W)] ++ map (fun h => bars (row st W h)) (zrange mh (H + 1)))).
  { apply Forall_app. split.
    - constructor; [apply free_app; split; [reflexivity|exact Fn]|]. constructor; [apply free_bars; [exact NB|apply heads_free; [exact NL|exact word_line]]|]. constructor; [|constructor]. apply free_bars; [exact NB|apply rule_free; exact ND].
    - apply Forall_map, Forall_forall. intros h _. apply free_bars; [exact NB|apply row_free; [exact NL|exact word_line]]. }
  unfold read_table. change (ascii_of_nat 10) with newline. rewrite (concat_lines _ nl L). cbn [app append].
  assert (Eh : cells (bars (heads W)) = "" :: map str_int (zrange 1 (W + 1))).
  { rewrite cells_bars by (apply heads_free; [exact BS|exact word_bar]). unfold heads. cbn [map]. f_equal. rewrite map_map. apply map_ext. intros i. apply trim_wide, word_solid, str_int_word. }
  assert (Er : cells (bars (rule W)) = rule W).
  { rewrite cells_bars by (apply rule_free; exact BD). unfold rule. induction (Z.to_nat (W + 1)) as [|n IH]; [reflexivity|]. cbn [repeat map]. rewrite IH. reflexivity. }
  rewrite Eh, Er. cbn [List.length tl]. rewrite map_length, zrange_length. unfold rule at 1. rewrite repeat_length.
  assert (En : Nat.eqb (Z.to_nat (W + 1)) (S (Z.to_nat (W + 1 - 1))) = true) by (apply Nat.eqb_eq; lia). rewrite En. cbn [andb].
  assert (Ed : forallb drawn (rule W) = true) by (apply forallb_forall; intros s Hs; apply repeat_spec in Hs; subst s; reflexivity). rewrite Ed.
  f_equal. f_equal. change (split_at newline nl) with [""; ""]. rewrite <- (map_map (fun h => row st W h) bars).
  rewrite read_rows_bars.
  - rewrite map_map. apply map_ext. intros h. unfold row. cbn [map hd tl]. f_equal; [apply trim_wide, word_solid, str_int_word|]. rewrite map_map. apply map_ext. intros i. unfold marked. apply trim_padded, word_solid, mark_word.
  - apply Forall_map, Forall_forall. intros h _. apply row_free; [exact BS|exact word_bar].
  - apply Forall_map, Forall_forall. intros h _. discriminate.
Qed.
Lemma zmax_ge l x : In x l -> (x <= zmax l)%Z.
Proof.
  assert (G : forall r a, (a <= fold_left Z.max r a)%Z /\ forall y, In y r -> (y <= fold_left Z.max r a)%Z).
  { induction r as [|b r IH]; intros a; cbn [fold_left]; [split; [lia|intros y []]|]. destruct (IH (Z.max a b)) as [I1 I2]. split; [lia|]. intros y [->|Hy]; [lia|auto]. }
  destruct l as [|a l]; [intros []|]. cbn [zmax]. intros [->|Hx]; [exact (proj1 (G l x))|exact (proj2 (G l a) x Hx)].
Qed.
Lemma zmax_in l : l <> [] -> In (zmax l) l.
Proof.
  assert (G : forall r a, fold_left Z.max r a = a \/ In (fold_left Z.max r a) r).
  { induction r as [|b r IH]; intros a; cbn [fold_left]; [auto|]. destruct (IH (Z.max a b)) as [E|E]; [|right; right; exact E]. rewrite E. destruct (Z.max_spec a b) as [[_ ->]|[_ ->]]; [right; left; reflexivity|left; reflexivity]. }
  destruct l as [|a l]; intros N; [contradiction N; reflexivity|]. cbn [zmax]. destruct (G l a) as [E|E]; [left; symmetry; exact E|right; exact E].
Qed.
