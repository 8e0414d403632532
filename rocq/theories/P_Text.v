(** Texts of json and blueprint strings: lemmas. *)
From Coq Require Import String Ascii ZArith List Bool Lia DecimalString DecimalFacts DecimalZ.
From Verif Require Import M_Json M_Solve M_Network M_Text Spec_Text P_Solve.
Import ListNotations.
Local Open Scope string_scope.
Open Scope Z_scope.

(** * Strings *)
Lemma code_char c n : code c = n -> c = ascii_of_nat n.
Proof. intros <-. symmetry. apply ascii_nat_embedding. Qed.
Lemma unhex_hex n : (n < 16)%nat -> unhex (hex n) = Some n.
Proof. intros H. do 16 (destruct n as [|n]; [reflexivity|]). lia. Qed.
Lemma scan_escape c X : scan_string (escape c ++ X) = let* (t, q) := scan_string X in Some (String c t, q).
Proof.
  unfold escape. destruct (Ascii.eqb c "034") eqn:E1; [apply Ascii.eqb_eq in E1; subst c; reflexivity|].
  destruct (Ascii.eqb c "\") eqn:E2; [apply Ascii.eqb_eq in E2; subst c; reflexivity|].
  destruct (code c =? 10)%nat eqn:E3; [apply Nat.eqb_eq, code_char in E3; subst c; reflexivity|].
  destruct (code c =? 13)%nat eqn:E4; [apply Nat.eqb_eq, code_char in E4; subst c; reflexivity|].
  destruct (code c =? 9)%nat eqn:E5; [apply Nat.eqb_eq, code_char in E5; subst c; reflexivity|].
  destruct (code c =? 12)%nat eqn:E6; [apply Nat.eqb_eq, code_char in E6; subst c; reflexivity|].
  destruct (code c =? 8)%nat eqn:E7; [apply Nat.eqb_eq, code_char in E7; subst c; reflexivity|].
  destruct ((32 <=? code c)%nat && (code c <=? 126)%nat) eqn:E8.
  - cbn [append scan_string]. rewrite E1, E2. apply andb_true_iff in E8. destruct E8 as [E8 _]. apply Nat.leb_le in E8.
    destruct (Nat.ltb_spec (code c) 32); [lia|reflexivity].
  - assert (Hc : (code c < 256)%nat) by apply nat_ascii_bounded.
    cbn [append]. change (scan_string (String "\" (String "u" (String "0" (String "0" (String (hex (code c / 16)) (String (hex (code c mod 16)) X))))))) with
      (let* x := unhex (hex (code c / 16)) in let* y := unhex (hex (code c mod 16)) in let* (t, q) := scan_string X in Some (String (ascii_of_nat (16 * x + y)) t, q)).
    rewrite !unhex_hex by (first [apply Nat.div_lt_upper_bound; lia | apply Nat.mod_upper_bound; lia]). cbn [obind].
    rewrite <- Nat.div_mod by lia. unfold code. rewrite ascii_nat_embedding. reflexivity.
Qed.
Lemma scan_quoted s rest : scan_string (escaped s ++ String quote_char rest) = Some (s, rest).
Proof.
  induction s as [|c s IH]; [reflexivity|]. cbn [escaped]. rewrite string_app_assoc, scan_escape, IH. reflexivity.
Qed.

(** * Numbers *)
Definition numeral (d : string) : Prop := all_chars is_digit d = true /\ d <> "" /\ forall r, d = String "0" r -> r = "".
Lemma uint_digits d : all_chars is_digit (NilEmpty.string_of_uint d) = true.
Proof. induction d; cbn; auto. Qed.
Lemma nzhead_zero d e : Decimal.nzhead d <> Decimal.D0 e.
Proof. induction d; cbn; auto; discriminate. Qed.
Lemma norm_to_int n : Decimal.norm (Z.to_int n) = Z.to_int n.
Proof. rewrite <- (DecimalZ.to_of (Z.to_int n)), DecimalZ.of_to. reflexivity. Qed.
Lemma unorm_numeral u : numeral (NilZero.string_of_uint (Decimal.unorm u)).
Proof.
  unfold Decimal.unorm. pose proof (nzhead_zero u) as Z. destruct (Decimal.nzhead u) as [|v|v|v|v|v|v|v|v|v|v]; cbn [NilZero.string_of_uint].
  - split; [reflexivity|]. split; [discriminate|]. intros r E. injection E as <-. reflexivity.
  - exfalso. exact (Z v eq_refl).
  - split; [apply (uint_digits (Decimal.D1 v))|split; [discriminate|intros r E; discriminate E]].
  - split; [apply (uint_digits (Decimal.D2 v))|split; [discriminate|intros r E; discriminate E]].
  - split; [apply (uint_digits (Decimal.D3 v))|split; [discriminate|intros r E; discriminate E]].
  - split; [apply (uint_digits (Decimal.D4 v))|split; [discriminate|intros r E; discriminate E]].
  - split; [apply (uint_digits (Decimal.D5 v))|split; [discriminate|intros r E; discriminate E]].
  - split; [apply (uint_digits (Decimal.D6 v))|split; [discriminate|intros r E; discriminate E]].
  - split; [apply (uint_digits (Decimal.D7 v))|split; [discriminate|intros r E; discriminate E]].
  - split; [apply (uint_digits (Decimal.D8 v))|split; [discriminate|intros r E; discriminate E]].
  - split; [apply (uint_digits (Decimal.D9 v))|split; [discriminate|intros r E; discriminate E]].
Qed.
Lemma str_int_numeral n : 0 <= n -> numeral (str_int n).
Proof.
  intros H. unfold str_int. pose proof (norm_to_int n) as N. destruct n as [|p|p]; [| |lia].
  - split; [reflexivity|]. split; [discriminate|]. intros r E. injection E as <-. reflexivity.
  - cbn [Z.to_int] in *. cbn [Decimal.norm] in N. assert (E : Decimal.unorm (Pos.to_uint p) = Pos.to_uint p) by congruence.
    cbn [NilZero.string_of_int]. rewrite <- E. apply unorm_numeral.
Qed.
Lemma str_int_negative n : n < 0 -> str_int n = String "-" (str_int (- n)).
Proof. intros H. destruct n as [|p|p]; [lia|lia|]. reflexivity. Qed.

Definition stops (s : string) : Prop :=
  match s with EmptyString => True | String c _ => is_digit c = false /\ c <> "."%char /\ c <> "e"%char /\ c <> "E"%char end.
Lemma digits_app d rest : all_chars is_digit d = true -> match rest with EmptyString => True | String c _ => is_digit c = false end -> digits (d ++ rest) = (d, rest).
Proof.
  intros D R. induction d as [|c d IH]; cbn [append digits].
  - destruct rest as [|c r]; [reflexivity|]. cbn [digits]. rewrite R. reflexivity.
  - cbn [all_chars] in D. apply andb_true_iff in D. destruct D as [Dc Dd]. rewrite Dc, (IH Dd). reflexivity.
Qed.
Lemma whole_app d rest : numeral d -> match rest with EmptyString => True | String c _ => is_digit c = false end -> whole (d ++ rest) = Some (d, rest).
Proof.
  intros (D & N & Z) R. destruct d as [|c d]; [congruence|]. cbn [append whole]. destruct (Ascii.eqb c "0") eqn:E.
  - apply Ascii.eqb_eq in E. subst c. rewrite (Z d eq_refl). reflexivity.
  - change (String c (d ++ rest)) with (String c d ++ rest). rewrite digits_app by assumption. reflexivity.
Qed.
Lemma stops_exponent rest : stops rest -> exponent rest = false.
Proof.
  destruct rest as [|c r]; [reflexivity|]. intros (_ & _ & E1 & E2). cbn. apply orb_false_iff. split; apply Ascii.eqb_neq; assumption.
Qed.
Lemma stops_digit rest : stops rest -> match rest with EmptyString => True | String c _ => is_digit c = false end.
Proof. destruct rest; [exact (fun H => H)|]. intros H. exact (proj1 H). Qed.
Lemma parse_str n : parse_int (str_int n) = Some n.
Proof. apply parse_decimal. Qed.
Definition signed (b : bool) (s : string) : string := (if b then "-" else "") ++ s.
Lemma sign_split b d rest : numeral d -> match signed b d ++ rest with String c r => if Ascii.eqb c "-" then (true, r) else (false, signed b d ++ rest) | _ => (false, signed b d ++ rest) end = (b, d ++ rest).
Proof.
  intros (D & N & _). destruct b; [reflexivity|]. unfold signed. destruct d as [|c d]; [congruence|]. cbn [append]. cbn [all_chars] in D.
  apply andb_true_iff in D. destruct D as [D _]. destruct (Ascii.eqb c "-") eqn:E; [|reflexivity]. apply Ascii.eqb_eq in E. subst c. discriminate D.
Qed.
Lemma scan_int b n rest : 0 <= n -> stops rest -> scan_number (signed b (str_int n) ++ rest) = Some (DNum (if b then - n else n), rest).
Proof.
  intros Hn R. unfold scan_number. rewrite (sign_split b (str_int n) rest (str_int_numeral n Hn)). rewrite (whole_app _ _ (str_int_numeral n Hn) (stops_digit _ R)). cbn [obind].
  rewrite parse_str. cbn [obind]. rewrite (stops_exponent _ R). destruct rest as [|c r]; [reflexivity|].
  destruct R as (_ & Rd & _). destruct (Ascii.eqb c ".") eqn:E; [apply Ascii.eqb_eq in E; contradiction|reflexivity].
Qed.
Lemma scan_num n rest : stops rest -> scan_number (str_int n ++ rest) = Some (DNum n, rest).
Proof.
  intros R. destruct (Z.ltb_spec n 0) as [H|H].
  - rewrite (str_int_negative n H). change (String "-" (str_int (- n))) with (signed true (str_int (- n))). rewrite scan_int by (auto; lia). do 2 f_equal. f_equal. lia.
  - exact (scan_int false n rest H R).
Qed.
Lemma scan_half n rest : stops rest -> scan_number (half_text n ++ rest) = Some (DHalf n, rest).
Proof.
  intros R. unfold half_text. set (b := n <? 0). set (m := Z.abs n / 2). assert (Hm : 0 <= m) by (apply Z.div_pos; lia).
  assert (S : forall f, ((if b then "-" else "") ++ str_int m ++ f) ++ rest = signed b (str_int m) ++ f ++ rest).
  { intros f. unfold signed. rewrite !string_app_assoc. reflexivity. }
  rewrite S. unfold scan_number. rewrite (sign_split b (str_int m) _ (str_int_numeral m Hm)).
  assert (E2 : Z.abs n = 2 * m + (if Z.even n then 0 else 1)).
  { unfold m. rewrite (Z.div_mod (Z.abs n) 2) at 1 by lia. f_equal. rewrite Zmod_even. replace (Z.even (Z.abs n)) with (Z.even n) by (destruct n; reflexivity). reflexivity. }
  destruct (Z.even n).
  - rewrite (whole_app _ (".0" ++ rest) (str_int_numeral m Hm)) by reflexivity. cbn [obind]. rewrite parse_str. cbn [obind append Ascii.eqb Bool.eqb].
    change (String "0" rest) with ("0" ++ rest). rewrite (digits_app "0" rest eq_refl (stops_digit _ R)). cbn [String.eqb Ascii.eqb Bool.eqb]. rewrite (stops_exponent _ R).
    do 3 f_equal. unfold b. destruct (Z.ltb_spec n 0); lia.
  - rewrite (whole_app _ (".5" ++ rest) (str_int_numeral m Hm)) by reflexivity. cbn [obind]. rewrite parse_str. cbn [obind append Ascii.eqb Bool.eqb].
    change (String "5" rest) with ("5" ++ rest). rewrite (digits_app "5" rest eq_refl (stops_digit _ R)). cbn [String.eqb Ascii.eqb Bool.eqb]. rewrite (stops_exponent _ R).
    do 3 f_equal. unfold b. destruct (Z.ltb_spec n 0); lia.
Qed.

(** * Documents *)
Section Ind.
  Variable P : doc -> Prop.
  Hypotheses (H0 : P DNull) (H1 : forall b, P (DBool b)) (H2 : forall n, P (DNum n)) (H3 : forall n, P (DHalf n)) (H4 : forall s, P (DStr s)).
  Hypothesis HA : forall l, (forall x, In x l -> P x) -> P (DArr l).
  Hypothesis HO : forall l, (forall k x, In (k, x) l -> P x) -> P (DObj l).
  Fixpoint doc_ind' (d : doc) : P d.
  Proof.
    destruct d as [|b|n|n|s|l|l]; [apply H0|apply H1|apply H2|apply H3|apply H4|apply HA|apply HO]; revert l.
    - fix go 1. intros [|y r] x H; [destruct H|]. destruct H as [E|H]; [rewrite <- E; apply doc_ind'|exact (go r x H)].
    - fix go 1. intros [|[k' y] r] k x H; [destruct H|]. destruct H as [E|H]; [|exact (go r k x H)].
      assert (K : y = x) by congruence. rewrite <- K. apply doc_ind'.
  Defined.
End Ind.

Fixpoint size (d : doc) : nat :=
  match d with
  | DArr l => S (fold_right (fun x n => S (size x + n)) O l)
  | DObj l => S (fold_right (fun f n => S (size (snd f) + n)) O l)
  | _ => 1%nat
  end.
Lemma length_app a b : String.length (a ++ b) = (String.length a + String.length b)%nat.
Proof. induction a as [|c a IH]; [reflexivity|]. cbn. rewrite IH. reflexivity. Qed.
Lemma concat_length l : (String.length (String.concat ", " l) + 2 = fold_right (fun s n => String.length s + 2 + n) 2 (l) - (match l with [] => 0 | _ => 2 end))%nat.
Proof.
  induction l as [|s r IH]; [reflexivity|]. destruct r as [|s' r].
  - cbn. lia.
  - change (String.concat ", " (s :: s' :: r)) with (s ++ ", " ++ String.concat ", " (s' :: r)). rewrite !length_app.
    change (fold_right (fun s n => String.length s + 2 + n) 2 (s :: s' :: r))%nat with (String.length s + 2 + fold_right (fun s n => String.length s + 2 + n) 2 (s' :: r))%nat.
    assert (K : forall l, (2 <= fold_right (fun s n => String.length s + 2 + n) 2 l)%nat) by (induction l; cbn in *; lia).
    pose proof (K r) as Kr. cbn [fold_right] in *. cbn [String.length] in *. lia.
Qed.
Lemma numeral_head d : numeral d -> exists c r, d = String c r /\ is_digit c = true.
Proof. intros (D & N & _). destruct d as [|c r]; [congruence|]. exists c, r. cbn in D. apply andb_true_iff in D. split; [reflexivity|exact (proj1 D)]. Qed.

(** The first character of a text. *)
Definition starter (c : ascii) : Prop := is_digit c = true \/ In c (list_ascii_of_string ("-ntf[{" ++ String "034" "")).
Lemma dumps_head d : exists c r, dumps d = String c r /\ starter c.
Proof.
  destruct d as [|[]|n|n|s|l|l]; cbn [dumps]; try (eexists; eexists; split; [reflexivity|right; cbn; tauto]).
  - destruct (Z.ltb_spec n 0) as [H|H].
    + rewrite (str_int_negative n H). eexists; eexists; split; [reflexivity|right; cbn; tauto].
    + destruct (numeral_head _ (str_int_numeral n H)) as (c & r & -> & D). exists c, r. split; [reflexivity|left; exact D].
  - unfold half_text. destruct (Z.ltb_spec n 0) as [H|H]; [eexists; eexists; split; [reflexivity|right; cbn; tauto]|].
    destruct (numeral_head (str_int (Z.abs n / 2))) as (c & r & -> & D); [apply str_int_numeral, Z.div_pos; lia|]. cbn [append]. exists c. eexists. split; [reflexivity|left; exact D].
Qed.
Lemma starter_facts c : starter c -> is_blank c = false /\ c <> "]"%char /\ c <> "}"%char.
Proof.
  intros [D|H].
  - split; [|split; intros ->; discriminate D]. unfold is_digit, is_blank in *. apply andb_true_iff in D. destruct D as [D1 D2]. apply Nat.leb_le in D1, D2.
    repeat (apply orb_false_iff; split); apply Nat.eqb_neq; lia.
  - cbn in H. repeat (destruct H as [<-|H]; [split; [reflexivity|split; discriminate]|]). destruct H.
Qed.
Lemma skip_dumps d rest : skip (dumps d ++ rest) = dumps d ++ rest.
Proof. destruct (dumps_head d) as (c & r & E & S'). destruct (starter_facts c S') as (B & _). rewrite E. cbn [append skip]. rewrite B. reflexivity. Qed.
Lemma size_length d : (size d <= String.length (dumps d))%nat.
Proof.
  induction d as [|b|n|n|s|l IH|l IH] using doc_ind'.
  - cbn; lia.
  - destruct b; cbn; lia.
  - destruct (dumps_head (DNum n)) as (c & r & -> & _). cbn. lia.
  - destruct (dumps_head (DHalf n)) as (c & r & -> & _). cbn. lia.
  - destruct (dumps_head (DStr s)) as (c & r & -> & _). cbn. lia.
  - cbn [dumps size]. rewrite !length_app. cbn [String.length]. pose proof (concat_length (map dumps l)) as C.
    assert (K : (fold_right (fun x n => S (size x + n)) 0 l + match l with [] => 0 | _ => 1 end + 2 <= fold_right (fun s n => String.length s + 2 + n) 2 (map dumps l))%nat).
    { clear C. induction l as [|x r IHr]; [cbn; lia|]. cbn [fold_right map]. pose proof (IH x (or_introl eq_refl)).
      specialize (IHr (fun y Hy => IH y (or_intror Hy))). destruct r; cbn [fold_right map] in *; lia. }
    destruct l; cbn [map] in *; lia.
  - cbn [dumps size]. rewrite !length_app. cbn [String.length]. set (f := fun f : string * doc => quoted (fst f) ++ ": " ++ dumps (snd f)). pose proof (concat_length (map f l)) as C.
    assert (K : (fold_right (fun x n => S (size (snd x) + n)) 0 l + match l with [] => 0 | _ => 1 end + 2 <= fold_right (fun s n => String.length s + 2 + n) 2 (map f l))%nat).
    { clear C. induction l as [|[k x] r IHr]; [cbn; lia|]. cbn [fold_right map snd]. pose proof (IH k x (or_introl eq_refl)).
      assert (Lf : (String.length (dumps x) <= String.length (f (k, x)))%nat) by (unfold f; cbn [fst snd]; rewrite !length_app; lia).
      specialize (IHr (fun k' y Hy => IH k' y (or_intror Hy))). destruct r; cbn [fold_right map] in *; lia. }
    destruct l; cbn [map] in *; lia.
Qed.

Lemma concat_cons (s s' : string) l : String.concat ", " (s :: s' :: l) = s ++ ", " ++ String.concat ", " (s' :: l).
Proof. reflexivity. Qed.
Lemma items_dumps val rest : forall l k, l <> [] -> (List.length l <= k)%nat ->
  (forall x, In x l -> forall r, stops r -> val (dumps x ++ r) = Some (x, r)) ->
  items val k (String.concat ", " (map dumps l) ++ String "]" rest) = Some (l, rest).
Proof.
  induction l as [|x l IH]; intros k N L V; [congruence|]. destruct k as [|k]; [cbn in L; lia|]. cbn [items].
  destruct l as [|y l].
  - cbn [map String.concat]. rewrite (V x (or_introl eq_refl)) by (cbn; repeat split; discriminate). cbn [obind skip is_blank]. reflexivity.
  - cbn [map]. rewrite concat_cons. rewrite !string_app_assoc.
    rewrite (V x (or_introl eq_refl)) by (cbn; repeat split; discriminate). cbn [obind].
    change (skip (", " ++ String.concat ", " (dumps y :: map dumps l) ++ String "]" rest)) with (String "," (" " ++ String.concat ", " (dumps y :: map dumps l) ++ String "]" rest)).
    cbv iota. change (skip (" " ++ String.concat ", " (dumps y :: map dumps l) ++ String "]" rest)) with (skip (String.concat ", " (map dumps (y :: l)) ++ String "]" rest)).
    assert (Sk : skip (String.concat ", " (map dumps (y :: l)) ++ String "]" rest) = String.concat ", " (map dumps (y :: l)) ++ String "]" rest).
    { destruct l as [|z l]; cbn [map]; [cbn [String.concat]|rewrite concat_cons, string_app_assoc]; apply skip_dumps. }
    rewrite Sk, (IH k); [reflexivity|discriminate|cbn in *; lia|]. intros x' Hx. apply V. right. exact Hx.
Qed.
Definition member_text (f : string * doc) : string := quoted (fst f) ++ ": " ++ dumps (snd f).
Lemma members_dumps val rest : forall l k, l <> [] -> (List.length l <= k)%nat ->
  (forall key x, In (key, x) l -> forall r, stops r -> val (dumps x ++ r) = Some (x, r)) ->
  members val k (String.concat ", " (map member_text l) ++ String "}" rest) = Some (l, rest).
Proof.
  assert (Q : forall key x T, member_text (key, x) ++ T = String "034" (escaped key ++ String quote_char (": " ++ dumps x ++ T))).
  { intros key x T. unfold member_text, quoted. cbn [fst snd]. cbn [append]. rewrite !string_app_assoc. reflexivity. }
  induction l as [|[key x] l IH]; intros k N L V; [congruence|]. destruct k as [|k]; [cbn in L; lia|]. cbn [members].
  assert (Step : forall T, stops T -> (let* (key', r) := scan_string (escaped key ++ String quote_char (": " ++ dumps x ++ T)) in
     match skip r with String ":" r => let* (x, r) := val (skip r) in Some (key', x, r) | _ => None end) = Some (key, x, T)).
  { intros T R. rewrite scan_quoted. cbn [obind append skip]. change (is_blank ":") with false. cbv iota. cbn [skip]. change (is_blank " ") with true. cbv iota.
    rewrite skip_dumps, (V key x (or_introl eq_refl) T R). reflexivity. }
  destruct l as [|[key2 y] l].
  - cbn [map String.concat]. rewrite Q. rewrite scan_quoted. cbn [obind append skip]. change (is_blank ":") with false. cbv iota. cbn [skip]. change (is_blank " ") with true. cbv iota.
    rewrite skip_dumps, (V key x (or_introl eq_refl)) by (cbn; repeat split; discriminate). reflexivity.
  - cbn [map]. rewrite concat_cons. rewrite !string_app_assoc, Q. rewrite scan_quoted. cbn [obind]. 
    set (T := ", " ++ _). change (skip (": " ++ dumps x ++ T)) with (String ":" (String " " (dumps x ++ T))). cbv iota. change (skip (String " " (dumps x ++ T))) with (skip (dumps x ++ T)).
    rewrite skip_dumps, (V key x (or_introl eq_refl)) by (cbn; repeat split; discriminate). cbn [obind]. unfold T.
    set (U := String.concat ", " (member_text (key2, y) :: map member_text l) ++ String "}" rest).
    change (skip (", " ++ U)) with (String "," (String " " U)). cbv iota. change (skip (String " " U)) with (skip U).
    assert (Sk : skip U = U).
    { unfold U. destruct l as [|z l]; cbn [map]; [cbn [String.concat]|rewrite concat_cons, string_app_assoc]; rewrite Q; reflexivity. }
    rewrite Sk. unfold U. change (member_text (key2, y) :: map member_text l) with (map member_text ((key2, y) :: l)).
    rewrite (IH k); [reflexivity|discriminate|cbn in *; lia|]. intros key' x' Hx. apply (V key'). right. exact Hx.
Qed.

Lemma aset_new {A} k (v : A) l : ~ In k (map fst l) -> aset k v l = (l ++ [(k, v)])%list.
Proof.
  induction l as [|[k' w] r IH]; intros H; [reflexivity|]. cbn [aset app]. destruct (String.eqb_spec k k') as [->|Ne]; [exfalso; apply H; left; reflexivity|].
  f_equal. apply IH. intros K. apply H. right. exact K.
Qed.
Lemma as_dict_same l : NoDup (map fst l) -> as_dict l = l.
Proof.
  intros N. unfold as_dict. assert (K : forall l a, NoDup (map fst (a ++ l)) -> fold_left (fun d (f : string * doc) => aset (fst f) (snd f) d) l a = (a ++ l)%list).
  { clear. induction l as [|[k x] r IH]; intros a N; cbn [fold_left fst snd]; [symmetry; apply List.app_nil_r|].
    rewrite aset_new.
    - rewrite IH; [rewrite <- List.app_assoc; reflexivity|]. rewrite <- List.app_assoc. exact N.
    - rewrite map_app in N. cbn [map fst] in N. apply NoDup_remove_2 in N. intros H. apply N. apply in_or_app. left. exact H. }
  exact (K l [] N).
Qed.

Lemma scan_once_dumps d : proper d -> forall n rest, (size d <= n)%nat -> stops rest -> scan_once n (dumps d ++ rest) = Some (d, rest).
Proof.
  assert (NumHead : forall s rest, (exists c r, s = String c r /\ (is_digit c = true \/ c = "-"%char)) -> forall n, scan_once (S n) (s ++ rest) = scan_number (s ++ rest)).
  { intros s rest (c & r & -> & H) n. cbn [append scan_once after].
    assert (Ne : forall x, is_digit x = false -> x <> "-"%char -> Ascii.eqb c x = false /\ Ascii.eqb x c = false).
    { intros x Hx Hm. assert (c <> x) by (destruct H as [H | -> ]; congruence). split; apply Ascii.eqb_neq; congruence. }
    rewrite (proj1 (Ne "034"%char eq_refl ltac:(discriminate))), (proj1 (Ne "["%char eq_refl ltac:(discriminate))), (proj1 (Ne "{"%char eq_refl ltac:(discriminate))),
      (proj2 (Ne "n"%char eq_refl ltac:(discriminate))), (proj2 (Ne "t"%char eq_refl ltac:(discriminate))), (proj2 (Ne "f"%char eq_refl ltac:(discriminate))). reflexivity. }
  induction d as [|b|m|m|s|l IH|l IH] using doc_ind'; intros Pr n rest Sz R; (destruct n as [|n]; [cbn in Sz; lia|]).
  - reflexivity.
  - destruct b; reflexivity.
  - cbn [dumps]. rewrite NumHead; [apply scan_num; exact R|]. destruct (Z.ltb_spec m 0) as [H|H]; [rewrite (str_int_negative m H); eauto|].
    destruct (numeral_head _ (str_int_numeral m H)) as (c & r & -> & D). eauto.
  - cbn [dumps]. rewrite NumHead; [apply scan_half; exact R|]. unfold half_text. destruct (Z.ltb_spec m 0) as [H|H]; [cbn [append]; eauto|].
    destruct (numeral_head (str_int (Z.abs m / 2))) as (c & r & -> & D); [apply str_int_numeral, Z.div_pos; lia|]. cbn [append]. eauto.
  - cbn [dumps]. unfold quoted. cbn [append]. rewrite string_app_assoc. cbn [append]. cbn [scan_once]. change (Ascii.eqb quote_char "034") with true. cbv iota. rewrite scan_quoted. reflexivity.
  - inversion Pr as [| | | | |? Hp|]; subst. cbn [dumps]. rewrite !string_app_assoc. cbn [append scan_once]. change (Ascii.eqb "[" "034") with false. change (Ascii.eqb "[" "[") with true. cbv iota.
    destruct l as [|x l]; [reflexivity|].
    assert (It : items (scan_once n) n (String.concat ", " (map dumps (x :: l)) ++ String "]" rest) = Some (x :: l, rest)).
    { cbn [size] in Sz.
      assert (Sum : forall y l', In y l' -> (size y < fold_right (fun x n => S (size x + n)) 0 l')%nat).
      { clear. induction l' as [|z r IH]; intros H; [destruct H|]. cbn [fold_right]. destruct H as [->|H]; [lia|]. specialize (IH H). lia. }
      assert (Len : forall l', (List.length l' <= fold_right (fun x n => S (size x + n)) 0 l')%nat) by (clear; induction l'; cbn in *; lia).
      apply items_dumps; [discriminate|pose proof (Len (x :: l)); lia|]. intros y Hy r Hr. apply IH; [exact Hy|apply Hp; exact Hy| |exact Hr].
      pose proof (Sum y (x :: l) Hy). lia. }
    assert (Sk : exists c r, skip (String.concat ", " (map dumps (x :: l)) ++ String "]" rest) = String c r /\ String c r = String.concat ", " (map dumps (x :: l)) ++ String "]" rest /\ starter c).
    { destruct (dumps_head x) as (c & r & E & Hs). destruct (starter_facts c Hs) as (B & _).
      assert (K : exists T, String.concat ", " (map dumps (x :: l)) ++ String "]" rest = String c (r ++ T)).
      { destruct l as [|z l]; cbn [map]; [cbn [String.concat]; rewrite E; eexists; reflexivity|]. rewrite concat_cons, string_app_assoc, E. eexists. reflexivity. }
      destruct K as [T ->]. exists c, (r ++ T). cbn [skip]. rewrite B. auto. }
    destruct Sk as (c & r & -> & E & Hs). destruct (starter_facts c Hs) as (_ & Hne & _). rewrite <- E in It.
    clear - It Hne. destruct c as [[] [] [] [] [] [] [] []]; first [exfalso; apply Hne; reflexivity | cbv iota; rewrite It; reflexivity].
  - inversion Pr as [| | | | | |? Nd Hp]; subst. cbn [dumps]. rewrite !string_app_assoc. cbn [append scan_once]. change (Ascii.eqb "{" "034") with false. change (Ascii.eqb "{" "[") with false. change (Ascii.eqb "{" "{") with true. cbv iota.
    destruct l as [|[k x] l]; [reflexivity|].
    assert (It : members (scan_once n) n (String.concat ", " (map member_text ((k, x) :: l)) ++ String "}" rest) = Some ((k, x) :: l, rest)).
    { cbn [size] in Sz.
      assert (Sum : forall k y l', In (k, y) l' -> (size y < fold_right (fun (x : string * doc) n => S (size (snd x) + n)) 0 l')%nat).
      { clear. induction l' as [|z r IH]; intros H; [destruct H|]. cbn [fold_right]. destruct H as [->|H]; [cbn [snd]; lia|]. specialize (IH H). lia. }
      assert (Len : forall l', (List.length l' <= fold_right (fun (x : string * doc) n => S (size (snd x) + n)) 0 l')%nat) by (clear; induction l'; cbn in *; lia).
      apply members_dumps; [discriminate|pose proof (Len ((k, x) :: l)); lia|]. intros k' y Hy r Hr. apply (IH k'); [exact Hy|apply (Hp k'); exact Hy| |exact Hr].
      pose proof (Sum k' y ((k, x) :: l) Hy). lia. }
    assert (Sk : exists r, String.concat ", " (map member_text ((k, x) :: l)) ++ String "}" rest = String "034" r).
    { destruct l as [|z l]; cbn [map]; [cbn [String.concat]|rewrite concat_cons]; unfold member_text, quoted; cbn [fst snd append]; eexists; reflexivity. }
    change (fun f : string * doc => quoted (fst f) ++ String ":" (String " " (dumps (snd f)))) with member_text.
    destruct Sk as (r & E). rewrite E in *. change (skip (String "034" r)) with (String "034" r). cbv iota. rewrite It. cbn [obind]. rewrite as_dict_same by exact Nd. reflexivity.
Qed.
Lemma loads_dumps d : proper d -> loads (dumps d) = Some d.
Proof.
  intros Pr. unfold loads. pose proof (skip_dumps d "") as Sk. assert (An : forall s, s ++ "" = s) by (induction s as [|c s IH]; [reflexivity|cbn; rewrite IH; reflexivity]).
  rewrite An in Sk. rewrite Sk. pose proof (scan_once_dumps d Pr (String.length (dumps d)) "" (size_length d) Logic.I) as E. rewrite An in E. rewrite E. reflexivity.
Qed.

(** * base64 *)
Lemma index_letter n : (n < 64)%nat -> index_of (letter64 n) alphabet = Some n /\ letter64 n <> "="%char.
Proof. intros H. do 64 (destruct n as [|n]; [split; [reflexivity|discriminate]|]). lia. Qed.
Lemma a2b_letter quad left pads n r : (n < 64)%nat -> a2b quad left pads (String (letter64 n) r) =
  match quad with
  | O => a2b 1 n 0 r
  | S O => let* t := a2b 2 (n mod 16) 0 r in Some (String (ascii_of_nat (left * 4 + n / 16)) t)
  | S (S O) => let* t := a2b 3 (n mod 4) 0 r in Some (String (ascii_of_nat (left * 16 + n / 4)) t)
  | _ => let* t := a2b 0 0 0 r in Some (String (ascii_of_nat (left * 64 + n)) t)
  end.
Proof.
  intros H. destruct (index_letter n H) as [I' Ne]. cbn [a2b]. destruct (Ascii.eqb (letter64 n) "=") eqn:E; [apply Ascii.eqb_eq in E; contradiction|]. rewrite I'. reflexivity.
Qed.
Lemma three_ind (P : string -> Prop) : P "" -> (forall a, P (String a "")) -> (forall a b, P (String a (String b ""))) ->
  (forall a b c r, P r -> P (String a (String b (String c r)))) -> forall s, P s.
Proof.
  intros P0 P1 P2 P3. assert (K : forall n s, (String.length s <= n)%nat -> P s); [|intros s; exact (K (String.length s) s (le_n _))].
  induction n as [|n IH]; intros s L; [destruct s; [exact P0|cbn in L; lia]|].
  destruct s as [|a [|b [|c r]]]; [exact P0|apply P1|apply P2|]. apply P3. apply IH. cbn in L. lia.
Qed.
Lemma code_bound c : (code c < 256)%nat.
Proof. apply nat_ascii_bounded. Qed.
Lemma char_of c n : code c = n -> ascii_of_nat n = c.
Proof. intros <-. apply ascii_nat_embedding. Qed.
Lemma a2b_b64encode s : a2b 0 0 0 (b64encode s) = Some s.
Proof.
  pose proof code_bound as B.
  assert (D : forall c k, (0 < k)%nat -> code c = (k * (code c / k) + code c mod k)%nat) by (intros c k Hk; apply Nat.div_mod; lia).
  assert (U : forall c k, (0 < k)%nat -> (code c mod k < k)%nat) by (intros c k Hk; apply Nat.mod_upper_bound; lia).
  assert (Q : forall c k m, (0 < k)%nat -> (256 = k * m)%nat -> (code c / k < m)%nat) by (intros c k m Hk Em; apply Nat.div_lt_upper_bound; [lia|pose proof (B c); lia]).
  induction s as [|a|a b|a b c r IH] using three_ind.
  - reflexivity.
  - cbn [b64encode]. pose proof (U a 4%nat ltac:(lia)). pose proof (Q a 4%nat 64%nat ltac:(lia) eq_refl). rewrite !a2b_letter by lia.
    replace ((code a mod 4 * 16) mod 16)%nat with 0%nat by (rewrite Nat.mod_mul; lia). replace (code a mod 4 * 16 / 16)%nat with (code a mod 4)%nat by (rewrite Nat.div_mul; lia).
    change (a2b 2 0 0 "==") with (Some ""). cbn [obind]. rewrite (char_of a) by (pose proof (D a 4%nat ltac:(lia)); lia). reflexivity.
  - cbn [b64encode]. pose proof (U a 4%nat ltac:(lia)). pose proof (Q a 4%nat 64%nat ltac:(lia) eq_refl). pose proof (U b 16%nat ltac:(lia)). pose proof (Q b 16%nat 16%nat ltac:(lia) eq_refl).
    rewrite !a2b_letter by lia.
    replace ((code a mod 4 * 16 + code b / 16) mod 16)%nat with (code b / 16)%nat by (rewrite Nat.add_comm, Nat.mod_add by lia; symmetry; apply Nat.mod_small; lia).
    replace ((code a mod 4 * 16 + code b / 16) / 16)%nat with (code a mod 4)%nat by (rewrite Nat.add_comm, Nat.div_add by lia; rewrite Nat.div_small by lia; reflexivity).
    replace ((code b mod 16 * 4) mod 4)%nat with 0%nat by (rewrite Nat.mod_mul; lia). replace (code b mod 16 * 4 / 4)%nat with (code b mod 16)%nat by (rewrite Nat.div_mul; lia).
    change (a2b 3 0 0 "=") with (Some ""). cbn [obind]. rewrite (char_of a) by (pose proof (D a 4%nat ltac:(lia)); lia). rewrite (char_of b) by (pose proof (D b 16%nat ltac:(lia)); lia). reflexivity.
  - cbn [b64encode]. pose proof (U a 4%nat ltac:(lia)). pose proof (Q a 4%nat 64%nat ltac:(lia) eq_refl). pose proof (U b 16%nat ltac:(lia)). pose proof (Q b 16%nat 16%nat ltac:(lia) eq_refl).
    pose proof (U c 64%nat ltac:(lia)). pose proof (Q c 64%nat 4%nat ltac:(lia) eq_refl).
    rewrite !a2b_letter by lia.
    replace ((code a mod 4 * 16 + code b / 16) mod 16)%nat with (code b / 16)%nat by (rewrite Nat.add_comm, Nat.mod_add by lia; symmetry; apply Nat.mod_small; lia).
    replace ((code a mod 4 * 16 + code b / 16) / 16)%nat with (code a mod 4)%nat by (rewrite Nat.add_comm, Nat.div_add by lia; rewrite Nat.div_small by lia; reflexivity).
    replace ((code b mod 16 * 4 + code c / 64) mod 4)%nat with (code c / 64)%nat by (rewrite Nat.add_comm, Nat.mod_add by lia; symmetry; apply Nat.mod_small; lia).
    replace ((code b mod 16 * 4 + code c / 64) / 4)%nat with (code b mod 16)%nat by (rewrite Nat.add_comm, Nat.div_add by lia; rewrite Nat.div_small by lia; reflexivity).
    rewrite IH. cbn [obind].
    rewrite (char_of a) by (pose proof (D a 4%nat ltac:(lia)); lia). rewrite (char_of b) by (pose proof (D b 16%nat ltac:(lia)); lia). rewrite (char_of c) by (pose proof (D c 64%nat ltac:(lia)); lia). reflexivity.
Qed.
Lemma index_plain c n : index_of c alphabet = Some n -> plain c.
Proof.
  intros H. right. change (list_ascii_of_string _) with (list_ascii_of_string alphabet). revert n H. induction alphabet as [|d s IH]; intros n H; [discriminate|].
  cbn [index_of] in H. destruct (Ascii.eqb_spec c d) as [->|Ne]; [left; reflexivity|]. destruct (index_of c s) as [k|]; [|discriminate]. right. exact (IH k eq_refl).
Qed.
Lemma letter_plain n : plain (letter64 n).
Proof.
  destruct (Nat.ltb_spec n 64) as [H|H].
  - exact (index_plain _ _ (proj1 (index_letter n H))).
  - unfold letter64. destruct (String.get n alphabet) as [c|] eqn:E; [|right; left; reflexivity]. exfalso.
    assert (K : forall s n, (String.length s <= n)%nat -> String.get n s = None) by (clear; induction s as [|d s IH]; intros [|n] L; cbn in *; try reflexivity; [lia|apply IH; lia]).
    rewrite K in E; [discriminate|]. cbn. lia.
Qed.
Lemma encoded_plain s : forall c, In c (list_ascii_of_string (b64encode s)) -> plain c.
Proof.
  assert (E : plain "="%char) by (left; reflexivity).
  induction s as [|a|a b|a b c r IH] using three_ind; intros x H; cbn [b64encode list_ascii_of_string In] in H.
  - destruct H.
  - destruct H as [<-|[<-|[<-|[<-|[]]]]]; try apply letter_plain; exact E.
  - destruct H as [<-|[<-|[<-|[<-|[]]]]]; try apply letter_plain; exact E.
  - destruct H as [<-|[<-|[<-|[<-|H]]]]; try apply letter_plain. exact (IH x H).
Qed.
Lemma plain_ascii c : plain c -> (code c < 128)%nat.
Proof.
  intros [->|H]; [cbn; lia|]. assert (K : forallb (fun c => (code c <? 128)%nat) (list_ascii_of_string alphabet) = true) by (vm_compute; reflexivity).
  rewrite forallb_forall in K. apply Nat.ltb_lt. apply K. exact H.
Qed.
Lemma b64_round s : b64decode (b64encode s) = Some s.
Proof.
  unfold b64decode. replace (forallb _ _) with true; [apply a2b_b64encode|]. symmetry. apply forallb_forall. intros c H. apply Nat.ltb_lt, plain_ascii, (encoded_plain s c H).
Qed.
Lemma a2b_broken s t : broken_up s t -> forall quad left pads, a2b quad left pads t = a2b quad left pads s.
Proof.
  induction 1 as [|c s t H IH|c s t Hc Np H IH]; intros quad left pads; [reflexivity| |].
  - cbn [a2b]. destruct (Ascii.eqb c "="); [rewrite !IH; reflexivity|]. destruct (index_of c alphabet); [|apply IH]. destruct quad as [|[|[|quad]]]; rewrite IH; reflexivity.
  - cbn [a2b]. destruct (Ascii.eqb_spec c "=") as [->|Ne]; [exfalso; apply Np; left; reflexivity|]. destruct (index_of c alphabet) eqn:E; [exfalso; exact (Np (index_plain c _ E))|apply IH].
Qed.
Lemma broken_ascii s t : broken_up s t -> forallb (fun c => (code c <? 128)%nat) (list_ascii_of_string t) = forallb (fun c => (code c <? 128)%nat) (list_ascii_of_string s).
Proof.
  induction 1 as [|c s t H IH|c s t Hc Np H IH]; [reflexivity| |]; cbn [list_ascii_of_string forallb]; rewrite IH; [reflexivity|].
  apply Nat.ltb_lt in Hc. unfold code. rewrite Hc. reflexivity.
Qed.
Lemma b64_broken s t : broken_up s t -> b64decode t = b64decode s.
Proof. intros H. unfold b64decode. rewrite (broken_ascii _ _ H), (a2b_broken _ _ H). reflexivity. Qed.

(** * What is read *)
Lemma as_dict_nodup l : NoDup (map fst (as_dict l)) /\ forall k x, In (k, x) (as_dict l) -> exists k', In (k', x) l.
Proof.
  unfold as_dict.
  assert (N : forall k (v : doc) d, map fst (aset k v d) = map fst d \/ (map fst (aset k v d) = (map fst d ++ [k])%list /\ ~ In k (map fst d))).
  { induction d as [|[k' w] r IH]; cbn [aset map fst app]; [right; split; [reflexivity|intros []]|]. destruct (String.eqb_spec k k') as [->|Ne]; [left; reflexivity|].
    cbn [map fst]. destruct IH as [->|[-> H]]; [left; reflexivity|right]. split; [reflexivity|]. intros [K|K]; [congruence|contradiction]. }
  assert (I' : forall k (v : doc) d k' x, In (k', x) (aset k v d) -> x = v \/ In (k', x) d).
  { induction d as [|[k2 w] r IH]; cbn [aset]; intros k' x H; [destruct H as [E|[]]; left; congruence|]. destruct (String.eqb k k2).
    - destruct H as [E|H]; [left; congruence|right; right; exact H].
    - destruct H as [E|H]; [right; left; exact E|]. destruct (IH k' x H); auto. right. right. assumption. }
  assert (K : forall l a, NoDup (map fst a) -> NoDup (map fst (fold_left (fun d (f : string * doc) => aset (fst f) (snd f) d) l a)) /\
    forall k x, In (k, x) (fold_left (fun d (f : string * doc) => aset (fst f) (snd f) d) l a) -> In (k, x) a \/ exists k', In (k', x) l).
  { induction l0 as [|[k v] r IH]; intros a Na; cbn [fold_left fst snd]; [split; [exact Na|auto]|].
    destruct (IH (aset k v a)) as [H1 H2].
    - destruct (N k v a) as [->|[-> H]]; [exact Na|]. apply NoDup_app_remove_l with (l := []) || idtac. 
      clear - Na H. induction (map fst a) as [|y ys IHy]; [constructor; [intros []|constructor]|]. cbn [app]. inversion Na as [|? ? Hy Hys]; subst.
      constructor; [|apply IHy; [exact Hys|intros K; apply H; right; exact K]]. rewrite in_app_iff. intros [K|[K|[]]]; [contradiction|]. apply H. left. congruence.
    - split; [exact H1|]. intros k' x Hx. destruct (H2 k' x Hx) as [K|[k2 K]]; [|right; exists k2; right; exact K]. destruct (I' k v a k' x K) as [->|K2]; [right; exists k; left; reflexivity|left; exact K2]. }
  destruct (K l [] (NoDup_nil _)) as [H1 H2]. split; [exact H1|]. intros k x H. destruct (H2 k x H) as [[]|E]. exact E.
Qed.
Lemma items_proper val : (forall s x r, val s = Some (x, r) -> proper x) -> forall k s l r, items val k s = Some (l, r) -> forall x, In x l -> proper x.
Proof.
  intros V. induction k as [|k IH]; intros s l r E x Hx; [discriminate|]. cbn [items] in E. destruct (val s) as [[y q]|] eqn:Ev; [|discriminate]. cbn [obind] in E.
  destruct (skip q) as [|c q']; [discriminate|].
  assert (C : (exists xs q2, items val k (skip q') = Some (xs, q2) /\ l = y :: xs) \/ l = [y]).
  { destruct c as [[] [] [] [] [] [] [] []]; try discriminate E.
    - right. congruence.
    - left. destruct (items val k (skip q')) as [[xs q2]|]; [|discriminate]. cbn [obind] in E. exists xs, q2. split; [reflexivity|congruence]. }
  destruct C as [(xs & q2 & Ei & ->)| ->].
  - destruct Hx as [<-|Hx]; [exact (V _ _ _ Ev)|exact (IH _ _ _ Ei x Hx)].
  - destruct Hx as [<-|[]]. exact (V _ _ _ Ev).
Qed.
Lemma members_proper val : (forall s x r, val s = Some (x, r) -> proper x) -> forall k s l r, members val k s = Some (l, r) -> forall key x, In (key, x) l -> proper x.
Proof.
  intros V. induction k as [|k IH]; intros s l r E key x Hx; [discriminate|]. cbn [members] in E. destruct s as [|c0 s]; [discriminate|].
  assert (E' : (let* (key, r) := scan_string s in match skip r with String ":" r => let* (x, r) := val (skip r) in match skip r with
                | String "," r' => let* (xs, q) := members val k (skip r') in Some ((key, x) :: xs, q)
                | String "}" r' => Some ([(key, x)], r')
                | _ => None end | _ => None end) = Some (l, r)) by (destruct c0 as [[] [] [] [] [] [] [] []]; try discriminate E; exact E).
  clear E. destruct (scan_string s) as [[key' q]|]; [|discriminate]. cbn [obind] in E'. destruct (skip q) as [|c1 q1]; [discriminate|].
  assert (E : (let* (x, r) := val (skip q1) in match skip r with
                | String "," r' => let* (xs, q) := members val k (skip r') in Some ((key', x) :: xs, q)
                | String "}" r' => Some ([(key', x)], r')
                | _ => None end) = Some (l, r)) by (destruct c1 as [[] [] [] [] [] [] [] []]; try discriminate E'; exact E').
  clear E'. destruct (val (skip q1)) as [[y q2]|] eqn:Ev; [|discriminate]. cbn [obind] in E. destruct (skip q2) as [|c q']; [discriminate|].
  assert (C : (exists xs q2, members val k (skip q') = Some (xs, q2) /\ l = (key', y) :: xs) \/ l = [(key', y)]).
  { destruct c as [[] [] [] [] [] [] [] []]; try discriminate E.
    - right. congruence.
    - left. destruct (members val k (skip q')) as [[xs q3]|]; [|discriminate]. cbn [obind] in E. exists xs, q3. split; [reflexivity|congruence]. }
  destruct C as [(xs & q3 & Ei & ->)| ->].
  - destruct Hx as [E2|Hx]; [assert (y = x) by congruence; subst; exact (V _ _ _ Ev)|exact (IH _ _ _ Ei key x Hx)].
  - destruct Hx as [E2|[]]. assert (y = x) by congruence. subst. exact (V _ _ _ Ev).
Qed.
Lemma scan_number_proper s d r : scan_number s = Some (d, r) -> proper d.
Proof.
  unfold scan_number. destruct (match s with EmptyString => _ | String _ _ => _ end) as [neg q]. destruct (whole q) as [[w q1]|]; [|discriminate]. cbn [obind].
  destruct (parse_int w) as [n|]; [|discriminate]. cbn [obind]. intros E.
  repeat match type of E with context [match ?x with _ => _ end] => lazymatch type of x with bool => destruct x | string => destruct x | (string * string)%type => destruct x end end; try discriminate E;
    assert (K := f_equal (fun o => match o with Some (x, _) => x | None => d end) E); cbn in K; rewrite <- K; constructor.
Qed.
Lemma scan_once_proper : forall n s d r, scan_once n s = Some (d, r) -> proper d.
Proof.
  induction n as [|n IH]; intros s d r E; [discriminate|]. cbn [scan_once] in E. destruct s as [|c s]; [discriminate|].
  destruct (Ascii.eqb c "034"). { destruct (scan_string s) as [[t q]|]; [|discriminate]. cbn [obind] in E. assert (d = DStr t) by congruence. subst. constructor. }
  destruct (Ascii.eqb c "[").
  { assert (C : (exists l q, items (scan_once n) n (skip s) = Some (l, q) /\ d = DArr l) \/ d = DArr []).
    { destruct (skip s) as [|a q]; [|destruct a as [[] [] [] [] [] [] [] []]];
        first [right; congruence | left; match type of E with context [items ?v ?k ?x] => destruct (items v k x) as [[l q0]|]; [|discriminate]; cbn [obind] in E; exists l, q0; split; [reflexivity|congruence] end]. }
    destruct C as [(l & q & Ei & ->)| ->]; constructor; [|intros ? []]. intros x Hx. exact (items_proper _ (fun s x r => IH s x r) _ _ _ _ Ei x Hx). }
  destruct (Ascii.eqb c "{").
  { assert (C : (exists l q, members (scan_once n) n (skip s) = Some (l, q) /\ d = DObj (as_dict l)) \/ d = DObj []).
    { destruct (skip s) as [|a q]; [|destruct a as [[] [] [] [] [] [] [] []]];
        first [right; congruence | left; match type of E with context [members ?v ?k ?x] => destruct (members v k x) as [[l q0]|]; [|discriminate]; cbn [obind] in E; exists l, q0; split; [reflexivity|congruence] end]. }
    destruct C as [(l & q & Ei & ->)| ->]; [|constructor; [constructor|intros ? ? []]]. destruct (as_dict_nodup l) as [Nd Hin]. constructor; [exact Nd|].
    intros k x Hx. destruct (Hin k x Hx) as [k' Hk]. exact (members_proper _ (fun s x r => IH s x r) _ _ _ _ Ei k' x Hk). }
  destruct (after "null" (String c s)); [assert (d = DNull) by congruence; subst; constructor|].
  destruct (after "true" (String c s)); [assert (d = DBool true) by congruence; subst; constructor|].
  destruct (after "false" (String c s)); [assert (d = DBool false) by congruence; subst; constructor|]. exact (scan_number_proper _ _ _ E).
Qed.
