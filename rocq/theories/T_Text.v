(** C119: texts of json; C120: blueprint strings; C121: the strings of books. *)
From Coq Require Import String Ascii ZArith List Bool Lia.
From Verif Require Import Spec_Tile Spec_Layout Spec_Transform Spec_Blueprint M_Json M_Tile M_Solve M_Network M_Blueprint M_Text Spec_Text P_Tile P_Solve P_Rotate P_Layout P_Text T_Blueprint.
Import ListNotations.
Local Open Scope string_scope.
Open Scope Z_scope.

(** ** C119 *)
(** What is written is read back. *)
Theorem C119_round d : proper d -> loads (dumps d) = Some d.
Proof. exact (loads_dumps d). Qed.
(** What is read has each key once. *)
Theorem C119_keys s d : loads s = Some d -> proper d.
Proof.
  unfold loads. destruct (scan_once _ _) as [[x r]|] eqn:E; [|discriminate]. cbn [obind]. destruct (skip r); [|discriminate]. intros K.
  assert (x = d) by congruence. subst x. exact (scan_once_proper _ _ _ _ E).
Qed.
(** A document is written on one line, in printable characters of ASCII. *)
Lemma chars_app a b c : In c (list_ascii_of_string (a ++ b)) <-> In c (list_ascii_of_string a) \/ In c (list_ascii_of_string b).
Proof. induction a as [|x a IH]; cbn [append list_ascii_of_string In]; [tauto|]. rewrite IH. tauto. Qed.
Lemma concat_chars l c : In c (list_ascii_of_string (String.concat ", " l)) -> c = ","%char \/ c = " "%char \/ exists s, In s l /\ In c (list_ascii_of_string s).
Proof.
  induction l as [|s l IH]; [intros []|]. destruct l as [|s' l]; [cbn [String.concat]; intros H; right; right; exists s; split; [left; reflexivity|exact H]|].
  rewrite concat_cons, !chars_app. intros [H|[H|H]].
  - right; right. exists s. split; [left; reflexivity|exact H].
  - cbn in H. destruct H as [<-|[<-|[]]]; auto.
  - destruct (IH H) as [K|[K|(t & Ht & Hc)]]; auto. right; right. exists t. split; [right; exact Ht|exact Hc].
Qed.
Lemma escape_printable c x : In x (list_ascii_of_string (escape c)) -> printable x.
Proof.
  unfold printable, escape. destruct (Ascii.eqb c "034"); [cbn; intros [<-|[<-|[]]]; cbn; lia|]. destruct (Ascii.eqb c "\"); [cbn; intros [<-|[<-|[]]]; cbn; lia|].
  do 5 (destruct (_ =? _)%nat; [cbn; intros [<-|[<-|[]]]; cbn; lia|]).
  destruct (_ && _) eqn:E.
  - cbn [list_ascii_of_string In]. intros [<-|[]]. apply andb_true_iff in E. destruct E as [E1 E2]. apply Nat.leb_le in E1, E2. unfold code in *. lia.
  - assert (Hx : forall n, (n < 16)%nat -> (32 <= nat_of_ascii (hex n) <= 126)%nat).
    { intros n Hn. do 16 (destruct n as [|n]; [vm_compute; lia|]). lia. }
    pose proof (code_bound c). assert (code c / 16 < 16)%nat by (apply Nat.div_lt_upper_bound; lia). assert (code c mod 16 < 16)%nat by (apply Nat.mod_upper_bound; lia).
    cbn [append list_ascii_of_string In]. intros [<-|[<-|[<-|[<-|[<-|[<-|[]]]]]]]; first [apply Hx; assumption | vm_compute; lia].
Qed.
Lemma quoted_printable s c : In c (list_ascii_of_string (quoted s)) -> printable c.
Proof.
  unfold quoted. cbn [list_ascii_of_string In]. rewrite chars_app. intros [<-|[H|[<-|[]]]]; [unfold printable; vm_compute; lia| |unfold printable; vm_compute; lia].
  induction s as [|x s IH]; [destruct H|]. cbn [escaped] in H. rewrite chars_app in H. destruct H as [H|H]; [exact (escape_printable x c H)|exact (IH H)].
Qed.
Lemma digit_printable s c : all_chars is_digit s = true -> In c (list_ascii_of_string s) -> printable c.
Proof.
  induction s as [|x s IH]; [intros _ []|]. cbn [all_chars list_ascii_of_string In]. intros D [<-|H]; apply andb_true_iff in D; destruct D as [D1 D2]; [|exact (IH D2 H)].
  unfold is_digit, code in D1. apply andb_true_iff in D1. destruct D1 as [A B]. apply Nat.leb_le in A, B. unfold printable. lia.
Qed.
Lemma int_printable n c : In c (list_ascii_of_string (str_int n)) -> printable c.
Proof.
  destruct (Z.ltb_spec n 0) as [H|H].
  - rewrite (str_int_negative n H). cbn [list_ascii_of_string In]. intros [<-|K]; [unfold printable; vm_compute; lia|]. apply (digit_printable (str_int (- n))); [|exact K]. apply str_int_numeral. lia.
  - apply digit_printable. apply str_int_numeral. exact H.
Qed.
Theorem C119_line d : forall c, In c (list_ascii_of_string (dumps d)) -> printable c.
Proof.
  assert (Pc : forall c, In c (list_ascii_of_string "nulltruefalse[]{}:, .05-") -> printable c).
  { intros c H. unfold printable. cbn in H. repeat (destruct H as [<-|H]; [vm_compute; lia|]). destruct H. }
  induction d as [|b|n|n|s|l IH|l IH] using doc_ind'; intros c H; cbn [dumps] in H.
  - apply Pc. cbn in *. tauto.
  - apply Pc. destruct b; cbn in *; tauto.
  - exact (int_printable n c H).
  - unfold half_text in H. rewrite !chars_app in H. destruct H as [H|[H|H]]; [|exact (int_printable _ c H)|]; apply Pc; [destruct (n <? 0)|destruct (Z.even n)]; cbn in *; tauto.
  - exact (quoted_printable s c H).
  - cbn [append] in H. cbn [list_ascii_of_string In] in H. rewrite chars_app in H. destruct H as [<-|[H|H]]; [apply Pc; cbn; tauto| |apply Pc; cbn in *; tauto].
    destruct (concat_chars _ _ H) as [->|[->|(s & Hs & Hc)]]; [apply Pc; cbn; tauto|apply Pc; cbn; tauto|]. apply in_map_iff in Hs. destruct Hs as (x & <- & Hx). exact (IH x Hx c Hc).
  - cbn [append] in H. cbn [list_ascii_of_string In] in H. rewrite chars_app in H. destruct H as [<-|[H|H]]; [apply Pc; cbn; tauto| |apply Pc; cbn in *; tauto].
    destruct (concat_chars _ _ H) as [->|[->|(s & Hs & Hc)]]; [apply Pc; cbn; tauto|apply Pc; cbn; tauto|]. apply in_map_iff in Hs. destruct Hs as ([k x] & <- & Hx). cbn [fst snd] in Hc.
    rewrite chars_app in Hc. cbn [append list_ascii_of_string In] in Hc. destruct Hc as [Hc|[<-|[<-|Hc]]]; [exact (quoted_printable k c Hc)|apply Pc; cbn; tauto|apply Pc; cbn; tauto|exact (IH k x Hx c Hc)].
Qed.

(** ** C120 *)
(** base64 cut off within a group of four. *)
Lemma a2b_cut s : forall a b, b64encode s = a ++ b -> (String.length a mod 4 <> 0)%nat -> a2b 0 0 0 a = None.
Proof.
  assert (B : forall c, (code c < 256)%nat) by exact code_bound.
  assert (U : forall c k, (0 < k)%nat -> (code c mod k < k)%nat) by (intros c k Hk; apply Nat.mod_upper_bound; lia).
  assert (Q : forall c k m, (0 < k)%nat -> (256 = k * m)%nat -> (code c / k < m)%nat) by (intros c k m Hk Em; apply Nat.div_lt_upper_bound; [lia|pose proof (B c); lia]).
  assert (One : forall n x r t, String (letter64 n) r = String x t -> x = letter64 n /\ t = r) by (intros n x r t E; split; congruence).
  assert (Pad : forall x r t, String "=" r = String x t -> x = "="%char /\ t = r) by (intros x r t E; split; congruence).
  induction s as [|a1|a1 a2|a1 a2 a3 r IH] using three_ind; intros a b E L.
  - destruct a; [cbn in L; contradiction|discriminate].
  - cbn [b64encode] in E. pose proof (U a1 4%nat ltac:(lia)). pose proof (Q a1 4%nat 64%nat ltac:(lia) eq_refl).
    destruct a as [|x1 [|x2 [|x3 [|x4 a]]]]; cbn [append] in E; [cbn in L; contradiction| | | |].
    + destruct (One _ _ _ _ E) as [-> _]. rewrite a2b_letter by lia. reflexivity.
    + destruct (One _ _ _ _ E) as [-> E1]. symmetry in E1. destruct (One _ _ _ _ E1) as [-> _]. rewrite !a2b_letter by lia. reflexivity.
    + destruct (One _ _ _ _ E) as [-> E1]. symmetry in E1. destruct (One _ _ _ _ E1) as [-> E2]. symmetry in E2. destruct (Pad _ _ _ E2) as [-> _]. rewrite !a2b_letter by lia. reflexivity.
    + destruct (One _ _ _ _ E) as [-> E1]. symmetry in E1. destruct (One _ _ _ _ E1) as [-> E2]. symmetry in E2. destruct (Pad _ _ _ E2) as [-> E3]. symmetry in E3. destruct (Pad _ _ _ E3) as [-> E4].
      destruct a; [cbn in L; contradiction|discriminate].
  - cbn [b64encode] in E. pose proof (U a1 4%nat ltac:(lia)). pose proof (Q a1 4%nat 64%nat ltac:(lia) eq_refl). pose proof (U a2 16%nat ltac:(lia)). pose proof (Q a2 16%nat 16%nat ltac:(lia) eq_refl).
    destruct a as [|x1 [|x2 [|x3 [|x4 a]]]]; cbn [append] in E; [cbn in L; contradiction| | | |].
    + destruct (One _ _ _ _ E) as [-> _]. rewrite a2b_letter by lia. reflexivity.
    + destruct (One _ _ _ _ E) as [-> E1]. symmetry in E1. destruct (One _ _ _ _ E1) as [-> _]. rewrite !a2b_letter by lia. reflexivity.
    + destruct (One _ _ _ _ E) as [-> E1]. symmetry in E1. destruct (One _ _ _ _ E1) as [-> E2]. symmetry in E2. destruct (One _ _ _ _ E2) as [-> _]. rewrite !a2b_letter by lia. reflexivity.
    + destruct (One _ _ _ _ E) as [-> E1]. symmetry in E1. destruct (One _ _ _ _ E1) as [-> E2]. symmetry in E2. destruct (One _ _ _ _ E2) as [-> E3]. symmetry in E3. destruct (Pad _ _ _ E3) as [-> E4].
      destruct a; [cbn in L; contradiction|discriminate].
  - cbn [b64encode] in E. pose proof (U a1 4%nat ltac:(lia)). pose proof (Q a1 4%nat 64%nat ltac:(lia) eq_refl). pose proof (U a2 16%nat ltac:(lia)). pose proof (Q a2 16%nat 16%nat ltac:(lia) eq_refl).
    pose proof (U a3 64%nat ltac:(lia)). pose proof (Q a3 64%nat 4%nat ltac:(lia) eq_refl).
    destruct a as [|x1 [|x2 [|x3 [|x4 a]]]]; cbn [append] in E; [cbn in L; contradiction| | | |].
    + destruct (One _ _ _ _ E) as [-> _]. rewrite a2b_letter by lia. reflexivity.
    + destruct (One _ _ _ _ E) as [-> E1]. symmetry in E1. destruct (One _ _ _ _ E1) as [-> _]. rewrite !a2b_letter by lia. reflexivity.
    + destruct (One _ _ _ _ E) as [-> E1]. symmetry in E1. destruct (One _ _ _ _ E1) as [-> E2]. symmetry in E2. destruct (One _ _ _ _ E2) as [-> _]. rewrite !a2b_letter by lia. reflexivity.
    + destruct (One _ _ _ _ E) as [-> E1]. symmetry in E1. destruct (One _ _ _ _ E1) as [-> E2]. symmetry in E2. destruct (One _ _ _ _ E2) as [-> E3]. symmetry in E3. destruct (One _ _ _ _ E3) as [-> E4].
      rewrite !a2b_letter by lia. rewrite (IH a b (eq_sym E4)); [reflexivity|]. cbn [String.length] in L. intros K. apply L. replace (S (S (S (S (String.length a)))))%nat with (String.length a + 1 * 4)%nat by lia. rewrite Nat.mod_add by lia. exact K.
Qed.
Section Strings.
  (** zlib gives back what it compressed. *)
  Variables (compress : string -> string) (decompress : string -> option string).
  Hypothesis zlib : forall s, decompress (compress s) = Some s.

  (** The string of a document gives the document. *)
  Theorem C120_round d : proper d -> decode_blueprint decompress (encode_blueprint compress d) = Some d.
  Proof. intros P. unfold encode_blueprint, decode_blueprint. rewrite b64_round. cbn [obind]. rewrite zlib. exact (loads_dumps d P). Qed.
  (** Different documents have different strings. *)
  Theorem C120_different d d' : proper d -> proper d' -> encode_blueprint compress d = encode_blueprint compress d' -> d = d'.
  Proof. intros P P' E. pose proof (C120_round d P) as R. rewrite E, (C120_round d' P') in R. congruence. Qed.
  (** A string is the digit 0 and characters that can be pasted anywhere. *)
  Theorem C120_plain d : exists t, encode_blueprint compress d = String "0" t /\ forall c, In c (list_ascii_of_string t) -> plain c.
  Proof. eexists. split; [reflexivity|]. apply encoded_plain. Qed.
  (** Blanks, line ends and other characters put into it make no difference. *)
  Theorem C120_broken_up t t' : broken_up t t' -> decode_blueprint decompress (String "0" t') = decode_blueprint decompress (String "0" t).
  Proof. intros B. unfold decode_blueprint. rewrite (b64_broken _ _ B). reflexivity. Qed.
  (** Another version, or a blank ahead, is refused. *)
  Theorem C120_version c t : c <> "0"%char -> decode_blueprint decompress (String c t) = None.
  Proof. intros N. unfold decode_blueprint. destruct c as [[] [] [] [] [] [] [] []]; try reflexivity. contradiction. Qed.

  (** A string that was cut off is refused, unless its length is 1 modulo 4. *)
  Theorem C120_cut d a b : encode_blueprint compress d = a ++ b -> (String.length a mod 4 <> 1)%nat -> decode_blueprint decompress a = None.
  Proof.
    intros E L. destruct a as [|c a]; [reflexivity|]. unfold encode_blueprint in E. cbn [append] in E. assert (c = "0"%char /\ b64encode (compress (dumps d)) = a ++ b) as [-> E'] by (split; congruence).
    unfold decode_blueprint, b64decode. rewrite (a2b_cut _ a b E').
    - destruct (forallb _ _); reflexivity.
    - cbn [String.length] in L. intros K. apply L. replace (S (String.length a)) with (1 + String.length a)%nat by lia. rewrite Nat.add_mod, K by lia. reflexivity.
  Qed.
  (** The blueprint of a layout, as a string, is imported as its entities are. *)
  Lemma entity_proper e : proper (entity_doc e).
  Proof.
    unfold entity_doc. constructor.
    - destruct (e_name e), (e_direction e), (e_type e); cbn; repeat (constructor; [cbn; intuition discriminate|]); constructor.
    - intros k x H. cbn [app In] in H. destruct H as [E|[E|H]].
      + assert (x = DNum (e_number e)) by congruence. subst. constructor.
      + assert (Ex : x = DObj [("x", DHalf (e_x2 e)); ("y", DHalf (e_y2 e))]) by congruence. subst x. constructor; [cbn; repeat (constructor; [cbn; intuition discriminate|]); constructor|].
        intros k' y [Ey|[Ey|[]]]; [assert (y = DHalf (e_x2 e)) by congruence|assert (y = DHalf (e_y2 e)) by congruence]; subst y; constructor.
      + rewrite !in_app_iff in H. destruct H as [H|[H|H]]; [destruct (e_name e) as [v|]|destruct (e_direction e) as [v|]|destruct (e_type e) as [v|]]; cbn [In] in H; try contradiction;
          destruct H as [E|[]]; assert (K := f_equal snd E); cbn [snd] in K; rewrite <- K; constructor.
  Qed.
  Lemma blueprint_proper label es : proper (blueprint_doc label es).
  Proof.
    unfold blueprint_doc. constructor; [cbn; repeat (constructor; [cbn; intuition discriminate|]); constructor|]. intros k x [E|[]]. assert (K := f_equal snd E). cbn [snd] in K. rewrite <- K. clear.
    constructor; [destruct label; cbn; repeat (constructor; [cbn; intuition discriminate|]); constructor|].
    intros k x H. cbn [app In] in H. destruct H as [E|[E|[E|H]]]; [assert (K := f_equal snd E); cbn [snd] in K; rewrite <- K; clear..|].
    - constructor. intros x [<-|[]]. constructor; [cbn; repeat (constructor; [cbn; intuition discriminate|]); constructor|].
      intros k x [E|[E|[]]]; assert (K := f_equal snd E); cbn [snd] in K; rewrite <- K; clear; [|constructor].
      constructor; [cbn; repeat (constructor; [cbn; intuition discriminate|]); constructor|]. intros k x [E|[E|[]]]; assert (K := f_equal snd E); cbn [snd] in K; rewrite <- K; constructor.
    - constructor.
    - constructor.
    - rewrite in_app_iff in H. destruct H as [H|[E|[]]].
      + destruct label as [s|]; [|destruct H]. destruct H as [E|[]]. assert (K := f_equal snd E). cbn [snd] in K. rewrite <- K. constructor.
      + assert (K := f_equal snd E). cbn [snd] in K. rewrite <- K. constructor. intros y Hy. apply in_map_iff in Hy. destruct Hy as (e & <- & _). apply entity_proper.
  Qed.
  (** The label that was given, or none. *)
  Theorem C120_label l g label d : make_blueprint_doc g label l = Some d ->
    exists d' b, decode_blueprint decompress (encode_blueprint compress d) = Some d' /\ dget "blueprint" d' = Some b /\ dget "label" b = option_map DStr label.
  Proof.
    unfold make_blueprint_doc. destruct (make_blueprint l g) as [es|]; [|discriminate]. cbn [obind]. intros E. assert (d = blueprint_doc label es) by congruence. subst d.
    eexists. eexists. split; [apply C120_round, blueprint_proper|]. split; [reflexivity|]. destruct label; reflexivity.
  Qed.
  (** An entity without its number. *)
  Definition unnumbered (e : entity) : entity := {| e_number := 0; e_x2 := e_x2 e; e_y2 := e_y2 e; e_name := e_name e; e_direction := e_direction e; e_type := e_type e |}.
  Lemma read_entity_doc e : read_entity (entity_doc e) = if e_name e then Some (unnumbered e) else None.
  Proof. unfold read_entity, entity_doc, unnumbered. destruct (e_name e), (e_direction e), (e_type e); reflexivity. Qed.
  Lemma import_unnumbered : forall es acc, import_entities acc (map unnumbered es) = import_entities acc es.
  Proof. induction es as [|e es IH]; intros acc; [reflexivity|]. cbn [map import_entities]. change (import_entity (unnumbered e)) with (import_entity e). destruct (import_entity e); [apply IH|reflexivity]. Qed.
  Theorem C120_layout l g label es : make_blueprint l g = Some es ->
    exists d, make_blueprint_doc g label l = Some d /\
      (let* d := decode_blueprint decompress (encode_blueprint compress d) in import_blueprint_doc d) = import_blueprint es.
  Proof.
    intros E. exists (blueprint_doc label es). unfold make_blueprint_doc. rewrite E. split; [reflexivity|]. rewrite C120_round by apply blueprint_proper. cbn [obind].
    unfold import_blueprint_doc, read_entities. replace (dget "blueprint" (blueprint_doc label es)) with (dget "blueprint" (blueprint_doc label es)) by reflexivity.
    assert (R : (let* b := dget "blueprint" (blueprint_doc label es) in dget "entities" b) = Some (DArr (map entity_doc es))) by (destruct label; reflexivity).
    destruct (dget "blueprint" (blueprint_doc label es)) as [b|]; [|discriminate]. cbn [obind] in R |- *. rewrite R. cbn [obind]. clear.
    assert (K : omap read_entity (map entity_doc es) = Some (map unnumbered es) \/ (omap read_entity (map entity_doc es) = None /\ forall acc, import_entities acc es = None)).
    { induction es as [|e es IH]; [left; reflexivity|]. cbn [map omap import_entities]. rewrite read_entity_doc. destruct (e_name e) as [n|] eqn:En.
      - cbn [obind]. destruct IH as [->|[-> H]]; [left; reflexivity|right]. split; [reflexivity|]. intros acc. destruct (import_entity e); [apply H|reflexivity].
      - right. split; [reflexivity|]. intros acc. unfold import_entity. rewrite En. reflexivity. }
    destruct K as [->|[-> H]]; cbn [obind].
    - unfold import_blueprint. rewrite import_unnumbered. destruct es; reflexivity.
    - unfold import_blueprint. rewrite H. destruct es as [|e es]; [specialize (H []); discriminate H|reflexivity].
  Qed.
  (** With C21: a layout that fills its grid comes back from its string. *)
  Theorem C120_identity l w h g label :
    rect (Z.to_nat h) (Z.to_nat w) g -> 0 < w -> 0 < h ->
    (forall p, inside (closed w h) p -> blueprintable (layout_of g p)) ->
    splitters_paired (closed w h) (layout_of g) ->
    inputs_inferred (closed w h) (layout_of g) ->
    (forall p, inside (closed w h) p -> layout_of g p <> Filler) ->
    bounding_box (closed w h) (layout_of g) 0 0 w h ->
    exists d, make_blueprint_doc g label l = Some d /\
      (let* d := decode_blueprint decompress (encode_blueprint compress d) in import_blueprint_doc d) = Some g.
  Proof.
    intros R Hw Hh B Sp Ii F Bb. destruct (C21_identity l w h g R Hw Hh B Sp Ii F Bb) as (es & E & I').
    destruct (C120_layout l g label es E) as (d & Ed & Id). exists d. split; [exact Ed|]. rewrite Id. exact I'.
  Qed.
  (** ** C121 *)
  Lemma aset_proper k x o : proper (DObj o) -> proper x -> proper (DObj (aset k x o)).
  Proof.
    intros P Px. inversion P as [| | | | | |o' N F]; subst o'. constructor.
    - assert (Q : forall a (l : list (string * doc)), In a (map fst (aset k x l)) -> a = k \/ In a (map fst l)).
      { clear. intros a. induction l as [|[c d] l IH]; cbn [aset map fst In]; [intros [<-|[]]; auto|]. destruct (String.eqb_spec k c) as [->|_]; cbn [map fst In]; intros [<-|H]; auto. destruct (IH H); auto. }
      clear -N Q. induction o as [|[a b] o IH]; cbn [aset map fst] in *; [constructor; [intros []|constructor]|]. apply NoDup_cons_iff in N. destruct N as [N1 N2].
      destruct (String.eqb_spec k a) as [E|E]; cbn [map fst]; [subst a; constructor; assumption|]. constructor; [|exact (IH N2)].
      intros H. destruct (Q a o H); [congruence|contradiction].
    - intros q y H. assert (K : y = x \/ In (q, y) o).
      { clear -H. induction o as [|[a b] o IH]; cbn [aset In] in H |- *; [destruct H as [E|[]]; left; congruence|]. destruct (String.eqb k a); cbn [In] in H; destruct H as [E|H]; auto; [left; congruence|]. destruct (IH H); auto. }
      destruct K as [->|K]; [exact Px|exact (F q y K)].
  Qed.
  Lemma decode_proper s d : decode_blueprint decompress s = Some d -> proper d.
  Proof.
    unfold decode_blueprint. destruct s as [|c s]; [discriminate|]. destruct c as [[] [] [] [] [] [] [] []]; try discriminate.
    destruct (b64decode s) as [t|]; [|discriminate]. cbn [obind]. destruct (decompress t) as [u|]; [|discriminate]. cbn [obind]. apply C119_keys.
  Qed.
  Lemma numbered_spec ds : forall i, (forall d, In d ds -> proper d) -> forall items, numbered i ds = Some items ->
    (forall d, In d items -> proper d) /\ numbered i items = Some items /\ List.length items = List.length ds /\
    forall n d, nth_error ds n = Some d -> exists d', nth_error items n = Some d' /\
      dget "index" d' = Some (DNum (i + Z.of_nat n)) /\ forall k, k <> "index" -> dget k d' = dget k d.
  Proof.
    induction ds as [|d ds IH]; intros i P items E; cbn [numbered] in E.
    - assert (items = []) by congruence. subst. repeat split; [intros d []|]. intros [|n] d H; discriminate.
    - destruct d as [| | | | | |o]; try discriminate. destruct (numbered (i + 1) ds) as [r|] eqn:Er; [|discriminate]. cbn [obind] in E.
      assert (items = DObj (aset "index" (DNum i) o) :: r) by congruence. subst items. destruct (IH (i + 1) (fun d H => P d (or_intror H)) r Er) as (A & B & C & D). split; [|split; [|split]].
      + intros d [<-|H]; [apply aset_proper; [apply P; left; reflexivity|constructor]|exact (A d H)].
      + cbn [numbered]. rewrite B. cbn [obind]. rewrite aset_aset. reflexivity.
      + cbn. congruence.
      + intros [|n] d H; cbn [nth_error] in H.
        * assert (d = DObj o) by congruence. subst d. exists (DObj (aset "index" (DNum i) o)). split; [reflexivity|]. cbn [dget]. split; [rewrite assoc_aset; f_equal; f_equal; lia|]. intros k K. apply assoc_aset_other. congruence.
        * destruct (D n d H) as (d' & H1 & H2 & H3). exists d'. split; [exact H1|]. split; [rewrite H2; f_equal; f_equal; lia|exact H3].
  Qed.
  Lemma omap_nth {A B} (f : A -> option B) l : forall r, omap f l = Some r -> List.length r = List.length l /\ forall n x, nth_error l n = Some x -> exists y, f x = Some y /\ nth_error r n = Some y.
  Proof.
    induction l as [|a l IH]; intros r E; cbn [omap] in E; [assert (r = []) by congruence; subst; split; [reflexivity|]; intros [|n] x H; discriminate|].
    destruct (f a) as [y|] eqn:Ea; [|discriminate]. cbn [obind] in E. destruct (omap f l) as [ys|]; [|discriminate]. cbn [obind] in E. assert (r = y :: ys) by congruence. subst r.
    destruct (IH ys eq_refl) as [L N]. split; [cbn; congruence|]. intros [|n] x H; cbn [nth_error] in *; [|exact (N n x H)]. assert (x = a) by congruence. subst x. exists y. auto.
  Qed.
  Lemma packed_parts label lines s : pack_lines compress decompress label lines = Some s -> exists ds items book,
    omap (decode_blueprint decompress) lines = Some ds /\ numbered 0 ds = Some items /\ pack_docs ds label = Some book /\ (forall d, In d items -> proper d) /\
    s = encode_blueprint compress book /\ decode_blueprint decompress s = Some book /\ unpack_doc book = Some items.
  Proof.
    unfold pack_lines. intros E. destruct (omap _ lines) as [ds|] eqn:Ed; [|discriminate]. cbn [obind] in E. destruct (pack_docs ds label) as [book|] eqn:Eb; [|discriminate]. cbn [obind] in E.
    assert (s = encode_blueprint compress book) by congruence. pose proof Eb as Eb'. unfold pack_docs in Eb. destruct (numbered 0 ds) as [items|] eqn:En; [|discriminate]. cbn [obind] in Eb.
    assert (Pd : forall d, In d ds -> proper d).
    { intros d Hd. apply In_nth_error in Hd. destruct Hd as [n Hn]. destruct (omap_nth _ _ _ Ed) as [L N]. destruct (nth_error lines n) as [x|] eqn:Ex.
      - destruct (N n x Ex) as (y & Hy & Hy'). assert (y = d) by congruence. subst y. exact (decode_proper x d Hy).
      - apply nth_error_None in Ex. assert (nth_error ds n <> None) as K by congruence. apply nth_error_Some in K. lia. }
    destruct (numbered_spec ds 0 Pd items En) as (Pi & _ & _ & _).
    exists ds, items, book. split; [reflexivity|]. split; [exact En|]. split; [exact Eb'|]. split; [exact Pi|]. split; [assumption|]. split.
    - subst s. apply C120_round. assert (Q := f_equal (fun o => match o with Some d => d | None => DNull end) Eb). cbn beta iota in Q. rewrite <- Q. clear -Pi.
      constructor; [cbn; repeat (constructor; [cbn; intuition discriminate|]); constructor|]. intros k x [E|[]]. assert (K := f_equal snd E). cbn [snd] in K. rewrite <- K. clear -Pi.
      constructor; [destruct label; cbn; repeat (constructor; [cbn; intuition discriminate|]); constructor|].
      intros k x H. cbn [app In] in H. destruct H as [E|[E|[E|H]]]; [assert (K := f_equal snd E); cbn [snd] in K; rewrite <- K; constructor..|].
      rewrite in_app_iff in H. destruct H as [H|[E|[]]]; [destruct label; [destruct H as [E|[]]|destruct H]|]; assert (K := f_equal snd E); cbn [snd] in K; rewrite <- K; constructor. exact Pi.
    - assert (Q := f_equal (fun o => match o with Some d => d | None => DNull end) Eb). cbn beta iota in Q. rewrite <- Q. destruct label; reflexivity.
  Qed.
  (** What was packed is unpacked: as many lines, in order, each with the same
      fields, save that index is its place. *)
  Theorem C121_round label lines s : pack_lines compress decompress label lines = Some s ->
    exists out, unpack_line compress decompress s = Some out /\ List.length out = List.length lines /\
      forall n line, nth_error lines n = Some line -> exists line' d d',
        nth_error out n = Some line' /\ decode_blueprint decompress line = Some d /\ decode_blueprint decompress line' = Some d' /\
        dget "index" d' = Some (DNum (Z.of_nat n)) /\ forall k, k <> "index" -> dget k d' = dget k d.
  Proof.
    intros E. destruct (packed_parts _ _ _ E) as (ds & items & book & Ed & En & Eb & Pi & Es & Dec & U). exists (map (encode_blueprint compress) items).
    destruct (omap_nth _ _ _ Ed) as [L N]. assert (Pd : forall d, In d ds -> proper d).
    { intros d Hd. apply In_nth_error in Hd. destruct Hd as [n Hn]. destruct (nth_error lines n) as [x|] eqn:Ex.
      - destruct (N n x Ex) as (y & Hy & Hy'). assert (y = d) by congruence. subst y. exact (decode_proper x d Hy).
      - apply nth_error_None in Ex. assert (nth_error ds n <> None) as K by congruence. apply nth_error_Some in K. lia. }
    destruct (numbered_spec ds 0 Pd items En) as (_ & _ & L' & F). split; [unfold unpack_line; rewrite Dec; cbn [obind]; rewrite U; reflexivity|]. split; [rewrite map_length; congruence|].
    intros n line Hl. destruct (N n line Hl) as (d & Hd & Hd'). destruct (F n d Hd') as (d' & H1 & H2 & H3). exists (encode_blueprint compress d'), d, d'.
    split; [apply map_nth_error; exact H1|]. split; [exact Hd|]. split; [apply C120_round; apply Pi; apply nth_error_In in H1; exact H1|]. split; [exact H2|exact H3].
  Qed.
  (** Packing the lines again gives the same book, character by character. *)
  Theorem C121_stable label lines s out : pack_lines compress decompress label lines = Some s -> unpack_line compress decompress s = Some out ->
    pack_lines compress decompress label out = Some s.
  Proof.
    intros E U. destruct (packed_parts _ _ _ E) as (ds & items & book & Ed & En & Eb & Pi & Es & Dec & Ui). unfold unpack_line in U. rewrite Dec in U. cbn [obind] in U. rewrite Ui in U. cbn [obind] in U.
    assert (out = map (encode_blueprint compress) items) by congruence. subst out. unfold pack_lines.
    assert (R : forall l, (forall d, In d l -> proper d) -> omap (decode_blueprint decompress) (map (encode_blueprint compress) l) = Some l).
    { clear -zlib. induction l as [|d l IH]; intros P; [reflexivity|]. cbn [map omap]. rewrite (C120_round d (P d (or_introl eq_refl))). cbn [obind]. rewrite IH; [reflexivity|]. intros x H. exact (P x (or_intror H)). }
    rewrite (R items Pi). cbn [obind]. assert (St : numbered 0 items = Some items).
    { clear -En. revert ds items En. assert (G : forall ds i items, numbered i ds = Some items -> numbered i items = Some items).
      { induction ds as [|d ds IH]; intros i items E; cbn [numbered] in E; [assert (items = []) by congruence; subst; reflexivity|]. destruct d as [| | | | | |o]; try discriminate.
        destruct (numbered (i + 1) ds) as [r|] eqn:Er; [|discriminate]. cbn [obind] in E. assert (items = DObj (aset "index" (DNum i) o) :: r) by congruence. subst items.
        cbn [numbered]. rewrite (IH _ _ Er). cbn [obind]. rewrite aset_aset. reflexivity. }
      intros ds items En. exact (G ds 0 items En). }
    unfold pack_docs in Eb |- *. rewrite En in Eb. rewrite St. cbn [obind] in Eb |- *. rewrite Es. f_equal. congruence.
  Qed.
  (** The book has the label that was given, or none. *)
  Theorem C121_label label lines s : pack_lines compress decompress label lines = Some s ->
    exists d b, decode_blueprint decompress s = Some d /\ dget "blueprint_book" d = Some b /\ dget "label" b = option_map DStr label.
  Proof.
    intros E. destruct (packed_parts _ _ _ E) as (ds & items & book & _ & En & Eb & _ & _ & Dec & _). exists book. unfold pack_docs in Eb. rewrite En in Eb. cbn [obind] in Eb.
    assert (Q := f_equal (fun o => match o with Some d => d | None => DNull end) Eb). cbn beta iota in Q. rewrite <- Q in Dec |- *. eexists. split; [exact Dec|]. split; [reflexivity|]. destruct label; reflexivity.
  Qed.
  (** Packing fails just if a line is no string of a dictionary. *)
  Theorem C121_fails label lines : pack_lines compress decompress label lines = None <->
    exists line, In line lines /\ forall o, decode_blueprint decompress line <> Some (DObj o).
  Proof.
    unfold pack_lines. assert (G : forall lines i, (exists line, In line lines /\ forall o, decode_blueprint decompress line <> Some (DObj o)) <-> (let* ds := omap (decode_blueprint decompress) lines in numbered i ds) = None).
    { clear. induction lines as [|x lines IH]; intros i; [cbn; split; [intros (? & [] & _)|discriminate]|]. cbn [omap]. specialize (IH (i + 1)). destruct (decode_blueprint decompress x) as [d|] eqn:Ex; cbn [obind].
      - destruct (omap _ lines) as [ds|]; cbn [obind] in IH |- *.
        + cbn [numbered]. split.
          * intros (y & [<-|Hy] & H); [destruct d; try reflexivity; exfalso; exact (H _ Ex)|]. destruct d; try reflexivity. rewrite (proj1 IH) by (exists y; auto). reflexivity.
          * intros H. destruct d; try (exists x; split; [left; reflexivity|intros o; congruence]). destruct (numbered (i + 1) ds); [discriminate|]. destruct (proj2 IH eq_refl) as (y & Hy & K). exists y. split; [right; exact Hy|exact K].
        + split; [reflexivity|]. intros _. destruct (proj2 IH eq_refl) as (y & Hy & K). exists y. split; [right; exact Hy|exact K].
      - split; [reflexivity|]. intros _. exists x. split; [left; reflexivity|]. intros o. congruence. }
    rewrite (G lines 0). destruct (omap _ lines) as [ds|]; cbn [obind]; [|tauto]. unfold pack_docs. destruct (numbered 0 ds); cbn [obind]; split; congruence.
  Qed.
End Strings.

(** ** Cases that meet the hypotheses *)
Definition sample_doc : doc := DObj [("a""b\", DArr [DNum (-12); DHalf (-1); DHalf 4; DNull; DBool true; DStr (String "200" "x")]); ("k", DObj []); ("l", DArr [])].
Example C119_met : proper sample_doc /\ dumps sample_doc = "{""a\""b\\"": [-12, -0.5, 2.0, null, true, ""\u00c8x""], ""k"": {}, ""l"": []}".
Proof.
  split; [|vm_compute; reflexivity]. apply (C119_keys (dumps sample_doc)). vm_compute. reflexivity.
Qed.
Example C119_blanks : loads " { ""a"" :1 , ""b"":[ ] ,""a"": 0 } " = Some (DObj [("a", DNum 0); ("b", DArr [])]).
Proof. vm_compute. reflexivity. Qed.
(** Storing without compression is a compressor. *)
Example C120_met : decode_blueprint Some (encode_blueprint (fun s => s) (DObj [("a", DNum 1)])) = Some (DObj [("a", DNum 1)]) /\
  encode_blueprint (fun s => s) (DObj [("a", DNum 1)]) = "0eyJhIjogMX0=" /\ decode_blueprint Some "0eyJh Ijog-MX0=" = Some (DObj [("a", DNum 1)]).
Proof. vm_compute. auto. Qed.
Example C120_broken_met : broken_up "eyJh=" "ey Jh=".
Proof. do 2 apply broken_same. apply broken_more; [cbn; lia| |repeat apply broken_same; constructor]. intros [E|H]; [discriminate|]. cbn in H. intuition discriminate. Qed.
Example C120_cut_met : decode_blueprint Some "0eyJhIjogMX0" = None /\ decode_blueprint Some "0eyJhIjogMQ=" = None.
Proof. vm_compute. auto. Qed.
Example C120_layout_met : exists es, make_blueprint NORMAL [[Belt RIGHT RIGHT; Splitter UP true]] = Some es.
Proof. eexists. reflexivity. Qed.
Example C121_met : let line := encode_blueprint (fun s => s) (DObj [("index", DNum 7); ("a", DNull)]) in
  (let* s := pack_lines (fun s => s) Some (Some "x") [line; line] in let* out := unpack_line (fun s => s) Some s in omap (decode_blueprint Some) out) =
  Some [DObj [("index", DNum 0); ("a", DNull)]; DObj [("index", DNum 1); ("a", DNull)]].
Proof. vm_compute. reflexivity. Qed.

Print Assumptions C119_round.
Print Assumptions C119_keys.
Print Assumptions C119_line.
Print Assumptions C120_round.
Print Assumptions C120_different.
Print Assumptions C120_plain.
Print Assumptions C120_broken_up.
Print Assumptions C120_version.
Print Assumptions C120_layout.
Print Assumptions C120_identity.
Print Assumptions C121_round.
Print Assumptions C121_stable.
Print Assumptions C121_fails.
Print Assumptions C120_cut.
Print Assumptions C120_label.
Print Assumptions C121_label.
