(** Basic facts about the CNF vocabulary. *)
From Coq Require Import ZArith List Bool Lia.
From Verif Require Import Spec_Cnf M_Util.
Import ListNotations.
Open Scope Z_scope.

Lemma evl_neg a l : l <> 0 -> evl a (- l) = negb (evl a l).
Proof.
  intros H. unfold evl.
  destruct (0 <? l) eqn:E1, (0 <? - l) eqn:E2;
    rewrite ?Z.ltb_lt, ?Z.ltb_ge in *; try lia.
  - rewrite Z.opp_involutive. reflexivity.
  - rewrite negb_involutive. reflexivity.
Qed.

Lemma evl_pos a v : 0 < v -> evl a v = a v.
Proof. intros H. unfold evl. apply Z.ltb_lt in H. rewrite H. reflexivity. Qed.

Lemma sat_nil a : sat a [] = true.
Proof. reflexivity. Qed.
Lemma sat_cons a c f : sat a (c :: f) = satc a c && sat a f.
Proof. reflexivity. Qed.
Lemma sat_app a f g : sat a (f ++ g) = sat a f && sat a g.
Proof. unfold sat. apply forallb_app. Qed.
Lemma satc_nil a : satc a [] = false.
Proof. reflexivity. Qed.
Lemma satc_cons a l c : satc a (l :: c) = evl a l || satc a c.
Proof. reflexivity. Qed.
Lemma satc_app a c d : satc a (c ++ d) = satc a c || satc a d.
Proof. unfold satc. apply existsb_app. Qed.

Lemma sat_forall a f : sat a f = true <-> forall c, In c f -> satc a c = true.
Proof. unfold sat. apply forallb_forall. Qed.

Lemma sat_flat_map {A} a (g : A -> cnf) l :
  sat a (flat_map g l) = true <-> forall x, In x l -> sat a (g x) = true.
Proof.
  induction l as [|x l IH]; cbn [flat_map].
  - split; intros; [contradiction|reflexivity].
  - rewrite sat_app, andb_true_iff, IH. split.
    + intros [H1 H2] y [->|Hy]; auto.
    + intros H. split; [apply H; left|intros; apply H; right]; auto.
Qed.

Lemma sat_map {A} a (g : A -> clause) l :
  sat a (map g l) = true <-> forall x, In x l -> satc a (g x) = true.
Proof.
  rewrite sat_forall. split.
  - intros H x Hx. apply H. apply in_map. assumption.
  - intros H c Hc. apply in_map_iff in Hc. destruct Hc as (x & <- & Hx). auto.
Qed.

Lemma sat_concat a ll :
  sat a (concat ll) = true <-> forall l, In l ll -> sat a l = true.
Proof.
  rewrite <- (map_id ll) at 1. rewrite <- flat_map_concat_map.
  apply sat_flat_map.
Qed.

Lemma satc_In a c : satc a c = true <-> exists l, In l c /\ evl a l = true.
Proof. unfold satc. apply existsb_exists. Qed.

(** Negated literal lists. *)
Lemma satc_opp a ls : Forall nonzero ls ->
  satc a (map Z.opp ls) = negb (forallb (evl a) ls).
Proof.
  induction 1 as [|l ls H _ IH]; [reflexivity|].
  cbn [map forallb]. rewrite satc_cons, IH, evl_neg by exact H.
  destruct (evl a l), (forallb (evl a) ls); reflexivity.
Qed.

Lemma sat_implies a cond cs : Forall nonzero cond ->
  sat a (implies cond cs) = negb (forallb (evl a) cond) || sat a cs.
Proof.
  intros H. induction cs as [|c cs IH].
  - cbn. rewrite orb_true_r. reflexivity.
  - unfold implies in *. cbn [map]. rewrite !sat_cons, IH, satc_app, satc_opp by assumption.
    destruct (forallb (evl a) cond); reflexivity.
Qed.

(** Agreement and extension. *)
Lemma agree_refl n a : agree n a a.
Proof. intros v _. reflexivity. Qed.
Lemma agree_sym n a b : agree n a b -> agree n b a.
Proof. intros H v Hv. symmetry. auto. Qed.
Lemma agree_trans n a b c : agree n a b -> agree n b c -> agree n a c.
Proof. intros H1 H2 v Hv. rewrite H1, H2 by assumption. reflexivity. Qed.
Lemma agree_mono m n a b : m <= n -> agree n a b -> agree m a b.
Proof. intros H1 H2 v Hv. apply H2. lia. Qed.

Lemma lit_ok_mono m n l : m <= n -> lit_ok m l -> lit_ok n l.
Proof. unfold lit_ok. lia. Qed.
Lemma lit_ok_opp n l : lit_ok n l -> lit_ok n (- l).
Proof. unfold lit_ok. lia. Qed.
Lemma lit_ok_nonzero n l : lit_ok n l -> nonzero l.
Proof. unfold lit_ok, nonzero. tauto. Qed.
Lemma Forall_ok_nonzero n ls : Forall (lit_ok n) ls -> Forall nonzero ls.
Proof. apply Forall_impl. apply lit_ok_nonzero. Qed.
Lemma Forall_ok_mono m n ls : m <= n -> Forall (lit_ok m) ls -> Forall (lit_ok n) ls.
Proof. intros H. apply Forall_impl. intros l. apply lit_ok_mono. assumption. Qed.

Lemma evl_agree n a b l : agree n a b -> lit_ok n l -> evl a l = evl b l.
Proof.
  intros H [H0 H1]. unfold evl. destruct (0 <? l) eqn:E.
  - apply Z.ltb_lt in E. apply H. lia.
  - apply Z.ltb_ge in E. f_equal. apply H. lia.
Qed.

Lemma values_agree n a b ls : agree n a b -> Forall (lit_ok n) ls -> values a ls = values b ls.
Proof.
  intros H. induction 1 as [|l ls Hl _ IH]; [reflexivity|].
  unfold values in *. cbn. rewrite IH, (evl_agree n a b) by assumption. reflexivity.
Qed.

Lemma value_agree n a b ls : agree n a b -> Forall (lit_ok n) ls -> value a ls = value b ls.
Proof. intros. unfold value. erewrite values_agree by eassumption. reflexivity. Qed.

Definition cnf_ok (n : Z) (f : cnf) : Prop := Forall (Forall (lit_ok n)) f.

Lemma cnf_ok_mono m n f : m <= n -> cnf_ok m f -> cnf_ok n f.
Proof. intros H. apply Forall_impl. intros c. apply Forall_ok_mono. assumption. Qed.
Lemma cnf_ok_app n f g : cnf_ok n f -> cnf_ok n g -> cnf_ok n (f ++ g).
Proof. intros. apply Forall_app. split; assumption. Qed.

Lemma satc_agree n a b c : agree n a b -> Forall (lit_ok n) c -> satc a c = satc b c.
Proof.
  intros H. induction 1 as [|l c Hl _ IH]; [reflexivity|].
  rewrite !satc_cons, IH, (evl_agree n a b) by assumption. reflexivity.
Qed.
Lemma sat_agree n a b f : agree n a b -> cnf_ok n f -> sat a f = sat b f.
Proof.
  intros H. induction 1 as [|c f Hc _ IH]; [reflexivity|].
  rewrite !sat_cons, IH, (satc_agree n a b) by assumption. reflexivity.
Qed.

Definition upd (a : assignment) (v : Z) (b : bool) : assignment :=
  fun w => if w =? v then b else a w.
Lemma upd_same a v b : upd a v b v = b.
Proof. unfold upd. rewrite Z.eqb_refl. reflexivity. Qed.
Lemma upd_agree n a v b : n < v -> agree n a (upd a v b).
Proof.
  intros H w Hw. unfold upd. destruct (w =? v) eqn:E; [|reflexivity].
  apply Z.eqb_eq in E. lia.
Qed.

Lemma implies_ok n cond cs :
  Forall (lit_ok n) cond -> cnf_ok n cs -> cnf_ok n (implies cond cs).
Proof.
  intros H1 H2. unfold implies, cnf_ok in *. apply Forall_map.
  eapply Forall_impl; [|exact H2]. cbn. intros c Hc. apply Forall_app. split; [|assumption].
  apply Forall_map. eapply Forall_impl; [|exact H1]. intros l. apply lit_ok_opp.
Qed.

(** Fresh variables. *)
Lemma fresh_length top k : length (fresh top k) = k.
Proof. revert top. induction k; cbn; intros; congruence. Qed.
Lemma fresh_In top k v : In v (fresh top k) <-> top < v <= top + Z.of_nat k.
Proof.
  revert top. induction k as [|k IH]; intros top; cbn [fresh In].
  - lia.
  - rewrite IH. lia.
Qed.
Lemma fresh_ok top k n : 0 <= top -> top + Z.of_nat k <= n -> Forall (lit_ok n) (fresh top k).
Proof.
  intros H1 H2. apply Forall_forall. intros v Hv. apply fresh_In in Hv.
  unfold lit_ok. lia.
Qed.
Lemma fresh_NoDup top k : NoDup (fresh top k).
Proof.
  revert top. induction k as [|k IH]; intros top; cbn; constructor; [|apply IH].
  rewrite fresh_In. lia.
Qed.
Lemma fresh_app top k m : fresh top (k + m) = fresh top k ++ fresh (top + Z.of_nat k) m.
Proof.
  revert top. induction k as [|k IH]; intros top; cbn [fresh plus app].
  - f_equal. lia.
  - f_equal. rewrite IH. do 2 f_equal. lia.
Qed.

(** Set a block of fresh variables to given bits. *)
Fixpoint upds (a : assignment) (top : Z) (bs : list bool) : assignment :=
  match bs with
  | [] => a
  | b :: bs' => upds (upd a (top + 1) b) (top + 1) bs'
  end.
Lemma upds_agree a top bs : agree top a (upds a top bs).
Proof.
  revert a top. induction bs as [|b bs IH]; intros a top; cbn.
  - apply agree_refl.
  - eapply agree_trans; [apply (upd_agree top a (top + 1) b); lia|].
    eapply agree_mono; [|apply IH]. lia.
Qed.
Lemma upds_values a top bs : 0 <= top -> values (upds a top bs) (fresh top (length bs)) = bs.
Proof.
  revert a top. induction bs as [|b bs IH]; intros a top H; [reflexivity|].
  unfold values in *. cbn [length fresh map upds]. f_equal.
  - rewrite evl_pos by lia.
    rewrite <- (upds_agree (upd a (top + 1) b) (top + 1) bs) by lia. apply upd_same.
  - apply IH. lia.
Qed.

(** Numbers. *)
Lemma num_nonneg bs : 0 <= num bs.
Proof. induction bs as [|b bs IH]; cbn [num]; [lia|]. destruct b; cbn [Z.b2z]; lia. Qed.
Lemma num_bound bs : 0 <= num bs < 2 ^ len bs.
Proof.
  unfold len. induction bs as [|b bs IH]; cbn [num length]; [cbn; lia|].
  rewrite Nat2Z.inj_succ, Z.pow_succ_r by lia. destruct b; cbn [Z.b2z]; lia.
Qed.
Lemma value_bound a ls : 0 <= value a ls < 2 ^ len ls.
Proof.
  unfold value. pose proof (num_bound (values a ls)) as H.
  unfold len, values in *. rewrite map_length in H. exact H.
Qed.
Lemma value_nonneg a ls : 0 <= value a ls.
Proof. apply value_bound. Qed.
Lemma value_cons a l ls : value a (l :: ls) = Z.b2z (evl a l) + 2 * value a ls.
Proof. reflexivity. Qed.
Lemma value_nil a : value a [] = 0.
Proof. reflexivity. Qed.
Lemma num_app xs ys : num (xs ++ ys) = num xs + 2 ^ len xs * num ys.
Proof.
  unfold len. induction xs as [|x xs IH]; cbn [num app length].
  - change (2 ^ Z.of_nat 0) with 1. lia.
  - rewrite IH, Nat2Z.inj_succ, Z.pow_succ_r by lia. lia.
Qed.
Lemma value_app a xs ys : value a (xs ++ ys) = value a xs + 2 ^ len xs * value a ys.
Proof.
  unfold value, values. rewrite map_app, num_app. unfold len. rewrite map_length. reflexivity.
Qed.
Lemma num_inj xs ys : length xs = length ys -> num xs = num ys -> xs = ys.
Proof.
  revert ys. induction xs as [|x xs IH]; intros [|y ys] HL H; cbn in HL; try discriminate; [reflexivity|].
  cbn [num] in H. destruct x, y; cbn [Z.b2z] in H;
    try (exfalso; lia); f_equal; apply IH; congruence || lia.
Qed.
Lemma len_nonneg {A} (l : list A) : 0 <= len l.
Proof. unfold len. lia. Qed.
Lemma len_cons {A} (x : A) l : len (x :: l) = len l + 1.
Proof. unfold len. cbn [length]. lia. Qed.
Lemma len_app {A} (l m : list A) : len (l ++ m) = len l + len m.
Proof. unfold len. rewrite app_length. lia. Qed.
Lemma values_length a ls : length (values a ls) = length ls.
Proof. apply map_length. Qed.

Lemma get_bits_cons v n : get_bits v (S n) = Z.odd v :: get_bits (Z.shiftr v 1) n.
Proof.
  unfold get_bits. cbn [seq map]. f_equal.
  rewrite <- seq_shift, map_map. apply map_ext. intros i.
  rewrite Z.shiftr_spec by lia. f_equal. lia.
Qed.
Lemma get_bits_length v n : length (get_bits v n) = n.
Proof. unfold get_bits. rewrite map_length, seq_length. reflexivity. Qed.
Lemma shiftr1 v : Z.shiftr v 1 = v / 2.
Proof. rewrite Z.shiftr_div_pow2 by lia. reflexivity. Qed.
Lemma odd_b2z v : Z.b2z (Z.odd v) = v mod 2.
Proof. rewrite Zmod_odd. destruct (Z.odd v); reflexivity. Qed.
Lemma num_get_bits v n : num (get_bits v n) = v mod 2 ^ Z.of_nat n.
Proof.
  revert v. induction n as [|n IH]; intros v.
  - cbn. rewrite Z.mod_1_r. reflexivity.
  - rewrite get_bits_cons. cbn [num].
    rewrite IH, shiftr1, odd_b2z, Nat2Z.inj_succ, Z.pow_succ_r by lia.
    rewrite Z.rem_mul_r by lia. lia.
Qed.
Lemma shiftl1 n : 0 <= n -> Z.shiftl 1 n = 2 ^ n.
Proof. intros. rewrite Z.shiftl_mul_pow2 by lia. lia. Qed.

Lemma evl_set_literal a l v : l <> 0 -> evl a (set_literal l v) = eqb (evl a l) v.
Proof.
  intros H. destruct v; cbn [set_literal].
  - destruct (evl a l); reflexivity.
  - rewrite evl_neg by assumption. destruct (evl a l); reflexivity.
Qed.
Lemma set_literal_ok n l v : lit_ok n l -> lit_ok n (set_literal l v).
Proof. destruct v; [auto|apply lit_ok_opp]. Qed.
