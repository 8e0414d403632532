(** Proofs about the solver interface. *)
From Coq Require Import String Ascii ZArith List Bool Lia DecimalString DecimalZ.
From Verif Require Import Spec_Cnf M_Json M_Util M_Template M_Solve P_List P_Cnf.
Import ListNotations.
Local Open Scope string_scope.
Open Scope Z_scope.

(** * Enumeration *)
Definition in_dom (dom : list Z) (cs : cnf) : Prop := Forall (Forall (fun l => In (Z.abs l) dom)) cs.
Definition agrees (m : list lit) (a : assignment) : Prop := Forall (fun l => evl a l = true) m.
(** The assignment read from a model. *)
Definition model_assignment (m : list lit) : assignment := fun v => existsb (Z.eqb v) m.

(** A list of literals that gives each variable of [dom] one value. *)
Definition full_model (dom : list Z) (m : list lit) : Prop :=
  Forall (fun l => l <> 0) m /\ NoDup (map Z.abs m) /\ forall v, In v (map Z.abs m) <-> In v dom.

Lemma agrees_self dom m : full_model dom m -> agrees m (model_assignment m).
Proof.
  intros (N0 & ND & _). apply Forall_forall. intros l Hl. unfold evl, model_assignment.
  rewrite Forall_forall in N0. pose proof (N0 l Hl).
  destruct (Z.ltb_spec 0 l).
  - apply existsb_exists. exists l. split; [exact Hl|apply Z.eqb_refl].
  - apply negb_true_iff. apply not_true_is_false. intros E. apply existsb_exists in E. destruct E as (k & Hk & Ek). apply Z.eqb_eq in Ek.
    subst k. 
    assert (l = - l); [|lia].
    assert (forall x y, In x m -> In y m -> Z.abs x = Z.abs y -> x = y) as Inj.
    { intros x y Hx Hy E. apply In_nth_error in Hx. apply In_nth_error in Hy. destruct Hx as [i Hi], Hy as [j Hj].
      assert (i = j); [|congruence].
      rewrite NoDup_nth_error in ND. apply ND.
      - rewrite map_length. apply nth_error_Some. congruence.
      - rewrite !nth_error_map, Hi, Hj. cbn. congruence. }
    apply Inj; auto. lia.
Qed.

(** What is asked of the solver: for clauses over the variables [dom] it
    gives a full satisfying model, or reports unsatisfiability truthfully. *)
Definition correct_solver (dom : list Z) (solver : cnf -> option (list lit)) : Prop :=
  forall cs, in_dom dom cs ->
    match solver cs with
    | Some m => full_model dom m /\ sat (model_assignment m) cs = true
    | None => forall a, sat a cs = false
    end.

(** Two assignments agree on the important variables. *)
Definition same_on (important dom : list Z) (a b : assignment) : Prop :=
  forall v, In v dom -> In v important -> a v = b v.

Lemma clauses_app_sat a cs c : sat a (cs ++ [c])%list = sat a cs && existsb (evl a) c.
Proof. rewrite sat_app. f_equal. cbn. rewrite andb_true_r. reflexivity. Qed.

Lemma existsb_mem v l : existsb (Z.eqb v) l = true <-> In v l.
Proof.
  rewrite existsb_exists. split.
  - intros (x & Hx & E). apply Z.eqb_eq in E. subst. exact Hx.
  - intros H. exists v. split; [exact H|apply Z.eqb_refl].
Qed.

Lemma evl_cases a l : l <> 0 -> evl a l = if 0 <? l then a (Z.abs l) else negb (a (Z.abs l)).
Proof.
  intros N. unfold evl. destruct (Z.ltb_spec 0 l); [rewrite Z.abs_eq by lia; reflexivity|].
  rewrite Z.abs_neq by lia. reflexivity.
Qed.
Lemma evl_neg a l : l <> 0 -> evl a (- l) = negb (evl a l).
Proof.
  intros N. rewrite !evl_cases by lia. rewrite Z.abs_opp. destruct (Z.ltb_spec 0 (-l)), (Z.ltb_spec 0 l); try lia; cbn; [|reflexivity].
  rewrite negb_involutive. reflexivity.
Qed.

Section Enumerate.
  Variables (dom important : list Z) (solver : cnf -> option (list lit)).
  Hypothesis Hs : correct_solver dom solver.
  Notation imp v := (existsb (Z.eqb v) important).

  Lemma blocking_dom m : full_model dom m -> Forall (fun l => In (Z.abs l) dom) (blocking important m).
  Proof.
    intros (_ & _ & D). apply Forall_forall. intros l Hl. unfold blocking in Hl. apply in_map_iff in Hl.
    destruct Hl as (k & <- & Hk). apply filter_In in Hk. rewrite Z.abs_opp. apply D. apply in_map. apply Hk.
  Qed.

  (** The clause excludes exactly the assignments that agree with the model. *)
  Lemma blocking_sat m a : full_model dom m ->
    existsb (evl a) (blocking important m) = false <-> same_on important dom a (model_assignment m).
  Proof.
    intros F. pose proof (agrees_self dom m F) as S. unfold agrees in S. rewrite Forall_forall in S.
    destruct F as (N0 & ND & D). rewrite Forall_forall in N0. split.
    - intros E v Hv Hi. apply D in Hv. apply in_map_iff in Hv. destruct Hv as (l & El & Hl).
      assert (X : evl a (- l) = false).
      { apply not_true_is_false. intros T. assert (existsb (evl a) (blocking important m) = true); [|congruence].
        apply existsb_exists. exists (- l). split; [|exact T]. unfold blocking. apply in_map. apply filter_In. split; [exact Hl|].
        apply existsb_mem. rewrite El. exact Hi. }
      pose proof (N0 l Hl) as NZ. rewrite evl_neg in X by exact NZ. apply negb_false_iff in X.
      pose proof (S l Hl) as Y. rewrite evl_cases in X, Y by exact NZ. rewrite El in *.
      destruct (0 <? l); destruct (a v), (model_assignment m v); cbn in *; congruence.
    - intros E. apply not_true_is_false. intros T. apply existsb_exists in T. destruct T as (k & Hk & Ek).
      unfold blocking in Hk. apply in_map_iff in Hk. destruct Hk as (l & <- & Hl). apply filter_In in Hl. destruct Hl as [Hl Hi].
      apply existsb_mem in Hi. pose proof (N0 l Hl) as NZ. rewrite evl_neg in Ek by exact NZ. apply negb_true_iff in Ek.
      pose proof (S l Hl) as Y. rewrite evl_cases in Ek, Y by exact NZ. rewrite (E (Z.abs l)) in Ek; [congruence| |exact Hi].
      apply D. apply in_map. exact Hl.
  Qed.

  Lemma itersolve_correct fuel : forall cs ms, in_dom dom cs -> itersolve solver important fuel cs = Some ms ->
    (forall m, In m ms -> full_model dom m /\ sat (model_assignment m) cs = true) /\
    (forall a, sat a cs = true -> exists m, In m ms /\ same_on important dom a (model_assignment m)) /\
    (forall i j m m', nth_error ms i = Some m -> nth_error ms j = Some m' -> i <> j ->
       ~ same_on important dom (model_assignment m) (model_assignment m')).
  Proof.
    induction fuel as [|f IH]; intros cs ms D E; cbn [itersolve] in E; [discriminate|].
    pose proof (Hs cs D) as K. destruct (solver cs) as [m|].
    - destruct K as [F S]. destruct (itersolve solver important f (cs ++ [blocking important m])) as [ms'|] eqn:Em; [|discriminate].
      cbn [obind] in E. injection E as <-.
      destruct (IH _ _ ltac:(apply Forall_app; split; [exact D|constructor; [apply blocking_dom; exact F|constructor]]) Em) as (H1 & H2 & H3).
      split; [|split].
      + intros m0 [<-|Hin]; [auto|]. destruct (H1 m0 Hin) as [F0 S0]. split; [exact F0|]. rewrite clauses_app_sat in S0.
        apply andb_true_iff in S0. apply S0.
      + intros a Sa. destruct (existsb (evl a) (blocking important m)) eqn:B.
        * destruct (H2 a) as (m0 & Hin & Hm0); [rewrite clauses_app_sat, Sa, B; reflexivity|]. exists m0. split; [right; exact Hin|exact Hm0].
        * exists m. split; [left; reflexivity|]. apply blocking_sat; assumption.
      + assert (First : forall j m', nth_error ms' j = Some m' -> ~ same_on important dom (model_assignment m') (model_assignment m)).
        { intros j m' Hj C. apply nth_error_In in Hj. destruct (H1 m' Hj) as [_ S']. rewrite clauses_app_sat in S'.
          apply andb_true_iff in S'. destruct S' as [_ S']. apply (blocking_sat m _ F) in C. congruence. }
        intros [|i] [|j] x y Hi Hj Hne; cbn in Hi, Hj.
        * lia.
        * injection Hi as <-. intros C. apply (First j y Hj). intros v Hv Hw. symmetry. apply C; assumption.
        * injection Hj as <-. apply (First i x Hi).
        * apply (H3 i j x y Hi Hj). lia.
    - injection E as <-. split; [intros m []|]. split; [|intros [|] ? ? ?; discriminate].
      intros a Sa. rewrite K in Sa. discriminate.
  Qed.

  (** Termination: at most one round for each valuation of the important
      variables. *)
  Definition proj (a : assignment) : list bool := map a (filter (fun v => imp v) dom).
  Fixpoint vectors (n : nat) : list (list bool) :=
    match n with O => [[]] | S n' => map (cons true) (vectors n') ++ map (cons false) (vectors n') end%list.
  Lemma vectors_in v : In v (vectors (length v)).
  Proof.
    induction v as [|b v IH]; cbn; [auto|]. apply in_or_app. destruct b; [left|right]; apply in_map; exact IH.
  Qed.
  Lemma vectors_length n : length (vectors n) = (2 ^ n)%nat.
  Proof. induction n as [|n IH]; [reflexivity|]. cbn [vectors]. rewrite app_length, !map_length, IH. cbn. lia. Qed.

  Lemma itersolve_ends fuel : forall cs seen, in_dom dom cs -> NoDup seen ->
    (forall v, In v seen -> length v = length (filter (fun v => imp v) dom)) ->
    (forall a, sat a cs = true -> ~ In (proj a) seen) ->
    (2 ^ length (filter (fun v => imp v) dom) < length seen + fuel)%nat ->
    exists ms, itersolve solver important fuel cs = Some ms.
  Proof.
    induction fuel as [|f IH]; intros cs seen D N L S B.
    - exfalso. assert (length seen <= length (vectors (length (filter (fun v => imp v) dom))))%nat.
      { apply NoDup_incl_length; [exact N|]. intros v Hv. rewrite <- (L v Hv). apply vectors_in. }
      rewrite vectors_length in H. lia.
    - cbn [itersolve]. pose proof (Hs cs D) as K. destruct (solver cs) as [m|]; [|eauto]. destruct K as [F Sm].
      destruct (IH (cs ++ [blocking important m])%list (proj (model_assignment m) :: seen)) as [ms Ems].
      + apply Forall_app. split; [exact D|]. constructor; [apply blocking_dom; exact F|constructor].
      + constructor; [apply S; exact Sm|exact N].
      + intros v [<-|Hv]; [unfold proj; apply map_length|apply L; exact Hv].
      + intros a Sa [E|Hin].
        * rewrite clauses_app_sat in Sa. apply andb_true_iff in Sa. destruct Sa as [_ Sa].
          assert (existsb (evl a) (blocking important m) = false); [|congruence]. apply (blocking_sat m a F).
          intros v Hv Hi. unfold proj in E. symmetry. 
          assert (In v (filter (fun v => imp v) dom)) as Hf by (apply filter_In; split; [exact Hv|apply existsb_mem; exact Hi]).
          clear -E Hf. induction (filter (fun v => imp v) dom) as [|x l IHl]; [contradiction|].
          cbn in E. injection E as E1 E2. destruct Hf as [<-|Hf]; auto.
        * rewrite clauses_app_sat in Sa. apply andb_true_iff in Sa. apply (S a (proj1 Sa) Hin).
      + cbn [length]. lia.
      + rewrite Ems. cbn. eauto.
  Qed.
End Enumerate.

(** * Reading the answer of an external solver *)
Definition decimal (n : Z) : string := NilZero.string_of_int (Z.to_int n).


Lemma to_int_digits n : Z.to_int n <> Decimal.Pos Decimal.Nil /\ Z.to_int n <> Decimal.Neg Decimal.Nil.
Proof.
  destruct n as [|p|p]; cbn; split; try discriminate; intros [= E]; apply (DecimalPos.Unsigned.to_uint_nonnil p E).
Qed.

Lemma parse_decimal n : parse_int (decimal n) = Some n.
Proof.
  unfold parse_int, decimal. destruct (to_int_digits n) as [H1 H2]. rewrite NilZero.isi by assumption.
  f_equal. apply DecimalZ.of_to.
Qed.

Fixpoint all_chars (f : ascii -> bool) (s : string) : bool :=
  match s with EmptyString => true | String c s' => f c && all_chars f s' end.
Definition blank (s : string) : Prop := all_chars is_space s = true.
Definition solid (s : string) : Prop := all_chars (fun c => negb (is_space c)) s = true.

Lemma digits_solid d : solid (NilEmpty.string_of_uint d).
Proof. unfold solid. induction d; cbn; auto. Qed.
Lemma decimal_solid n : solid (decimal n) /\ decimal n <> "".
Proof.
  unfold decimal. destruct (to_int_digits n) as [H1 H2]. destruct (Z.to_int n) as [d|d]; cbn.
  - unfold NilZero.string_of_uint. destruct d; [contradiction| | | | | | | | | |]; split; try discriminate; apply (digits_solid (_ d)).
  - unfold NilZero.string_of_uint. destruct d; [contradiction| | | | | | | | | |]; split; try discriminate; unfold solid; cbn [all_chars]; apply (digits_solid (_ d)).
Qed.

Lemma string_app_assoc (a b c : string) : (a ++ b) ++ c = a ++ (b ++ c).
Proof. induction a as [|x a IH]; cbn; [reflexivity|]. f_equal. exact IH. Qed.
Lemma string_app_nil (a : string) : a ++ "" = a.
Proof. induction a as [|x a IH]; cbn; [reflexivity|]. f_equal. exact IH. Qed.

Definition word_of (w : string) : list string := match w with EmptyString => [] | _ => [w] end.
Lemma split_blank s : blank s -> forall w, split_words w s = word_of w.
Proof.
  induction s as [|c s IH]; intros B w; cbn [split_words]; [destruct w; reflexivity|].
  unfold blank in B. cbn in B. apply andb_true_iff in B. destruct B as [Bc Bs]. rewrite Bc.
  destruct w; rewrite (IH Bs); reflexivity.
Qed.
Lemma split_solid t : solid t -> forall w s, split_words w (t ++ s) = split_words (w ++ t) s.
Proof.
  induction t as [|c t IH]; intros S w s; cbn [append]; [rewrite string_app_nil; reflexivity|].
  unfold solid in S. cbn in S. apply andb_true_iff in S. destruct S as [Sc St]. apply negb_true_iff in Sc.
  cbn [split_words]. rewrite Sc, (IH St), string_app_assoc. reflexivity.
Qed.
Lemma split_sep sep : blank sep -> sep <> "" -> forall w s, split_words w (sep ++ s) = (word_of w ++ split_words "" s)%list.
Proof.
  induction sep as [|c sep IH]; intros B N w s; [congruence|]. unfold blank in B. cbn in B. apply andb_true_iff in B. destruct B as [Bc Bs].
  cbn [append split_words]. rewrite Bc.
  assert (E : split_words "" (sep ++ s) = split_words "" s).
  { destruct sep; [reflexivity|]. rewrite (IH Bs) by discriminate. reflexivity. }
  destruct w; rewrite E; reflexivity.
Qed.

(** The values of a line: each is preceded by white space. *)
Inductive values_text : list Z -> string -> Prop :=
| values_end s : blank s -> values_text [] s
| values_next sep z r s : blank sep -> sep <> "" -> values_text r s -> values_text (z :: r) (sep ++ decimal z ++ s).

Lemma split_values vs s : values_text vs s -> forall w, split_words w s = (word_of w ++ map decimal vs)%list.
Proof.
  induction 1 as [s B|sep z r s B N V IH]; intros w.
  - rewrite (split_blank s B). cbn. rewrite app_nil_r. reflexivity.
  - rewrite (split_sep sep B N). f_equal. destruct (decimal_solid z) as [Sz Nz]. rewrite (split_solid _ Sz), IH. cbn [append map].
    destruct (decimal z); [congruence|reflexivity].
Qed.

(** What a solver prints after the status line: comments, and lines of values
    that together give [vs]; a line may hold no value unless it is the first
    one ([started]); anything may follow the last value. *)
Inductive values_lines : bool -> list Z -> list string -> Prop :=
| lines_done rest : values_lines true [] rest
| lines_comment started vs s rest : values_lines started vs rest -> values_lines started vs ((String "c"%char s) :: rest)
| lines_values started chunk vs s rest :
    values_text chunk s -> (chunk <> [] \/ started = true) -> values_lines true vs rest ->
    values_lines started (chunk ++ vs) (("v" ++ s) :: rest).

Lemma omap_decimal vs : omap parse_int (map decimal vs) = Some vs.
Proof. induction vs as [|v vs IH]; cbn; [reflexivity|]. rewrite parse_decimal. cbn. rewrite IH. reflexivity. Qed.

Lemma app_last_cases {A} (a b c : list A) x : (a ++ b = c ++ [x])%list ->
  (b = [] /\ a = c ++ [x])%list \/ (exists b', b = b' ++ [x] /\ c = a ++ b')%list.
Proof.
  intros E. destruct b as [|y b] using rev_ind; [left; rewrite app_nil_r in E; auto|]. right.
  rewrite app_assoc in E. apply app_inj_tail in E. destruct E as [E ->]. exists b. auto.
Qed.

Lemma read_values_lines started vs lines : values_lines started vs lines ->
  forall acc m, vs = (m ++ [0])%list -> Forall (fun l => l <> 0) (acc ++ m)%list -> (started = true -> acc <> []) ->
  read_values lines acc = Model (acc ++ m).
Proof.
  induction 1 as [rest|started vs s rest H IH|started chunk vs s rest V N H IH]; intros acc m E NZ St.
  - destruct m; discriminate.
  - cbn [read_values starts_with]. rewrite Ascii.eqb_refl. cbn. apply IH; assumption.
  - cbn [read_values].
    replace (starts_with "c" ("v" ++ s)) with false by reflexivity.
    unfold split. change ("v" ++ s) with (String "v"%char s). cbn [split_words]. change (is_space "v"%char) with false. cbn match. change ("" ++ "v") with "v".
    rewrite (split_values chunk s V). cbn [word_of app]. change (String.eqb "v" "v") with true. cbn [negb]. rewrite omap_decimal.
    destruct (app_last_cases _ _ _ _ E) as [[-> ->]|(b' & -> & ->)].
    + rewrite app_assoc, rev_app_distr. cbn. rewrite rev_involutive. reflexivity.
    + rewrite app_assoc in NZ.
      assert (Ne : (acc ++ chunk)%list <> []).
      { destruct N as [N| ->]; [intros Z0; apply app_eq_nil in Z0; tauto|]. intros Z0. apply app_eq_nil in Z0. apply (St eq_refl). tauto. }
      destruct (rev (acc ++ chunk)) as [|l r] eqn:R.
      { exfalso. apply Ne. apply (f_equal (@rev Z)) in R. rewrite rev_involutive in R. exact R. }
      assert (l <> 0).
      { rewrite Forall_forall in NZ. apply NZ. apply in_or_app. left. apply in_rev. rewrite R. left. reflexivity. }
      destruct (Z.eqb_spec l 0); [contradiction|]. rewrite (IH (acc ++ chunk)%list b'); [rewrite app_assoc; reflexivity|reflexivity|exact NZ|intros _; exact Ne].
Qed.

Lemma read_answer_skip pre lines : Forall (fun l => starts_with "s" l = false) pre ->
  read_answer (pre ++ lines) = read_answer lines.
Proof. induction 1 as [|l pre Hl _ IH]; cbn [app read_answer]; [reflexivity|]. rewrite Hl. exact IH. Qed.

(** * The library wrapper *)
Section Wrapper.
  Variable reply : list libcall -> libcall -> Z.
  Notation step := (step reply).
  Notation run := (run reply).


  (** The literals passed to the library, releases, and the solver a call is
      made on. *)
  Definition added (log : list libcall) : list Z :=
    flat_map (fun c => match c with LAdd _ l => [l] | _ => [] end) log.
  Definition is_release (c : libcall) : bool := match c with LRelease _ => true | _ => false end.
  Definition pointer_of (c : libcall) : option (option Z) :=
    match c with
    | LInit => None
    | LRelease p | LAdd p _ | LAssume p _ | LSolve p | LVal p _ | LFailed p _ | LSetLearn p _ | LSetTerminate p => Some p
    end.

  (** The calls made before the solver is closed, and their clauses. *)
  Definition closes (m : method) : bool := match m with MExit | MDel => true | _ => false end.
  Fixpoint opened (ms : list method) : list method :=
    match ms with [] => [] | m :: r => if closes m then [] else m :: opened r end.
  Definition clauses_of (m : method) : cnf := match m with MAddClause c => [c] | MAddClauses cs => cs | _ => [] end.

  Lemma added_app l k : added (l ++ k)%list = (added l ++ added k)%list.
  Proof. unfold added. apply flat_map_app. Qed.

  Lemma added_clause p c : added (add_calls p c) = (c ++ [0])%list.
  Proof.
    unfold add_calls. rewrite added_app. f_equal. induction c as [|l c IH]; cbn; [reflexivity|]. f_equal. exact IH.
  Qed.
  Lemma added_clauses p cs : added (flat_map (add_calls p) cs) = flat_map (fun c => c ++ [0])%list cs.
  Proof. induction cs as [|c cs IH]; [reflexivity|]. cbn [flat_map]. rewrite added_app, added_clause, IH. reflexivity. Qed.

  Lemma set_add_in v s w : In w (set_add v s) <-> w = v \/ In w s.
  Proof.
    unfold set_add. destruct (existsb (Z.eqb v) s) eqn:E.
    - apply existsb_mem in E. split; [auto|]. intros [->|H]; assumption.
    - rewrite in_app_iff. cbn. split; [intros [H|[H|[]]]; auto|intros [H|H]; auto].
  Qed.
  Lemma set_add_NoDup v s : NoDup s -> NoDup (set_add v s).
  Proof.
    intros N. unfold set_add. destruct (existsb (Z.eqb v) s) eqn:E; [exact N|].
    apply NoDup_rev in N. rewrite <- (rev_involutive (s ++ [v])). apply NoDup_rev. rewrite rev_app_distr. cbn. constructor; [|exact N].
    rewrite <- in_rev. intros H. apply existsb_mem in H. congruence.
  Qed.
  Lemma add_vars_in c : forall s w, In w (add_vars s c) <-> In w s \/ exists l, In l c /\ w = Z.abs l.
  Proof.
    unfold add_vars. induction c as [|l c IH]; intros s w; cbn [fold_left].
    - split; [auto|]. intros [H|(l & [] & _)]. exact H.
    - rewrite IH, set_add_in. split.
      + intros [[H|H]|(k & Hk & E)]; [right; exists l; cbn; auto|auto|right; exists k; cbn; auto].
      + intros [H|(k & [<-|Hk] & E)]; [auto|auto|right; eauto].
  Qed.
  Lemma add_vars_NoDup c : forall s, NoDup s -> NoDup (add_vars s c).
  Proof. unfold add_vars. induction c as [|l c IH]; intros s N; cbn [fold_left]; [exact N|]. apply IH. apply set_add_NoDup. exact N. Qed.
  Lemma all_vars_in cs : forall s w, In w (fold_left add_vars cs s) <-> In w s \/ exists c l, In c cs /\ In l c /\ w = Z.abs l.
  Proof.
    induction cs as [|c cs IH]; intros s w; cbn [fold_left].
    - split; [auto|]. intros [H|(c & l & [] & _)]. exact H.
    - rewrite IH, add_vars_in. split.
      + intros [[H|(l & Hl & E)]|(c' & l & Hc & Hl & E)]; [auto|right; exists c, l; cbn; auto|right; exists c', l; cbn; auto].
      + intros [H|(c' & l & [<-|Hc] & Hl & E)]; [auto|left; right; eauto|right; eauto 6].
  Qed.
  Lemma all_vars_NoDup cs : forall s, NoDup s -> NoDup (fold_left add_vars cs s).
  Proof. induction cs as [|c cs IH]; intros s N; cbn [fold_left]; [exact N|]. apply IH. apply add_vars_NoDup. exact N. Qed.

  Lemma get_values_log p vs : forall log, snd (get_values reply p log vs) = (log ++ map (LVal p) vs)%list.
  Proof.
    induction vs as [|v vs IH]; intros log; cbn [get_values map]; [rewrite app_nil_r; reflexivity|].
    specialize (IH (log ++ [LVal p v])%list). destruct (get_values reply p _ vs). cbn in *. rewrite IH, <- app_assoc. reflexivity.
  Qed.
  Lemma get_values_model p vs : (forall v log, In v vs -> let x := reply log (LVal p v) in x = v \/ x = - v \/ x = 0) ->
    forall log, let m := fst (get_values reply p log vs) in
    map Z.abs m = map Z.abs vs /\
    forall i v l, nth_error vs i = Some v -> nth_error m i = Some l ->
      let x := reply (log ++ map (LVal p) (firstn i vs))%list (LVal p v) in l = if x =? 0 then v else x.
  Proof.
    induction vs as [|v vs IH]; intros H log; cbn [get_values].
    - split; [reflexivity|]. intros [|] ? ? ?; discriminate.
    - specialize (IH (fun w log Hw => H w log (or_intror Hw)) (log ++ [LVal p v])%list).
      destruct (get_values reply p _ vs) as [m log'] eqn:Eg. cbn [fst] in *. destruct IH as [IH1 IH2]. split.
      + cbn [map]. f_equal; [|exact IH1]. pose proof (H v log (or_introl eq_refl)) as K. cbn in K. destruct (Z.eqb_spec (reply log (LVal p v)) 0); lia.
      + intros [|i] w l Hv Hl; cbn [nth_error] in Hv, Hl.
        * injection Hv as <-. injection Hl as <-. cbn. rewrite app_nil_r. reflexivity.
        * specialize (IH2 i w l Hv Hl). cbn [firstn map]. rewrite <- app_assoc in IH2. exact IH2.
  Qed.

  (** One step. *)
  Lemma step_open P s log m : solver_p s = Some P -> closes m = false ->
    let '(o, s', log') := step s log m in
    solver_p s' = Some P /\
    (exists new, log' = log ++ new /\ added new = flat_map (fun c => c ++ [0]) (clauses_of m) /\
      Forall (fun c => is_release c = false /\ pointer_of c = Some (Some P)) new)%list /\
    (NoDup (vars s) -> NoDup (vars s')) /\
    (forall v, In v (vars s') <-> In v (vars s) \/ exists c l, In c (clauses_of m) /\ In l c /\ v = Z.abs l).
  Proof.
    intros Hp Hc. unfold M_Solve.step. rewrite Hp. cbn match.
    assert (Adds : forall c, Forall (fun c => is_release c = false /\ pointer_of c = Some (Some P)) (add_calls (Some P) c)).
    { intros c. unfold add_calls. apply Forall_app. split; [|repeat constructor]. apply Forall_forall. intros x Hx. apply in_map_iff in Hx.
      destruct Hx as (l & <- & _). cbn. auto. }
    assert (NoC : forall v, In v (vars s) <-> In v (vars s) \/ exists (c : clause) l, In c [] /\ In l c /\ v = Z.abs l).
    { intros v. split; [auto|]. intros [H|(c & l & [] & _)]. exact H. }
    destruct m; try discriminate Hc; cbn [clauses_of flat_map].
    - split; [reflexivity|]. split; [|split].
      + exists (add_calls (Some P) c). split; [reflexivity|]. rewrite added_clause, app_nil_r. auto.
      + apply add_vars_NoDup.
      + intros v. cbn [vars]. rewrite add_vars_in. split; (intros [H|H]; [auto|right]).
        * destruct H as (l & Hl & E). exists c, l. cbn. auto.
        * destruct H as (c' & l & [<-|[]] & Hl & E). eauto.
    - split; [reflexivity|]. split; [|split].
      + exists (flat_map (add_calls (Some P)) cs). split; [reflexivity|]. rewrite added_clauses. split; [reflexivity|].
        apply Forall_forall. intros x Hx. apply in_flat_map in Hx. destruct Hx as (c & _ & Hx). specialize (Adds c). rewrite Forall_forall in Adds. auto.
      + apply all_vars_NoDup.
      + intros v. cbn [vars]. apply all_vars_in.
    - split; [exact Hp|]. split; [|split; [auto|exact NoC]]. eexists. split; [reflexivity|]. cbn. split; [reflexivity|]. repeat constructor.
    - split; [exact Hp|]. split; [|split; [auto|exact NoC]]. eexists. split; [reflexivity|]. cbn. split; [reflexivity|]. repeat constructor.
    - pose proof (get_values_log (Some P) (vars s) log) as L. destruct (get_values reply (Some P) log (vars s)) as [ms log'].
      cbn in L. subst log'. split; [exact Hp|]. split; [|split; [auto|exact NoC]]. eexists. split; [reflexivity|]. split.
      + generalize (vars s). intros l. induction l as [|v l IH]; [reflexivity|exact IH].
      + apply Forall_forall. intros x Hx. apply in_map_iff in Hx. destruct Hx as (v & <- & _). cbn. auto.
    - split; [exact Hp|]. split; [|split; [auto|exact NoC]]. eexists. split; [reflexivity|]. cbn. split; [reflexivity|]. repeat constructor.
    - split; [exact Hp|]. split; [|split; [auto|exact NoC]]. exists []. rewrite app_nil_r. repeat constructor.
    - split; [exact Hp|]. split; [|split; [auto|exact NoC]]. eexists. split; [reflexivity|]. cbn. split; [reflexivity|]. repeat constructor.
    - split; [exact Hp|]. split; [|split; [auto|exact NoC]]. eexists. split; [reflexivity|]. cbn. split; [reflexivity|]. repeat constructor.
  Qed.

  Lemma step_closed s log m : solver_p s = None ->
    let '(o, s', log') := step s log m in
    s' = s /\
    match m with
    | MDel => o = Done /\ log' = log
    | MSetLearn k => o = Done /\ log' = (log ++ [LSetLearn None k])%list
    | MSetTerminate => o = Done /\ log' = (log ++ [LSetTerminate None])%list
    | _ => o = Raised /\ log' = log
    end.
  Proof. intros H. unfold M_Solve.step. rewrite H. destruct m; cbn; auto. Qed.

  Lemma run_closed ms : forall s log, solver_p s = None ->
    let '(os, s', log') := run s log ms in
    s' = s /\ exists new, log' = (log ++ new)%list /\ added new = [] /\
      Forall (fun c => is_release c = false /\ pointer_of c = Some None) new.
  Proof.
    induction ms as [|m ms IH]; intros s log H; cbn [M_Solve.run].
    - split; [reflexivity|]. exists []. rewrite app_nil_r. repeat constructor.
    - pose proof (step_closed s log m H) as S. destruct (step s log m) as [[o s1] log1]. destruct S as [-> S].
      specialize (IH s log1 H). destruct (run s log1 ms) as [[os s2] log2]. destruct IH as (-> & new & -> & A & F).
      split; [reflexivity|].
      destruct m; destruct S as [_ ->];
        first [ exists new; solve [auto]
              | rewrite <- app_assoc; eexists; split; [reflexivity|]; rewrite added_app, A; split; [reflexivity|]; repeat constructor; exact F ].
  Qed.

  Lemma run_open P ms : forall s log, solver_p s = Some P ->
    let '(os, s', log') := run s log ms in
    solver_p s' = (if existsb closes ms then None else Some P) /\
    (NoDup (vars s) -> NoDup (vars s')) /\
    (forall v, In v (vars s') <-> In v (vars s) \/ exists c l, In c (flat_map clauses_of (opened ms)) /\ In l c /\ v = Z.abs l) /\
    exists before after, (log' = log ++ before ++ (if existsb closes ms then LRelease (Some P) :: after else []))%list /\
      added before = flat_map (fun c => c ++ [0])%list (flat_map clauses_of (opened ms)) /\ added after = [] /\
      Forall (fun c => is_release c = false /\ pointer_of c = Some (Some P)) before /\
      Forall (fun c => is_release c = false /\ pointer_of c = Some None) after.
  Proof.
    induction ms as [|m ms IH]; intros s log H; cbn [M_Solve.run existsb opened flat_map].
    - split; [exact H|]. split; [auto|]. split.
      + intros v. split; [auto|]. intros [K|(c & l & [] & _)]. exact K.
      + exists [], []. rewrite app_nil_r. repeat constructor.
    - destruct (closes m) eqn:C; cbn [orb flat_map].
      + assert (S : step s log m = (Done, {| solver_p := None; vars := vars s |}, log ++ [LRelease (Some P)])%list)
          by (unfold M_Solve.step; rewrite H; destruct m; try discriminate C; reflexivity).
        rewrite S. pose proof (run_closed ms {| solver_p := None; vars := vars s |} (log ++ [LRelease (Some P)])%list eq_refl) as R.
        destruct (run _ _ ms) as [[os s2] log2]. destruct R as (-> & new & -> & A & F). cbn [solver_p vars].
        split; [reflexivity|]. split; [auto|]. split.
        * intros v. split; [auto|]. intros [K|(c & l & [] & _)]. exact K.
        * exists [], new. rewrite <- app_assoc. repeat split; try assumption; constructor.
      + pose proof (step_open P s log m H C) as S. destruct (step s log m) as [[o s1] log1].
        destruct S as (Hp & (n1 & -> & A1 & F1) & N1 & V1). specialize (IH s1 (log ++ n1)%list Hp).
        destruct (run s1 _ ms) as [[os s2] log2]. destruct IH as (Hp2 & N2 & V2 & before & after & -> & Ab & Aa & Fb & Fa).
        split; [exact Hp2|]. split; [auto|]. split.
        * intros v. rewrite V2, V1. setoid_rewrite in_app_iff. split.
          -- intros [[K|(c & l & K)]|(c & l & K & K')]; [auto|right; exists c, l; tauto|right; exists c, l; tauto].
          -- intros [K|(c & l & [K|K] & K')]; [auto|left; right; exists c, l; tauto|right; exists c, l; tauto].
        * exists (n1 ++ before)%list, after. split; [rewrite <- !app_assoc; reflexivity|].
          rewrite added_app, A1, Ab, flat_map_app. split; [reflexivity|]. split; [exact Aa|]. split; [apply Forall_app; auto|exact Fa].
  Qed.
End Wrapper.
