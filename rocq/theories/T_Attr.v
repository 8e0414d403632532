(** C126: the attributes that are shown; C127: the lines of the grid. *)
From Coq Require Import ZArith QArith Qround List Bool String Lia Lqa FinFun.
From Verif Require Import M_Json M_Attr Spec_Attr.
Import ListNotations.
Open Scope Z_scope.

(** ** C126 *)
Definition no_number (number_of : string -> option Z) (path : list string) : Prop := forall p, In p path -> number_of p = None.
Lemma from_keys number_of item path : no_number number_of path -> forall d v, at_path number_of d path v -> attribute_from number_of item d path = Some v.
Proof.
  induction path as [|p path IH]; intros N d v H; inversion H; subst; [reflexivity| |].
  - cbn [attribute_from]. rewrite (N p (or_introl eq_refl)). cbn [item_get]. match goal with E : assoc _ _ = Some _ |- _ => rewrite E end. cbn [obind]. apply IH; [intros q Q; apply N; right; exact Q|assumption].
  - rewrite (N p (or_introl eq_refl)) in *. discriminate.
Qed.
(** A name without numbers shows the entry at its path. *)
Theorem C126_keys number_of item path v : no_number number_of path -> at_path number_of item path v -> attribute number_of item path = Some v.
Proof. intros N H. exact (from_keys number_of item path N item v H). Qed.
(** Whatever such a name shows is the entry at its path, or null if the last piece
    names no entry. *)
Theorem C126_shown number_of item path v : no_number number_of path -> attribute number_of item path = Some v ->
  at_path number_of item path v \/ (v = JNull /\ exists before p l, path = (before ++ [p])%list /\ at_path number_of item before (JObj l) /\ assoc p l = None).
Proof.
  unfold attribute. generalize item at 2 3 4 as d. induction path as [|p path IH]; intros d N H; cbn [attribute_from] in H.
  - left. assert (d = v) by congruence. subst. constructor.
  - rewrite (N p (or_introl eq_refl)) in H. destruct d as [| | | | |l]; try discriminate. cbn [item_get obind] in H. destruct (assoc p l) as [e|] eqn:E.
    + destruct (IH e (fun q Q => N q (or_intror Q)) H) as [A|(A & before & q & l' & B & C & D)]; [left; exact (key _ _ _ _ _ _ (N p (or_introl eq_refl)) E A)|right]. split; [exact A|]. exists (p :: before), q, l'. split; [rewrite B; reflexivity|]. split; [|exact D]. exact (key _ _ _ _ _ _ (N p (or_introl eq_refl)) E C).
    + right. destruct path as [|q path]; cbn [attribute_from] in H.
      * split; [congruence|]. exists [], p, l. split; [reflexivity|]. split; [constructor|exact E].
      * rewrite (N q (or_intror (or_introl eq_refl))) in H. discriminate.
Qed.
(** But a name with a number in it shows nothing of a cell that is an object: the
    program fails, although there may be an entry at that path. *)
Theorem C126_number_refuted number_of l path : (exists p i, In p path /\ number_of p = Some i) -> attribute number_of (JObj l) path = None.
Proof.
  unfold attribute. generalize (JObj l) at 2 as d. intros d (p & i & H & P). revert d. induction path as [|q path IH]; intros d; [destruct H|]. cbn [attribute_from]. destruct (number_of q) as [j|] eqn:E; [reflexivity|].
  destruct H as [H|H]; [congruence|]. destruct (item_get d q) as [e|]; [|reflexivity]. exact (IH H e).
Qed.
Definition digit (s : string) : option Z := if String.eqb s "0" then Some 0 else if String.eqb s "1" then Some 1 else None.
Definition cell := JObj [("colour", JArr [JNum 4; JNum 7]); ("belt", JObj [("input", JNum 2)])]%string.
Example C126_refuted_case : at_path digit cell ["colour"; "1"]%string (JNum 7) /\ attribute digit cell ["colour"; "1"]%string = None.
Proof. split; [|reflexivity]. eapply key; [reflexivity|reflexivity|]. eapply (index _ _ 1%nat); [reflexivity|reflexivity|]. constructor. Qed.
Example C126_met : no_number digit ["belt"; "input"]%string /\ at_path digit cell ["belt"; "input"]%string (JNum 2).
Proof. split; [intros p [<-|[<-|[]]]; reflexivity|]. eapply key; [reflexivity|reflexivity|]. eapply key; [reflexivity|reflexivity|]. constructor. Qed.

(** ** C127 *)
Lemma in_range a b k : In k (line_range a b) <-> Qfloor a <= k < Qceiling b.
Proof.
  unfold line_range. rewrite in_map_iff. split.
  - intros (n & <- & H). apply in_seq in H. lia.
  - intros H. exists (Z.to_nat (k - Qfloor a)). split; [lia|]. apply in_seq. lia.
Qed.
Lemma above_floor a k : (a <= inject_Z k)%Q -> Qfloor a <= k.
Proof. intros H. apply Qfloor_resp_le in H. rewrite Qfloor_Z in H. exact H. Qed.
Lemma below_ceiling b k : (inject_Z k < b)%Q <-> k < Qceiling b.
Proof.
  split; intros H.
  - apply Z.lt_nge. intros L. apply (Qlt_not_le _ _ H). apply Qle_trans with (inject_Z (Qceiling b)); [apply Qle_ceiling|]. rewrite <- Zle_Qle. exact L.
  - apply Qnot_le_lt. intros L. apply Qceiling_resp_le in L. rewrite Qceiling_Z in L. lia.
Qed.
(** Every border of cells within the view is a line over the whole view, but for the
    right and the lower end of the view. *)
Theorem C127_borders x0 x1 y0 y1 k :
  ((x0 <= inject_Z k < x1)%Q -> In ((inject_Z k, y0), (inject_Z k, y1)) (render_grid x0 x1 y0 y1)) /\
  ((y0 <= inject_Z k < y1)%Q -> In ((x0, inject_Z k), (x1, inject_Z k)) (render_grid x0 x1 y0 y1)).
Proof.
  unfold render_grid. split; intros [A B]; apply in_or_app; [left|right]; apply in_map_iff; exists k; (split; [reflexivity|]); apply in_range; (split; [apply above_floor; exact A|apply below_ceiling; exact B]).
Qed.
(** Nothing else is drawn but such borders and, to the left of the view or above it,
    by less than a cell, one more. *)
Theorem C127_lines x0 x1 y0 y1 l : In l (render_grid x0 x1 y0 y1) -> exists k,
  (l = ((inject_Z k, y0), (inject_Z k, y1)) /\ (x0 - 1 < inject_Z k < x1)%Q) \/ (l = ((x0, inject_Z k), (x1, inject_Z k)) /\ (y0 - 1 < inject_Z k < y1)%Q).
Proof.
  assert (F : forall a k, Qfloor a <= k -> (a - 1 < inject_Z k)%Q).
  { intros a k H. pose proof (Qlt_floor a) as L. rewrite inject_Z_plus in L. change (inject_Z 1) with 1%Q in L. rewrite Zle_Qle in H. lra. }
  unfold render_grid. intros H. apply in_app_or in H. destruct H as [H|H]; apply in_map_iff in H; destruct H as (k & <- & H); apply in_range in H; destruct H as [A B]; exists k; [left|right]; (split; [reflexivity|]); (split; [apply F; exact A|apply below_ceiling; exact B]).
Qed.
(** No line is drawn twice. *)
Theorem C127_once x0 x1 y0 y1 : ~ (x0 == x1)%Q -> ~ (y0 == y1)%Q -> NoDup (render_grid x0 x1 y0 y1).
Proof.
  intros Nx Ny. assert (R : forall a b, NoDup (line_range a b)).
  { intros a b. unfold line_range. apply FinFun.Injective_map_NoDup; [intros i j; lia|apply seq_NoDup]. }
  assert (J : forall i j, inject_Z i = inject_Z j -> i = j) by (intros i j E; exact (f_equal Qnum E)).
  unfold render_grid. assert (A : forall (A B : Type) (f : A -> B) l, (forall u v, f u = f v -> u = v) -> NoDup l -> NoDup (map f l)) by (intros T U f l I; apply FinFun.Injective_map_NoDup; exact I).
  assert (N1 := A _ _ (fun x => ((inject_Z x, y0), (inject_Z x, y1))) (line_range x0 x1) ltac:(intros u v E; apply J; congruence) (R _ _)).
  assert (N2 := A _ _ (fun y => ((x0, inject_Z y), (x1, inject_Z y))) (line_range y0 y1) ltac:(intros u v E; apply J; congruence) (R _ _)).
  revert N1 N2. generalize (line_range y0 y1) as l2. generalize (line_range x0 x1) as l1. induction l1 as [|k l1 IH]; intros l2 N1 N2; [exact N2|]. cbn [map app] in *. apply NoDup_cons_iff in N1. destruct N1 as [M1 M2]. constructor; [|exact (IH l2 M2 N2)].
  intros H. apply in_app_or in H. destruct H as [H|H]; [exact (M1 H)|]. apply in_map_iff in H. destruct H as (j & E & _). apply Nx. assert (x0 = x1) as -> by congruence. reflexivity.
Qed.
Example C127_met : List.length (render_grid (-1 # 2) (7 # 2) 0 3) = 8%nat.
Proof. reflexivity. Qed.

Print Assumptions C126_keys.
Print Assumptions C126_shown.
Print Assumptions C126_number_refuted.
Print Assumptions C127_borders.
Print Assumptions C127_lines.
Print Assumptions C127_once.
