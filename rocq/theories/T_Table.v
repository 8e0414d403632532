(** Property theorems C117: what the tables of export_crosstable show. *)
From Coq Require Import String Ascii ZArith List Bool Lia.
From Verif Require Import M_Json M_Solve P_Solve M_Network P_Network2 M_Optimal Spec_Optimal P_Optimal T_Optimal Spec_Table P_Table T_Crosstable.
Import ListNotations.
Local Open Scope string_scope.
Open Scope Z_scope.

(** The largest of the numbers [f e]. *)
Definition largest {X} (f : X -> Z) (l : list X) (m : Z) : Prop := (exists e, In e l /\ f e = m) /\ forall e, In e l -> f e <= m.
Lemma largest_zmax {X} (f : X -> Z) l : l <> [] -> largest f l (zmax (map f l)).
Proof.
  intros N. split.
  - assert (I : In (zmax (map f l)) (map f l)) by (apply zmax_in; destruct l; [contradiction N; reflexivity|discriminate]). apply in_map_iff in I. destruct I as (e & E & I). eauto.
  - intros e I. apply zmax_ge, in_map, I.
Qed.
Definition width_of {B} (e : (Z * Z * Z) * B) : Z := snd (fst (fst e)).
Definition height_of {B} (e : (Z * Z * Z) * B) : Z := snd (fst e).

(** The part for a database reads as a table with the name of the network, the
    widths from 1 to the largest recorded without the two columns of the ends,
    the heights from the number of inputs or outputs to the largest recorded,
    and at each width and height the mark of that size. *)
Theorem C117_table {A} (st : store A) text mh : one_line (st_name st) -> min_height (st_network st) = Some mh ->
  (exists e, In e (st_exist st) /\ 2 <= width_of e) -> store_text st = Some text ->
  exists t w h, read_table text = Some t /\ title t = st_name st /\
    largest width_of (st_exist st) (w + 2) /\ largest height_of (st_exist st) h /\
    List.length (columns t) = Z.to_nat w /\ (forall i, (i < Z.to_nat w)%nat -> nth_error (columns t) i = Some (str_int (1 + Z.of_nat i))) /\
    List.length (rows t) = Z.to_nat (h + 1 - mh) /\
    forall j, (j < Z.to_nat (h + 1 - mh))%nat -> exists marks, nth_error (rows t) j = Some (str_int (mh + Z.of_nat j), marks) /\ List.length marks = Z.to_nat w /\
      forall i, (i < Z.to_nat w)%nat -> nth_error marks i = Some (mark_text (cell st (1 + Z.of_nat i) (mh + Z.of_nat j))).
Proof.
  intros O M (e & He & Hw) E. assert (N : st_exist st <> []) by (destruct (st_exist st); [destruct He|discriminate]).
  pose proof (largest_zmax width_of _ N) as LW. pose proof (largest_zmax height_of _ N) as LH.
  assert (W0 : 0 <= zmax (map width_of (st_exist st)) - 2) by (destruct LW as [_ LW]; specialize (LW e He); lia).
  pose proof (table_read st text mh N M E O W0) as R. cbv zeta in R. change (fun e => snd (fst (fst e))) with (@width_of bool) in R. change (fun e => snd (fst e)) with (@height_of bool) in R.
  set (w := zmax (map width_of (st_exist st)) - 2) in *. set (h := zmax (map height_of (st_exist st))) in *.
  eexists. exists w, h. split; [exact R|]. cbn [title columns rows]. split; [reflexivity|]. split; [replace (w + 2) with (zmax (map width_of (st_exist st))) by (unfold w; lia); exact LW|]. split; [exact LH|].
  assert (Lw : Z.to_nat (w + 1 - 1) = Z.to_nat w) by (f_equal; lia).
  split; [rewrite map_length, zrange_length; exact Lw|]. split; [intros i Hi; rewrite nth_error_map, (zrange_nth 1 (w + 1)) by lia; reflexivity|].
  split; [rewrite map_length, zrange_length; reflexivity|]. intros j Hj. rewrite nth_error_map, (zrange_nth mh (h + 1)) by exact Hj. cbn [option_map].
  eexists. split; [reflexivity|]. split; [rewrite map_length, zrange_length; exact Lw|]. intros i Hi. rewrite nth_error_map, (zrange_nth 1 (w + 1)) by lia. reflexivity.
Qed.
(** So every recorded result can be looked up. *)
Theorem C117_shown {A} (st : store A) text mh u w h b : one_line (st_name st) -> min_height (st_network st) = Some mh -> store_text st = Some text ->
  In ((u, w, h), b) (st_exist st) -> 3 <= w -> mh <= h ->
  exists t i j marks, read_table text = Some t /\ nth_error (columns t) i = Some (str_int (w - 2)) /\ nth_error (rows t) j = Some (str_int h, marks) /\ nth_error marks i = Some (mark_text (cell st (w - 2) h)).
Proof.
  intros O M E I Hw Hh. destruct (C117_table st text mh O M (ex_intro _ _ (conj I (ltac:(cbn; lia) : 2 <= width_of ((u, w, h), b)))) E) as (t & w' & h' & R & _ & [_ LW] & [_ LH] & _ & Co & _ & Ro).
  specialize (LW _ I). specialize (LH _ I). cbn in LW, LH. exists t, (Z.to_nat (w - 3)), (Z.to_nat (h - mh)).
  destruct (Ro (Z.to_nat (h - mh)) ltac:(lia)) as (marks & R1 & _ & R2). exists marks. split; [exact R|]. split; [rewrite Co by lia; do 2 f_equal; lia|]. split; [rewrite R1; do 2 f_equal; f_equal; lia|].
  rewrite R2 by lia. do 2 f_equal. f_equal; lia.
Qed.
(** The marks are told apart, and a database without results has no part. *)
Theorem C117_marks m m' : mark_text m = mark_text m' -> m = m'.
Proof. destruct m, m'; intros E; first [reflexivity|vm_compute in E; discriminate]. Qed.
Theorem C117_nothing {A} (st : store A) : st_exist st = [] -> store_text st = Some "".
Proof. intros E. unfold store_text. rewrite E. reflexivity. Qed.
(** The whole file: what was before, the heading, and the parts of all databases
    in order. *)
Theorem C117_file {A} (stores : list (store A)) ls old_table text : plain ls -> (old_table = "" \/ starts_with heading old_table = true) ->
  export_crosstable stores (Some (complete_lines ls ++ old_table)) = Some text ->
  exists parts, text = complete_lines ls ++ heading ++ nl ++ String.concat "" parts /\ Forall2 (fun st part => store_text st = Some part) (sorted_stores stores) parts.
Proof.
  intros P O E. rewrite (C64_keeps_text stores ls old_table P O) in E. destruct (omap store_text (sorted_stores stores)) as [parts|] eqn:Ep; [|discriminate]. cbn [obind] in E.
  exists parts. split; [congruence|]. clear E. revert parts Ep. induction (sorted_stores stores) as [|st l IH]; intros parts Ep; cbn [omap] in Ep.
  - injection Ep as <-. constructor.
  - destruct (store_text st) as [p|] eqn:Es; [|discriminate]. cbn [obind] in Ep. destruct (omap store_text l) as [ps|]; [|discriminate]. cbn [obind] in Ep. assert (K : p :: ps = parts) by congruence. subst parts. constructor; [exact Es|apply IH; reflexivity].
Qed.

Example C117_met : one_line (st_name db2) /\ min_height (st_network db2) = Some 2 /\ (exists e, In e (st_exist db2) /\ 3 <= width_of e /\ 2 <= height_of e) /\
  exists text t, store_text db2 = Some text /\ read_table text = Some t /\ columns t <> [] /\ rows t <> [].
Proof.
  split; [reflexivity|]. split; [reflexivity|]. split.
  - destruct (existsb (fun e => (3 <=? width_of e) && (2 <=? height_of e)) (st_exist db2)) eqn:E; [|vm_compute in E; discriminate].
    apply existsb_exists in E. destruct E as (e & He & E). apply andb_true_iff in E. destruct E as [E1 E2]. exists e. split; [exact He|]. split; lia.
  - eexists. eexists. split; [vm_compute; reflexivity|]. split; [vm_compute; reflexivity|]. split; discriminate.
Qed.
Print Assumptions C117_table.
Print Assumptions C117_shown.
Print Assumptions C117_marks.
Print Assumptions C117_nothing.
Print Assumptions C117_file.
