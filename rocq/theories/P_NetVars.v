(** The flow variables of the network-free balancer are those of the template. *)
From Coq Require Import String ZArith List Bool Lia.
From Verif Require Import Spec_Cnf Spec_Tile Spec_Layout M_Json M_Tile M_Util M_Card M_Network M_Template M_Grid M_Oracle M_Balancer M_Optimise M_NetFree
  P_List P_Cnf P_Template P_Grid P_Allocate P_NetClause.
Import ListNotations.
Local Open Scope string_scope.
Open Scope Z_scope.

(** An array of numbers: the literals of each. *)
Definition numbers (b : Z) (bits k : nat) : instance := IList (map (fun c => IList (map ILit (component b bits c))) (seq 0 k)).

Lemma nth_error_same {X} (l k : list X) : List.length l = List.length k -> (forall i, (i < List.length l)%nat -> nth_error l i = nth_error k i) -> l = k.
Proof.
  revert k. induction l as [|x l IH]; intros [|y k] E H; try discriminate; [reflexivity|]. pose proof (H O ltac:(cbn; lia)) as H0. cbn in H0. injection H0 as ->.
  f_equal. apply IH; [cbn in E; lia|]. intros i Hi. apply (H (S i)). cbn. lia.
Qed.
Lemma repeat_list step n k top : takes_fresh step n ->
  repeat_instantiate step k top = (map (fun c => fst (step (top + Z.of_nat (c * n)))) (seq 0 k), top + Z.of_nat (k * n)).
Proof.
  intros H. destruct (repeat_instantiate_spec step n k top H) as (L & E & _ & N). destruct (repeat_instantiate step k top) as [l t]. cbn [fst snd] in *. subst t. f_equal.
  apply nth_error_same; [rewrite map_length, seq_length; exact L|]. intros i Hi. rewrite N by lia.
  symmetry. apply (map_nth_error (fun c => fst (step (top + Z.of_nat (c * n)))) i (seq 0 k)). rewrite nth_error_nth' with (d := O) by (rewrite seq_length; lia). rewrite seq_nth by lia. reflexivity.
Qed.

Lemma skipn_seq' n : forall s l, skipn n (seq s l) = seq (s + n) (l - n).
Proof.
  induction n as [|n IH]; intros s l; [cbn; f_equal; lia|]. destruct l; [reflexivity|]. cbn [seq skipn]. rewrite IH. f_equal; lia.
Qed.
Lemma firstn_seq' n : forall s l, firstn n (seq s l) = seq s (Nat.min n l).
Proof. induction n as [|n IH]; intros s l; [reflexivity|]. destruct l; [reflexivity|]. cbn [seq firstn Nat.min]. rewrite IH. reflexivity. Qed.
Lemma piece {X} (F : nat -> X) c b k : (c < k)%nat -> firstn b (skipn (c * b) (map F (seq 0 (k * b)))) = map F (seq (c * b) b).
Proof. intros Hc. rewrite skipn_map, firstn_map, skipn_seq', firstn_seq'. f_equal. cbn [plus]. f_equal. nia. Qed.

Lemma sized_fresh kd bits : takes_fresh (instantiate (TSized kd bits)) bits.
Proof.
  intros t. cbn [instantiate fst snd flatten]. split; [reflexivity|]. rewrite flat_map_concat_map, map_map. cbn [flatten].
  induction (fresh t bits) as [|x r IH]; [reflexivity|cbn [map concat app]; f_equal; exact IH].
Qed.
Lemma bool_fresh : takes_fresh (instantiate TBool) 1.
Proof. intros t. cbn. split; reflexivity. Qed.

Lemma array_numbers kd bits k top : instantiate (TArray (TSized kd bits) [k]) top = (numbers top bits k, top + Z.of_nat (k * bits)).
Proof.
  change (instantiate (TArray (TSized kd bits) [k]) top) with (let '(l, top') := repeat_instantiate (instantiate (TSized kd bits)) (shape_size [k]) top in (reshape [k] l, top')).
  assert (Sz : shape_size [k] = k) by (cbn; lia). rewrite Sz. rewrite (repeat_list _ bits k top (sized_fresh kd bits)).
  f_equal. cbn [reshape]. unfold numbers. f_equal. apply map_ext_in. intros c Hc. apply in_seq in Hc. change (shape_size []) with 1%nat.
  replace (seq 0 k) with (seq 0 (k * 1)) by (f_equal; lia). rewrite piece by lia. cbn [seq map nth instantiate fst]. unfold component. do 3 f_equal. lia.
Qed.
Lemma array_bools bits k top : instantiate (TArray TBool [k; bits]) top = (numbers top bits k, top + Z.of_nat (k * bits)).
Proof.
  change (instantiate (TArray TBool [k; bits]) top) with (let '(l, top') := repeat_instantiate (instantiate TBool) (shape_size [k; bits]) top in (reshape [k; bits] l, top')).
  assert (Sz : shape_size [k; bits] = (k * bits)%nat) by (cbn; lia). rewrite Sz. rewrite (repeat_list _ 1 (k * bits) top bool_fresh). rewrite Nat.mul_1_r.
  f_equal. cbn [reshape]. unfold numbers. f_equal. apply map_ext_in. intros c Hc. apply in_seq in Hc. change (shape_size []) with 1%nat.
  assert (Sb : shape_size [bits] = bits) by (cbn; lia). rewrite Sb, piece by lia. f_equal. unfold component.
  assert (E : fresh (top + Z.of_nat c * Z.of_nat bits) bits = map (fun i => top + Z.of_nat i + 1) (seq (c * bits) bits)).
  { clear. revert c. assert (H : forall n s t, t = top + Z.of_nat s -> fresh t n = map (fun i => top + Z.of_nat i + 1) (seq s n)).
    { induction n as [|n IH]; intros s t ->; [reflexivity|]. cbn [fresh seq map]. f_equal. apply IH. lia. }
    intros c. apply H. lia. }
  rewrite E, map_map. replace (map _ (seq 0 bits)) with (map (fun j => ILit (top + Z.of_nat (c * bits + j) + 1)) (seq 0 bits)).
  - rewrite <- (map_map (fun j => c * bits + j)%nat (fun i => ILit (top + Z.of_nat i + 1))). f_equal.
    generalize (c * bits)%nat as s0. intros s0. clear. transitivity (seq (s0 + 0) bits); [|f_equal; lia]. generalize O as z. induction bits as [|b IH]; intros z; [reflexivity|].
    cbn [seq map]. f_equal. rewrite IH. f_equal. lia.
  - apply map_ext_in. intros j Hj. apply in_seq in Hj. rewrite skipn_map, firstn_map, skipn_seq', firstn_seq'. replace (Nat.min 1 (bits - j * 1)) with 1%nat by lia.
    cbn [seq map nth instantiate fst]. f_equal. lia.
Qed.

(** The members of a group of flow variables that starts after [b]. *)
Lemma group_members prefix names f b : List.length names = 5%nat ->
  let s := Z.of_nat (fl_count f * fl_bits f) in let c := Z.of_nat (fl_count f * fl_cbits f) in
  comp_go (flow_fields prefix names f) b =
  (combine (map (append prefix) names)
     [numbers b (fl_bits f) (fl_count f); numbers (b + s) (fl_bits f) (fl_count f); numbers (b + 2 * s) (fl_cbits f) (fl_count f);
      numbers (b + 2 * s + c) (fl_bits f) (fl_count f); numbers (b + 2 * s + c + s) (fl_bits f) (fl_count f)], b + 2 * s + c + s + s).
Proof.
  intros L s c. destruct names as [|n1 [|n2 [|n3 [|n4 [|n5 [|]]]]]]; try discriminate. unfold flow_fields. cbn [map combine comp_go].
  rewrite !array_numbers, !array_bools, !array_numbers. fold s c. replace (b + s + s) with (b + 2 * s) by ring. rewrite ?array_numbers. fold s c. reflexivity.
Qed.
Lemma group_count prefix names f : List.length names = 5%nat ->
  variable_count (TComposite (flow_fields prefix names f)) = (4 * (fl_count f * fl_bits f) + fl_count f * fl_cbits f)%nat.
Proof. intros L. destruct names as [|n1 [|n2 [|n3 [|n4 [|n5 [|]]]]]]; try discriminate. unfold flow_fields. cbn [map combine variable_count fold_right snd shape_size]. lia. Qed.

Lemma flatten_numbers b bits k : flatten (numbers b bits k) = components b bits k.
Proof.
  unfold numbers, components. cbn [flatten]. rewrite !flat_map_concat_map, map_map. f_equal. apply map_ext. intros c. cbn [flatten]. rewrite flat_map_concat_map, map_map.
  induction (component b bits c) as [|x r IH]; [reflexivity|cbn; f_equal; exact IH].
Qed.
