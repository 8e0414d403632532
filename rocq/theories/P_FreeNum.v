(** Solutions of the clauses of the network-free balancer about numbers, when the
    carries are given variables. *)
From Coq Require Import String ZArith List Bool Lia.
From Verif Require Import Spec_Cnf Spec_Tile M_Json M_Tile M_Util M_Card M_Network M_Template M_Grid M_Oracle M_Balancer M_Optimise M_NetFree
  P_Cnf P_Util P_Util2 P_Grid P_Template P_NetClause.
Import ListNotations.
Open Scope Z_scope.

(** ** The carries of a sum *)
Fixpoint ripple (xs ys : list bool) (c : bool) : list bool :=
  match xs, ys with
  | x :: xs, y :: ys => let c' := (x && y) || (c && (x || y)) in c' :: ripple xs ys c'
  | _, _ => []
  end.
Lemma ripple_length xs : forall ys c, length ys = length xs -> length (ripple xs ys c) = length xs.
Proof. induction xs as [|x xs IH]; intros [|y ys] c L; cbn in *; try lia. rewrite IH; lia. Qed.

Lemma add_loop_given a xs : forall ys os ci carries cs lc,
  length ys = length xs -> (length xs <= length os)%nat ->
  Forall nonzero xs -> Forall nonzero ys -> Forall nonzero os -> Forall nonzero carries -> opt_ok nonzero ci ->
  add_loop xs ys os ci carries = Some (cs, lc) ->
  firstn (length xs) (values a carries) = ripple (values a xs) (values a ys) (match ci with Some l => evl a l | None => false end) ->
  (value a xs + value a ys + cval a ci) mod 2 ^ len xs = value a (firstn (length xs) os) ->
  sat a cs = true.
Proof.
  induction xs as [|x xs IH]; intros [|y ys] os ci carries cs lc L1 L2 Hx Hy Ho Hc Hci E HR HV; cbn in L1; try discriminate.
  - cbn [add_loop] in E. apply Some_inj in E. assert (cs = []) by congruence. subst. reflexivity.
  - destruct os as [|o os]; [cbn in L2; lia|]. cbn [add_loop] in E. destruct carries as [|c carries]; [discriminate|].
    destruct (add_loop xs ys os (Some c) carries) as [[rest lc']|] eqn:EL; [|discriminate]. apply Some_inj in E.
    assert (Ecs : cs = (add_bit x y o ci c ++ rest)%list) by congruence. subst cs. clear E.
    inversion Hx as [|? ? Hx1 Hx2]; inversion Hy as [|? ? Hy1 Hy2]; inversion Ho as [|? ? Ho1 Ho2]; inversion Hc as [|? ? Hc1 Hc2]; subst.
    unfold values in HR. cbn [length firstn map ripple] in HR. injection HR as HR1 HR2. cbn [length firstn] in HV. rewrite !value_cons in HV.
    unfold len in HV. cbn [length] in HV. rewrite Nat2Z.inj_succ, Z.pow_succ_r in HV by lia.
    assert (P2 : 0 < 2 ^ Z.of_nat (length xs)) by (apply Z.pow_pos_nonneg; lia).
    assert (Ec : cval a ci = Z.b2z (match ci with Some l => evl a l | None => false end)) by (destruct ci; reflexivity).
    set (X := value a xs) in *. set (Y := value a ys) in *. set (O := value a (firstn (length xs) os)) in *. rewrite Ec in HV.
    assert (O0 : 0 <= O < 2 ^ Z.of_nat (length xs)).
    { unfold O. pose proof (value_bound a (firstn (length xs) os)) as Rg. unfold len in Rg. rewrite firstn_length_le in Rg by (cbn in L2; lia). exact Rg. }
    set (ez := match ci with Some l => evl a l | None => false end) in *.
    set (tot := Z.b2z (evl a x) + 2 * X + (Z.b2z (evl a y) + 2 * Y) + Z.b2z ez) in *.
    pose proof (Z.div_mod tot (2 * 2 ^ Z.of_nat (length xs)) ltac:(lia)) as DM. rewrite HV in DM. set (q := tot / (2 * 2 ^ Z.of_nat (length xs))) in *.
    assert (B : Z.b2z (evl a x) + Z.b2z (evl a y) + Z.b2z ez = Z.b2z (evl a o) + 2 * Z.b2z (evl a c)).
    { rewrite HR1. unfold tot in DM. destruct (evl a x), (evl a y), ez, (evl a o); cbn [andb orb Z.b2z] in *; lia. }
    rewrite sat_app_iff. split.
    + apply add_bit_sat; try assumption. rewrite Ec. exact B.
    + apply (IH ys os (Some c) carries rest lc'); auto; try (cbn in L2; lia).
      * unfold values. rewrite HR2, HR1. reflexivity.
      * fold X Y O. cbn [cval]. unfold len.
        assert (T2 : X + Y + Z.b2z (evl a c) = 2 ^ Z.of_nat (length xs) * q + O).
        { assert (Q : 2 * (2 ^ Z.of_nat (length xs) * q) = 2 * 2 ^ Z.of_nat (length xs) * q) by ring. unfold tot in DM. lia. }
        rewrite T2. rewrite Z.add_comm, Z.mul_comm, Z.mod_add by lia. apply Z.mod_small. exact O0.
Qed.

Lemma add_given a xs ys os carries ci cs :
  Forall nonzero xs -> Forall nonzero ys -> Forall nonzero os -> Forall nonzero carries -> opt_ok nonzero ci ->
  add_numbers xs ys os carries ci false = Some cs ->
  firstn (length xs) (values a carries) = ripple (values a xs) (values a ys) (match ci with Some l => evl a l | None => false end) ->
  value a xs + value a ys + cval a ci = value a os -> sat a cs = true.
Proof.
  intros Hx Hy Ho Hc Hci E HR HV. unfold add_numbers in E.
  destruct (Nat.eqb (length xs) (length ys)) eqn:L1; [|discriminate]. apply Nat.eqb_eq in L1. cbn [negb] in E.
  destruct (_ || _) eqn:L2; [|discriminate]. cbn [negb] in E. apply orb_true_iff in L2. rewrite !Nat.eqb_eq in L2.
  destruct (add_loop xs ys os ci carries) as [[cs0 lc]|] eqn:EL; [|discriminate].
  assert (P2 : 0 < 2 ^ Z.of_nat (length xs)) by (apply Z.pow_pos_nonneg; lia).
  assert (Rg : 0 <= value a (firstn (length xs) os) < 2 ^ Z.of_nat (length xs)).
  { pose proof (value_bound a (firstn (length xs) os)) as Rg. unfold len in Rg. rewrite firstn_length_le in Rg by lia. exact Rg. }
  assert (M : (value a xs + value a ys + cval a ci) mod 2 ^ len xs = value a (firstn (length xs) os)).
  { rewrite HV. unfold len. destruct L2 as [L2|L2].
    - rewrite firstn_all2 in * by lia. apply Z.mod_small. exact Rg.
    - rewrite (last_firstn_value a os (length xs) L2). rewrite Z.mul_comm, Z.mod_add by lia. apply Z.mod_small. exact Rg. }
  pose proof (add_loop_given a xs ys os ci carries cs0 lc (eq_sym L1) ltac:(lia) Hx Hy Ho Hc Hci EL HR M) as S0.
  destruct (add_loop_sound xs ys os ci carries cs0 lc) as [Hlc HS]; try assumption; try lia. specialize (HS a S0).
  destruct (Nat.ltb (length xs) (length os)) eqn:L3.
  - apply Nat.ltb_lt in L3. assert (L : length os = S (length xs)) by lia. destruct lc as [c|]; [|discriminate]. apply Some_inj in E. subst cs.
    rewrite sat_app_iff. split; [exact S0|]. cbn [opt_ok cval] in *.
    assert (HL : last os 0 <> 0) by (apply (last_Forall nonzero); [destruct os; [discriminate|congruence]|assumption]).
    rewrite literals_same_sat by assumption. rewrite (last_firstn_value a os (length xs) L) in HV. unfold len in HS.
    assert (K : Z.b2z (evl a c) = Z.b2z (evl a (last os 0))) by (apply (Z.mul_cancel_l _ _ (2 ^ Z.of_nat (length xs))); lia).
    destruct (evl a c), (evl a (last os 0)); try reflexivity; discriminate.
  - apply Nat.ltb_ge in L3. assert (L : length os = length xs) by lia. cbn [negb] in E. destruct lc as [c|]; [|discriminate]. apply Some_inj in E. subst cs.
    rewrite sat_app_iff. split; [exact S0|]. cbn [opt_ok cval] in *. rewrite firstn_all2 in HS by lia. unfold len in HS.
    rewrite sat_one, satc_one, P_Cnf.evl_neg by exact Hlc.
    assert (K : Z.b2z (evl a c) = 0) by (apply (Z.mul_cancel_l _ _ (2 ^ Z.of_nat (length xs))); lia). destruct (evl a c); [discriminate|reflexivity].
Qed.

(** ** Halving *)
Lemma halve_given a in0 in1 out0 out1 carry cs :
  Forall nonzero in0 -> Forall nonzero in1 -> Forall nonzero out0 -> Forall nonzero out1 -> Forall nonzero carry ->
  halve in0 in1 out0 out1 carry = Some cs ->
  firstn (length in0 - 1) (values a carry) = ripple (tl (values a in0)) (tl (values a in1)) (hd false (values a in0)) ->
  value a in0 + value a in1 = 2 * value a out0 -> value a out1 = value a out0 -> sat a cs = true.
Proof.
  intros N0 N1 M0 M1 NC E HR HV HE. unfold halve in E. destruct in0 as [|x r]; [discriminate|]. destruct in1 as [|y s]; [discriminate|].
  inversion N0 as [|? ? Nx Nr]. inversion N1 as [|? ? Ny Ns]. subst.
  destruct (add_numbers r s out0 carry (Some x) false) as [sum|] eqn:Ea; [|discriminate]. cbn [obind] in E.
  destruct (set_numbers_equal out0 out1 false) as [same|] eqn:Es; [|discriminate]. cbn [obind] in E. apply Some_inj in E. subst cs.
  rewrite !value_cons in HV. assert (XY : evl a x = evl a y) by (destruct (evl a x), (evl a y); cbn [Z.b2z] in HV; try reflexivity; lia).
  rewrite !sat_app_iff. split; [|split].
  - apply (add_given a r s out0 carry (Some x) sum Nr Ns M0 NC Nx Ea).
    + unfold values in HR. cbn [map tl hd length] in HR. replace (S (length r) - 1)%nat with (length r) in HR by lia. exact HR.
    + cbn [cval]. rewrite <- XY in HV. lia.
  - rewrite literals_same_sat by assumption. rewrite XY. apply eqb_reflx.
  - apply (set_numbers_equal_spec out0 out1 false same M0 M1 Es). symmetry. exact HE.
Qed.

(** ** Splitting *)
Lemma split_given a input out0 out1 cs :
  Forall nonzero input -> Forall nonzero out0 -> Forall nonzero out1 -> length out0 = length input -> length out1 = length input ->
  split_flow input out0 out1 = Some cs -> value a input = 2 * value a out0 -> value a out1 = value a out0 -> sat a cs = true.
Proof.
  intros NI N0 N1 L0 L1 E HV HE. unfold split_flow in E. destruct input as [|l r]; [discriminate|]. inversion NI as [|? ? Nl Nr]. subst. cbn [length] in L0, L1.
  destruct (set_numbers_equal r (removelast out0) false) as [e0|] eqn:E0; [|discriminate]. cbn [obind] in E.
  destruct (set_numbers_equal r (removelast out1) false) as [e1|] eqn:E1; [|discriminate]. cbn [obind] in E. apply Some_inj in E. subst cs.
  rewrite value_cons in HV.
  assert (El : evl a l = false) by (destruct (evl a l); cbn [Z.b2z] in HV; [lia|reflexivity]). rewrite El in HV. cbn [Z.b2z] in HV.
  assert (P2 : 0 < 2 ^ Z.of_nat (length r)) by (apply Z.pow_pos_nonneg; lia).
  assert (X : forall o, Forall nonzero o -> length o = S (length r) -> value a o = value a r -> evl a (- last o 0) = true /\ value a (removelast o) = value a r).
  { intros o No Lo Hv. assert (last o 0 <> 0) by (apply (last_Forall nonzero); [intros ->; discriminate|exact No]).
    rewrite (last_firstn_value a o (length r) Lo) in Hv. rewrite removelast_firstn', Lo. replace (S (length r) - 1)%nat with (length r) by lia.
    pose proof (value_bound a r) as R1. pose proof (value_bound a (firstn (length r) o)) as R2. unfold len in *. rewrite P_Cnf.evl_neg by assumption. destruct (evl a (last o 0)); cbn [Z.b2z negb] in *; [lia|split; [reflexivity|lia]]. }
  destruct (X out0 N0 L0 ltac:(lia)) as [A1 A2]. destruct (X out1 N1 L1 ltac:(lia)) as [B1 B2].
  rewrite !sat_app_iff. split; [|split; [|split]].
  - rewrite sat_one, satc_one, P_Cnf.evl_neg by exact Nl. rewrite El. reflexivity.
  - apply (set_numbers_equal_spec _ _ false e0 Nr (Forall_removelast _ _ N0) E0). congruence.
  - apply (set_numbers_equal_spec _ _ false e1 Nr (Forall_removelast _ _ N1) E1). congruence.
  - rewrite !sat_cons_iff, !satc_one. auto.
Qed.

(** ** Differences *)
Lemma differ_given a pre xs ys diffs : Forall nonzero pre -> Forall nonzero xs -> Forall nonzero ys -> Forall nonzero diffs ->
  length ys = length xs -> length diffs = length xs ->
  ((forall l, In l pre -> evl a l = true) -> values a diffs = map (fun b => xorb (fst b) (snd b)) (combine (values a xs) (values a ys)) /\ value a xs <> value a ys) ->
  sat a (differ pre xs ys diffs) = true.
Proof.
  intros NP NX NY ND L1 L2 H. unfold differ. rewrite sat_app_iff.
  destruct (forallb (evl a) pre) eqn:Ep.
  - rewrite forallb_forall in Ep. destruct (H Ep) as [HD HN]. clear H. split.
    + assert (HN' : True) by exact Logic.I. clear HN. revert xs ys L1 L2 NX NY HD. induction diffs as [|z diffs IH]; intros xs ys L1 L2 NX NY HD; [destruct xs; [destruct ys; reflexivity|discriminate]|].
      destruct xs as [|x xs]; [discriminate|]. destruct ys as [|y ys]; [discriminate|]. cbn [combine flat_map]. inversion NX. inversion NY. inversion ND. subst.
      unfold values in HD. cbn [map combine fst snd] in HD. injection HD as HD1 HD2. rewrite sat_app_iff. split.
      * rewrite sat_implies by exact NP. apply orb_true_iff. right. cbn [fst snd]. rewrite !sat_cons_iff, !satc_In. split; [|split; [|reflexivity]].
        -- destruct (evl a x) eqn:Ex; [exists x; cbn; auto|]. destruct (evl a y) eqn:Ey; [exists y; cbn; auto|]. exists (- z). split; [cbn; auto|]. rewrite P_Cnf.evl_neg by assumption. rewrite HD1. reflexivity.
        -- destruct (evl a x) eqn:Ex; [|exists (- x); split; [cbn; auto|rewrite P_Cnf.evl_neg by assumption; rewrite Ex; reflexivity]].
           destruct (evl a y) eqn:Ey; [|exists (- y); split; [cbn; auto|rewrite P_Cnf.evl_neg by assumption; rewrite Ey; reflexivity]].
           exists (- z). split; [cbn; auto|]. rewrite P_Cnf.evl_neg by assumption. rewrite HD1. reflexivity.
      * apply IH; cbn [length] in *; auto; lia.
    + rewrite sat_implies by exact NP. apply orb_true_iff. right. rewrite sat_one, satc_In.
      assert (K : values a xs <> values a ys) by (intros K; apply HN, values_eq_value; [lia|exact K]). clear HN. revert xs ys L1 L2 NX NY HD K.
      induction diffs as [|z diffs IH]; intros xs ys L1 L2 NX NY HD K.
      * destruct xs; [|discriminate]. destruct ys; [|discriminate]. contradiction K; reflexivity.
      * destruct xs as [|x xs]; [discriminate|]. destruct ys as [|y ys]; [discriminate|]. inversion NX. inversion NY. inversion ND. subst.
        unfold values in HD, K. cbn [map combine fst snd] in HD, K. injection HD as HD1 HD2. destruct (evl a z) eqn:Ez; [exists z; cbn; auto|].
        destruct (IH ltac:(assumption) xs ys) as (l & Hl & El); cbn [length] in *; auto; try lia.
        -- intros Q. apply K. unfold values in Q. rewrite Q. f_equal. destruct (evl a x), (evl a y); try reflexivity; discriminate.
        -- exists l. cbn. auto.
  - split.
    + rewrite sat_forall. intros c Hc. apply in_flat_map in Hc. destruct Hc as (x & _ & Hc).
      assert (S : sat a (implies pre [[fst (fst x); snd (fst x); - snd x]; [- fst (fst x); - snd (fst x); - snd x]]) = true) by (rewrite sat_implies by exact NP; rewrite Ep; reflexivity).
      rewrite sat_forall in S. apply S. exact Hc.
    + rewrite sat_implies by exact NP. rewrite Ep. reflexivity.
Qed.

(** ** Numbers as bits *)
Definition bits_of (n : nat) (v : Z) : list bool := map (fun i => Z.testbit v (Z.of_nat i)) (seq 0 n).
Lemma bits_of_length n v : length (bits_of n v) = n.
Proof. unfold bits_of. rewrite map_length, seq_length. reflexivity. Qed.
Lemma fresh_values a n : forall top s (G : nat -> bool), 0 <= top -> (forall i, (i < n)%nat -> a (top + 1 + Z.of_nat i) = G (s + i)%nat) -> values a (fresh top n) = map G (seq s n).
Proof.
  induction n as [|n IH]; intros top s G Ht H; [reflexivity|]. unfold values in *. cbn [fresh map seq]. f_equal.
  - rewrite evl_pos by lia. specialize (H 0%nat ltac:(lia)). rewrite Nat.add_0_r in H. rewrite <- H. f_equal. lia.
  - apply IH; [lia|]. intros i Hi. specialize (H (S i) ltac:(lia)). replace (S s + i)%nat with (s + S i)%nat by lia. rewrite <- H. f_equal. lia.
Qed.
Lemma component_values a b n c (G : nat -> bool) : 0 <= b -> (forall i, (i < n)%nat -> a (b + 1 + Z.of_nat (c * n + i)) = G i) -> values a (component b n c) = map G (seq 0 n).
Proof.
  intros Hb H. unfold component. apply fresh_values; [lia|]. intros i Hi. rewrite <- H by exact Hi. f_equal. lia.
Qed.
Lemma components_values a b n k (G : nat -> nat -> bool) : 0 <= b -> (forall c i, (c < k)%nat -> (i < n)%nat -> a (b + 1 + Z.of_nat (c * n + i)) = G c i) ->
  values a (components b n k) = flat_map (fun c => map (G c) (seq 0 n)) (seq 0 k).
Proof.
  intros Hb H. unfold components, values. rewrite flat_map_concat_map, concat_map, map_map, flat_map_concat_map. f_equal. apply map_ext_in. intros c Hc. apply in_seq in Hc.
  apply component_values; [exact Hb|]. intros i Hi. apply H; lia.
Qed.
Lemma combine_app {X Y} (x x' : list X) (y y' : list Y) : length x = length y -> combine (x ++ x') (y ++ y') = (combine x y ++ combine x' y')%list.
Proof. revert y. induction x as [|u x IH]; intros [|v y] L; cbn in *; try lia; [reflexivity|]. f_equal. apply IH. lia. Qed.
(** The difference of two arrays, bit by bit. *)
Lemma xor_components n k (G H : nat -> nat -> bool) :
  map (fun b => xorb (fst b) (snd b)) (combine (flat_map (fun c => map (G c) (seq 0 n)) (seq 0 k)) (flat_map (fun c => map (H c) (seq 0 n)) (seq 0 k)))
  = flat_map (fun c => map (fun i => xorb (G c i) (H c i)) (seq 0 n)) (seq 0 k).
Proof.
  induction (seq 0 k) as [|c l IH]; [reflexivity|]. cbn [flat_map]. rewrite combine_app by (rewrite !map_length; reflexivity). rewrite map_app, IH. f_equal.
  clear IH l. induction (seq 0 n) as [|i l IH]; [reflexivity|]. cbn [map combine fst snd]. f_equal. exact IH.
Qed.
