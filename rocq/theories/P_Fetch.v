(** Proofs about the reading of recipes. *)
From Coq Require Import String ZArith QArith Qcanon List Bool Lia.
From Verif Require Import M_Json M_Dict P_Dict Spec_Fetch M_Fetch.
Import ListNotations.
Local Open Scope string_scope.

Lemma key_eqb_spec a b : key_eqb a b = true <-> a = b.
Proof.
  destruct a as [n|s|], b as [m|t|]; cbn [key_eqb]; try (split; congruence).
  - destruct (Qc_eq_dec n m); split; congruence.
  - rewrite String.eqb_eq. split; congruence.
Qed.
Lemma key_reflect a b : reflect (a = b) (key_eqb a b).
Proof. apply iff_reflect. symmetry. apply key_eqb_spec. Qed.
Lemma key_dec (a b : key) : {a = b} + {a <> b}.
Proof. destruct (key_eqb a b) eqn:E; [left; apply key_eqb_spec; exact E|right; intros H; apply key_eqb_spec in H; congruence]. Qed.

(** ** Tables *)
Fixpoint fill (fs : list (key * lua)) (result : list (key * data)) : option (list (key * data)) :=
  match fs with
  | [] => Some result
  | (k, v) :: r => match k with Computed => None | _ => let* d := recurse v in fill r (dset key_eqb k d result) end
  end.
Lemma recurse_table fs : recurse (Table fs) =
  let* result := fill fs [] in
  match omap (fun i => dget key_eqb (index i) result) (seq 0 (List.length result)) with
  | Some l => Some (DList l)
  | None => Some (DDict result)
  end.
Proof.
  cbn [recurse]. match goal with |- obind ?x _ = _ => enough (E : x = fill fs []) by (rewrite E; reflexivity) end. generalize (@nil (key * data)) as acc. induction fs as [|[k v] fs IH]; intros acc; [reflexivity|]. cbn [fill].
  destruct k; try reflexivity; destruct (recurse v); try reflexivity; cbn [obind]; apply IH.
Qed.
Lemma fill_keys fs : forall acc res, fill fs acc = Some res -> (forall k, In k (map fst res) <-> In k (map fst acc) \/ In k (map fst fs)) /\ (NoDup (map fst acc) -> NoDup (map fst res)).
Proof.
  induction fs as [|[k v] fs IH]; intros acc res E; cbn [fill] in E.
  - injection E as <-. split; [intros k; cbn; tauto|auto].
  - destruct k as [n|s|]; [| |discriminate].
    all: destruct (recurse v) as [d|]; [|discriminate]; cbn [obind] in E; destruct (IH _ _ E) as [I1 I2]; split; [|intros N; apply I2, dset_nodup; [apply key_reflect|exact N]];
      intros k; rewrite I1, (dset_keys key_eqb key_reflect); cbn [map fst In]; intuition.
Qed.
Lemma fill_get fs : forall acc res k, fill fs acc = Some res ->
  (In k (map fst fs) -> exists v d, last_value fs k v /\ recurse v = Some d /\ dget key_eqb k res = Some d) /\ (~ In k (map fst fs) -> dget key_eqb k res = dget key_eqb k acc).
Proof.
  induction fs as [|[k' v'] fs IH]; intros acc res k E; cbn [fill] in E.
  - injection E as <-. split; [intros []|reflexivity].
  - assert (X : exists d, recurse v' = Some d /\ fill fs (dset key_eqb k' d acc) = Some res) by (destruct k'; [| |discriminate]; (destruct (recurse v') as [d|]; [|discriminate]; exists d; split; [reflexivity|exact E])).
    destruct X as (d & Ed & E'). clear E. destruct (IH _ _ k E') as [I1 I2]. cbn [map fst In]. destruct (in_dec key_dec k (map fst fs)) as [Hin|Hout].
    + split; [|tauto]. intros _. destruct (I1 Hin) as (v & d' & (be & af & -> & La) & Ev & Eg). exists v, d'. split; [|auto]. exists ((k', v') :: be), af. split; [reflexivity|exact La].
    + rewrite (I2 Hout), (dget_dset key_eqb key_reflect). split.
      * intros [<-|?]; [|contradiction]. exists v', d. split; [|split; [exact Ed|rewrite (proj2 (key_eqb_spec _ _) eq_refl); reflexivity]].
        exists [], fs. split; [reflexivity|]. intros v'' H. apply Hout. apply in_map_iff. exists (k', v''). auto.
      * intros N. destruct (key_eqb k k') eqn:Ek; [|reflexivity]. apply key_eqb_spec in Ek. exfalso. apply N. left. congruence.
Qed.
Lemma fill_total fs : forall acc, (forall k v, In (k, v) fs -> k <> Computed /\ exists d, recurse v = Some d) <-> exists res, fill fs acc = Some res.
Proof.
  induction fs as [|[k v] fs IH]; intros acc; cbn [fill].
  - split; [eauto|intros _ k v []].
  - split.
    + intros H. destruct (H k v (or_introl eq_refl)) as (Nk & d & Ed). destruct (proj1 (IH (dset key_eqb k d acc)) (fun k v Hi => H k v (or_intror Hi))) as (res & Er).
      rewrite Ed. cbn [obind]. exists res. destruct k; [exact Er|exact Er|contradiction].
    + intros (res & E). assert (X : k <> Computed /\ exists d, recurse v = Some d /\ fill fs (dset key_eqb k d acc) = Some res).
      { destruct k; [| |discriminate]; (split; [discriminate|]); (destruct (recurse v) as [d|]; [|discriminate]); exists d; auto. }
      destruct X as (Nk & d & Ed & E'). intros k' v' [Hi|Hi]; [injection Hi as <- <-; eauto|]. exact (proj2 (IH _) (ex_intro _ res E') k' v' Hi).
Qed.
Lemma index_inj i j : index i = index j -> i = j.
Proof.
  unfold index. intros H. assert (K : forall a b, Num a = Num b -> a = b) by congruence. apply K in H. apply (f_equal this) in H.
  assert (E : (Qred (inject_Z (Z.of_nat (i + 1))) == Qred (inject_Z (Z.of_nat (j + 1))))%Q) by (change (Qred (inject_Z (Z.of_nat (i + 1))) = Qred (inject_Z (Z.of_nat (j + 1)))) in H; rewrite H; reflexivity).
  rewrite !Qred_correct in E. unfold Qeq, inject_Z in E. cbn [Qnum Qden] in E. lia.
Qed.
Lemma omap_some {A B} (f : A -> option B) l : (forall x, In x l -> exists y, f x = Some y) -> exists ys, omap f l = Some ys.
Proof.
  induction l as [|x l IH]; intros H; [exists []; reflexivity|]. destruct (H x (or_introl eq_refl)) as (y & Ey). destruct (IH (fun z Hz => H z (or_intror Hz))) as (ys & Eys).
  exists (y :: ys). cbn [omap]. rewrite Ey, Eys. reflexivity.
Qed.
Lemma omap_each {A B} (f : A -> option B) l : forall ys, omap f l = Some ys -> List.length ys = List.length l /\ forall i x, nth_error l i = Some x -> exists y, nth_error ys i = Some y /\ f x = Some y.
Proof.
  induction l as [|x l IH]; intros ys E; cbn [omap] in E.
  - injection E as <-. split; [reflexivity|]. intros [] ? K; discriminate.
  - destruct (f x) as [y|] eqn:Ey; [|discriminate]. cbn [obind] in E. destruct (omap f l) as [zs|]; [|discriminate]. cbn [obind] in E. injection E as <-.
    destruct (IH zs eq_refl) as [L1 L2]. split; [cbn; lia|]. intros [|i] z Hz; cbn [nth_error] in *; [injection Hz as <-; eauto|auto].
Qed.
Lemma nth_seq n : forall i s, (i < n)%nat -> nth_error (seq s n) i = Some (s + i)%nat.
Proof. induction n as [|n IH]; intros i s H; [lia|]. destruct i; cbn [seq nth_error]; [f_equal; lia|]. rewrite IH by lia. f_equal. lia. Qed.
(** The indices found are those of a sequence. *)
Lemma found_all (res : list (key * data)) : NoDup (map fst res) ->
  ((exists l, omap (fun i => dget key_eqb (index i) res) (seq 0 (List.length res)) = Some l) <-> exists n, forall k, In k (map fst res) <-> exists i, (i < n)%nat /\ k = index i).
Proof.
  intros N. set (m := List.length res). assert (ND : NoDup (map index (seq 0 m))).
  { apply FinFun.Injective_map_NoDup; [intros i j; apply index_inj|apply seq_NoDup]. }
  split.
  - intros (l & E). destruct (omap_each _ _ _ E) as [_ Ea]. exists m.
    assert (Inc : incl (map index (seq 0 m)) (map fst res)).
    { intros k Hk. apply in_map_iff in Hk. destruct Hk as (i & <- & Hi). apply in_seq in Hi. destruct (Ea i i (nth_seq m i 0 ltac:(lia))) as (d & _ & Ed).
      apply (dget_in key_eqb key_reflect) in Ed. apply in_map_iff. exists (index i, d). auto. }
    assert (Inc' : incl (map fst res) (map index (seq 0 m))) by (apply NoDup_length_incl; [exact ND|rewrite !map_length, seq_length; unfold m; lia|exact Inc]).
    intros k. split.
    + intros Hk. apply Inc' in Hk. apply in_map_iff in Hk. destruct Hk as (i & <- & Hi). apply in_seq in Hi. exists i. split; [lia|reflexivity].
    + intros (i & Hi & ->). apply Inc. apply in_map. apply in_seq. lia.
  - intros (n & H). assert (n = m).
    { assert (Inc : incl (map index (seq 0 n)) (map fst res)) by (intros k Hk; apply in_map_iff in Hk; destruct Hk as (i & <- & Hi); apply in_seq in Hi; apply H; exists i; split; [lia|reflexivity]).
      assert (Inc' : incl (map fst res) (map index (seq 0 n))) by (intros k Hk; apply H in Hk; destruct Hk as (i & Hi & ->); apply in_map, in_seq; lia).
      assert (NDn : NoDup (map index (seq 0 n))) by (apply FinFun.Injective_map_NoDup; [intros i j; apply index_inj|apply seq_NoDup]).
      pose proof (NoDup_incl_length NDn Inc) as L1. pose proof (NoDup_incl_length N Inc') as L2. rewrite !map_length, seq_length in L1, L2. unfold m. lia. }
    subst n. apply omap_some. intros i Hi. apply in_seq in Hi. assert (Hk : In (index i) (map fst res)) by (apply H; exists i; split; [lia|reflexivity]).
    destruct (dget key_eqb (index i) res) eqn:E; [eauto|]. apply (dget_none key_eqb key_reflect) in E. contradiction.
Qed.
Lemma sequence_length fs n res : fill fs [] = Some res -> sequence fs n -> n = List.length res.
Proof.
  intros E Sq. destruct (fill_keys _ _ _ E) as [K N]. specialize (N (NoDup_nil _)).
  assert (Inc : incl (map index (seq 0 n)) (map fst res)) by (intros k Hk; apply in_map_iff in Hk; destruct Hk as (i & <- & Hi); apply in_seq in Hi; apply K; right; apply Sq; exists i; split; [lia|reflexivity]).
  assert (Inc' : incl (map fst res) (map index (seq 0 n))) by (intros k Hk; apply K in Hk; destruct Hk as [[]|Hk]; apply Sq in Hk; destruct Hk as (i & Hi & ->); apply in_map, in_seq; lia).
  assert (NDn : NoDup (map index (seq 0 n))) by (apply FinFun.Injective_map_NoDup; [intros i j; apply index_inj|apply seq_NoDup]).
  pose proof (NoDup_incl_length NDn Inc) as L1. pose proof (NoDup_incl_length N Inc') as L2. rewrite !map_length, seq_length in L1, L2. lia.
Qed.
Lemma reads_sequence fs n d : sequence fs n -> recurse (Table fs) = Some d ->
  exists l, d = DList l /\ List.length l = n /\ forall i, (i < n)%nat -> exists v x, last_value fs (index i) v /\ recurse v = Some x /\ nth_error l i = Some x.
Proof.
  intros Sq E. rewrite recurse_table in E. destruct (fill fs []) as [res|] eqn:Ef; [|discriminate]. cbn [obind] in E. destruct (fill_keys _ _ _ Ef) as [K N]. specialize (N (NoDup_nil _)).
  pose proof (sequence_length fs n res Ef Sq) as Ln.
  destruct (proj2 (found_all res N)) as (l & El).
  { exists n. intros k. rewrite K. cbn. rewrite <- (Sq k). tauto. }
  rewrite El in E. injection E as <-. exists l. split; [reflexivity|]. destruct (omap_each _ _ _ El) as [L1 L2]. rewrite seq_length in L1. split; [lia|].
  intros i Hi. destruct (L2 i i (nth_seq (List.length res) i 0 ltac:(lia))) as (x & Ex & Eg). assert (Hk : In (index i) (map fst fs)) by (apply Sq; exists i; split; [lia|reflexivity]).
  destruct (proj1 (fill_get fs [] res (index i) Ef) Hk) as (v & d & La & Ev & Eg'). exists v, x. rewrite Eg in Eg'. injection Eg' as ->. auto.
Qed.
Lemma reads_record fs d : ~ (exists n, sequence fs n) -> recurse (Table fs) = Some d ->
  exists l, d = DDict l /\ NoDup (map fst l) /\ (forall k, In k (map fst l) <-> In k (map fst fs)) /\
    forall k x, In (k, x) l -> exists v, last_value fs k v /\ recurse v = Some x.
Proof.
  intros Nsq E. rewrite recurse_table in E. destruct (fill fs []) as [res|] eqn:Ef; [|discriminate]. cbn [obind] in E. destruct (fill_keys _ _ _ Ef) as [K N]. specialize (N (NoDup_nil _)).
  destruct (omap _ _) as [l|] eqn:El.
  - exfalso. apply Nsq. destruct (proj1 (found_all res N) (ex_intro _ l El)) as (n & H). exists n. intros k. rewrite <- H, K. cbn. tauto.
  - injection E as <-. exists res. split; [reflexivity|]. split; [exact N|]. split; [intros k; rewrite K; cbn; tauto|]. intros k x Hx.
    assert (Hk : In k (map fst fs)) by (assert (Y : In k (map fst res)) by (apply in_map_iff; exists (k, x); auto); apply K in Y; destruct Y as [[]|Y]; exact Y).
    destruct (proj1 (fill_get fs [] res k Ef) Hk) as (v & d & La & Ev & Eg). rewrite (dget_nodup key_eqb key_reflect _ _ _ N Hx) in Eg. injection Eg as ->. eauto.
Qed.
Fixpoint lua_size (v : lua) : nat := match v with Table fs => S ((fix sum fs := match fs with [] => 0 | (_, v) :: r => lua_size v + sum r end)%nat fs) | _ => 1 end.
Lemma size_in k v fs : In (k, v) fs -> (lua_size v < lua_size (Table fs))%nat.
Proof.
  cbn [lua_size]. intros H. enough (lua_size v <= (fix sum fs := match fs with [] => 0 | (_, v) :: r => lua_size v + sum r end)%nat fs)%nat by lia.
  induction fs as [|[k' v'] fs IH]; [destruct H|]. destruct H as [H|H]; [injection H as -> ->; lia|]. specialize (IH H). lia.
Qed.
Lemma constant_table fs : constant (Table fs) <-> forall k v, In (k, v) fs -> k <> Computed /\ constant v.
Proof.
  cbn [constant]. induction fs as [|[k v] fs IH]; [split; [intros _ k v []|reflexivity]|]. rewrite IH. split.
  - intros (N & C & H) k' v' [E|E]; [injection E as <- <-; auto|eauto].
  - intros H. split; [apply (H k v); left; reflexivity|]. split; [apply (H k v); left; reflexivity|]. intros k' v' Hi. apply H. right. exact Hi.
Qed.
Lemma recurse_total v0 : (exists d, recurse v0 = Some d) <-> constant v0.
Proof.
  enough (G : forall n v, (lua_size v < n)%nat -> (exists d, recurse v = Some d) <-> constant v) by (apply (G (S (lua_size v0))); lia).
  induction n as [|n IH]; intros w Hw; [lia|]. destruct w as [fs|s|b|q|]; try (cbn; split; eauto; fail); [|cbn; split; [intros (d & K); discriminate|intros []]].
  rewrite recurse_table, constant_table. split.
  - intros (d & E). destruct (fill fs []) as [res|] eqn:Ef; [|discriminate]. intros k v Hi. destruct (proj2 (fill_total fs []) (ex_intro _ res Ef) k v Hi) as (Nk & Ev). split; [exact Nk|].
    apply IH; [|exact Ev]. pose proof (size_in k v fs Hi). lia.
  - intros H. destruct (proj1 (fill_total fs [])) as (res & ->).
    { intros k v Hi. destruct (H k v Hi) as [Nk C]. split; [exact Nk|]. apply IH; [|exact C]. pose proof (size_in k v fs Hi). lia. }
    cbn [obind]. destruct (omap _ _); eauto.
Qed.

(** ** Recipes *)
Lemma field_get d s v : dictionary d -> (field d s v <-> get_item d s = Some v).
Proof.
  intros (l & -> & N). cbn [get_item]. split.
  - intros F. inversion F as [l' s' v' Hi]; subst. apply (dget_nodup key_eqb key_reflect); assumption.
  - intros E. constructor. apply (dget_in key_eqb key_reflect). exact E.
Qed.
Lemma absent_get d s : dictionary d -> (absent d s <-> get_item d s = None).
Proof.
  intros D. split.
  - intros H. destruct (get_item d s) as [v|] eqn:E; [|reflexivity]. exfalso. apply (H v). apply field_get; assumption.
  - intros E v F. apply (field_get d s v D) in F. congruence.
Qed.
Lemma has_get d s : dictionary d -> has d s = Some (match get_item d s with Some _ => true | None => false end).
Proof. intros (l & -> & N). reflexivity. Qed.
Lemma get_or_get d s x : dictionary d -> get_or d s x = Some (match get_item d s with Some v => v | None => x end).
Proof. intros (l & -> & N). reflexivity. Qed.
Lemma string_is d s : is_string d s = true <-> d = DString s.
Proof. destruct d; cbn; try (split; congruence). rewrite String.eqb_eq. split; congruence. Qed.
Lemma named_ok d x : full_item d x -> named_item d = Some x.
Proof.
  intros [d' n a D F1 F2 F3]. apply (field_get _ _ _ D) in F1, F2, F3. unfold named_item. rewrite F1, F2, F3. reflexivity.
Qed.
Lemma ingredient_ok d x : item d x -> ingredient d = Some x.
Proof.
  intros [n a r|d' x' F]; [reflexivity|]. assert (E : exists l, d' = DDict l) by (destruct F as [d2 n a (l & -> & _) _ _ _]; eauto). destruct E as (l & ->). exact (named_ok _ _ F).
Qed.
Lemma omap_ok {A B} (R : A -> B -> Prop) f l l' : (forall x y, R x y -> f x = Some y) -> Forall2 R l l' -> omap f l = Some l'.
Proof. intros H F. induction F as [|x y l l' Rx F IH]; [reflexivity|]. cbn [omap]. rewrite (H x y Rx), IH. reflexivity. Qed.
Lemma crafting_kept e : dictionary e -> (crafting e <->
  (match get_item e "category" with Some c => negb (is_string c "crafting" || is_string c "advanced-crafting") | None => false end) = false).
Proof.
  intros D. unfold crafting. destruct (get_item e "category") as [c|] eqn:E.
  - rewrite negb_false_iff, orb_true_iff, !string_is. split; [intros H; apply H, field_get; assumption|]. intros H c' F. apply (field_get _ _ _ D) in F. rewrite E in F. injection F as <-. exact H.
  - split; [reflexivity|]. intros _ c F. apply (field_get _ _ _ D) in F. congruence.
Qed.
Lemma entry_skipped e v : dictionary e -> ~ crafting e -> entry_recipe e v = Some None.
Proof.
  intros D N. unfold entry_recipe. rewrite (has_get e _ D). cbn [obind]. rewrite (crafting_kept e D) in N. destruct (get_item e "category") as [c|]; [|contradiction N; reflexivity]. cbn [obind].
  destruct (negb _); [reflexivity|contradiction N; reflexivity].
Qed.
(** Everything but the time. *)
Definition inner_body (e : data) (v : string) : option data := match get_item e v with Some b => Some b | None => match get_item e "ingredients" with Some _ => Some e | None => get_item e "normal" end end.
Definition found_time (e : data) (v : string) : data :=
  match match get_item e v with Some b => get_item b "energy_required" | None => get_item e "energy_required" end with
  | Some t => t
  | None => match get_item e "energy_required" with Some t => t | None => half end
  end.
Lemma entry_found e v b r : crafting e -> recipe_of e v b r ->
  entry_recipe e v = Some (Some {| rc_time := found_time e v; rc_ingredients := rc_ingredients r; rc_results := rc_results r |}).
Proof.
  intros C [Bo De Db Ei Ti (ds & Fi & It) Ou]. apply (crafting_kept e De) in C. apply (field_get _ _ _ Db) in Fi.
  unfold entry_recipe. rewrite !(has_get e _ De). cbn [obind].
  assert (E1 : (if match get_item e "category" with Some _ => true | None => false end then let* c := get_item e "category" in Some (negb (is_string c "crafting" || is_string c "advanced-crafting")) else Some false) = Some false).
  { destruct (get_item e "category") as [c|]; cbn [obind]; [rewrite C|]; reflexivity. }
  rewrite E1. cbn [obind]. rewrite (get_or_get e _ _ De). cbn [obind].
  set (entry2 := match get_item e v with Some b => b | None => e end).
  assert (E2 : (if match get_item e v with Some _ => true | None => false end then get_item e v else Some e) = Some entry2) by (unfold entry2; destruct (get_item e v); reflexivity).
  rewrite E2. cbn [obind].
  assert (X : dictionary entry2 /\ found_time e v = match get_item entry2 "energy_required" with Some t => t | None => match get_item e "energy_required" with Some t => t | None => half end end /\
    ((get_item entry2 "ingredients" <> None /\ entry2 = b) \/ (get_item entry2 "ingredients" = None /\ entry2 = e /\ get_item e "normal" = Some b))).
  { unfold entry2, found_time. destruct Bo as [b F|i Av F|b Av Ai F].
    - apply (field_get _ _ _ De) in F. rewrite F. split; [exact Db|]. split; [reflexivity|]. left. split; [congruence|reflexivity].
    - apply (absent_get _ _ De) in Av. rewrite Av. split; [exact De|]. split; [destruct (get_item e "energy_required"); reflexivity|]. left. split; [congruence|reflexivity].
    - apply (absent_get _ _ De) in Av, Ai. apply (field_get _ _ _ De) in F. rewrite Av. split; [exact De|]. split; [destruct (get_item e "energy_required"); reflexivity|]. right. auto. }
  destruct X as (D2 & Tm & X). rewrite (get_or_get entry2 _ _ D2). cbn [obind]. rewrite <- Tm. rewrite !(has_get entry2 _ D2). cbn [obind].
  assert (E3 : (if negb match get_item entry2 "ingredients" with Some _ => true | None => false end &&
     (negb match get_item entry2 "result" with Some _ => true | None => false end || negb match get_item entry2 "results" with Some _ => true | None => false end) then get_item entry2 "normal" else Some entry2) =
     if match get_item entry2 "ingredients" with Some _ => true | None => false end || (match get_item entry2 "result" with Some _ => true | None => false end && match get_item entry2 "results" with Some _ => true | None => false end) then Some entry2 else get_item entry2 "normal").
  { destruct (get_item entry2 "ingredients"), (get_item entry2 "result"), (get_item entry2 "results"); reflexivity. }
  rewrite E3.
  destruct X as [[Ni ->]|(Ni & -> & Nn)].
  - rewrite Fi. cbn [orb obind]. rewrite ?Fi. cbn [obind iterate]. rewrite (omap_ok item ingredient ds _ ingredient_ok It). cbn [obind].
    rewrite (has_get b _ Db). cbn [obind]. inversion Ou as [ds' rs F1 F2|n c A1 F1 F2|n A1 F1 A2]; subst.
    + apply (field_get _ _ _ Db) in F1. rewrite F1. cbn [obind iterate]. rewrite (omap_ok full_item named_item ds' _ named_ok F2). reflexivity.
    + apply (absent_get _ _ Db) in A1. apply (field_get _ _ _ Db) in F1, F2. rewrite A1, F1. cbn [obind]. rewrite (get_or_get b _ _ Db), F2. reflexivity.
    + apply (absent_get _ _ Db) in A1, A2. apply (field_get _ _ _ Db) in F1. rewrite A1, F1. cbn [obind]. rewrite (get_or_get b _ _ Db), A2. reflexivity.
  - rewrite Ni. cbn [orb]. destruct (match get_item e "result" with Some _ => true | None => false end && _) eqn:Both.
    + exfalso. destruct Ei as [Ei|Ei]; apply (absent_get _ _ De) in Ei; rewrite Ei in Both; [discriminate|rewrite andb_false_r in Both; discriminate].
    + rewrite Nn. cbn [obind]. rewrite Fi. cbn [obind iterate]. rewrite (omap_ok item ingredient ds _ ingredient_ok It). cbn [obind].
    rewrite (has_get b _ Db). cbn [obind]. inversion Ou as [ds' rs F1 F2|n c A1 F1 F2|n A1 F1 A2]; subst.
    * apply (field_get _ _ _ Db) in F1. rewrite F1. cbn [obind iterate]. rewrite (omap_ok full_item named_item ds' _ named_ok F2). reflexivity.
    * apply (absent_get _ _ Db) in A1. apply (field_get _ _ _ Db) in F1, F2. rewrite A1, F1. cbn [obind]. rewrite (get_or_get b _ _ Db), F2. reflexivity.
    * apply (absent_get _ _ Db) in A1, A2. apply (field_get _ _ _ Db) in F1. rewrite A1, F1. cbn [obind]. rewrite (get_or_get b _ _ Db), A2. reflexivity.
Qed.
Lemma field_unique d s v w : dictionary d -> field d s v -> field d s w -> v = w.
Proof. intros D F F'. apply (field_get _ _ _ D) in F, F'. congruence. Qed.
Lemma time_found e v b r : recipe_of e v b r -> (forall t, ~ borrowed_time e v t) -> found_time e v = rc_time r.
Proof.
  intros [Bo De Db Ei Ti _ _] NB. unfold found_time. destruct Bo as [b F|i Av F|b Av Ai F].
  - apply (field_get _ _ _ De) in F. rewrite F. destruct Ti as [t Ft|t At Ft|At Ft].
    + apply (field_get _ _ _ Db) in Ft. rewrite Ft. reflexivity.
    + apply (absent_get _ _ Db) in At. apply (field_get _ _ _ De) in Ft. rewrite At, Ft. reflexivity.
    + apply (absent_get _ _ Db) in At. apply (absent_get _ _ De) in Ft. rewrite At, Ft. reflexivity.
  - apply (absent_get _ _ De) in Av. rewrite Av. destruct Ti as [t Ft|t At Ft|At Ft].
    + apply (field_get _ _ _ De) in Ft. rewrite Ft. reflexivity.
    + exfalso. exact (At t Ft).
    + apply (absent_get _ _ De) in Ft. rewrite Ft. reflexivity.
  - destruct Ti as [t Ft|t At Ft|At Ft].
    + exfalso. apply (NB t). split; [exact Av|]. split; [exact Ai|]. exists b. auto.
    + apply (absent_get _ _ De) in Av. apply (field_get _ _ _ De) in Ft. rewrite Av, Ft. reflexivity.
    + apply (absent_get _ _ De) in Av, Ft. rewrite Av, Ft. reflexivity.
Qed.
Lemma recipes_listed v es rs : listed v es rs -> (forall e t, In e es -> ~ borrowed_time e v t) -> get_recipes_for_variant es v = Some rs.
Proof.
  induction 1 as [|e es rs De Nc Li IH|e b r es rs Cr Ro Li IH]; intros NB; [reflexivity| |]; cbn [get_recipes_for_variant].
  - rewrite (entry_skipped e v De Nc). cbn [obind]. rewrite IH by (intros; apply NB; right; assumption). reflexivity.
  - rewrite (entry_found e v b r Cr Ro). cbn [obind]. rewrite IH by (intros; apply NB; right; assumption). cbn [obind].
    rewrite (time_found e v b r Ro (fun t => NB e t (or_introl eq_refl))). destruct r; reflexivity.
Qed.
Lemma omap_none {A B} (f : A -> option B) l x : In x l -> f x = None -> omap f l = None.
Proof.
  induction l as [|y l IH]; intros Hi E; [destruct Hi|]. cbn [omap]. destruct Hi as [->|Hi]; [rewrite E; reflexivity|]. destruct (f y); [|reflexivity]. cbn [obind]. rewrite (IH Hi E). reflexivity.
Qed.
Lemma file_read body d : decode_lua_data body = Some d <-> exists fields, body = [Invoke "data" "extend" [Table fields]] /\ recurse (Table fields) = Some d.
Proof.
  split.
  - unfold decode_lua_data. destruct body as [|[s f args|] [|]]; try discriminate. destruct (String.eqb_spec s "data") as [->|]; [|discriminate]. destruct (String.eqb_spec f "extend") as [->|]; [|discriminate].
    cbn [andb negb]. destruct args as [|[fields| | | |] [|]]; try discriminate. eauto.
  - intros (fields & -> & E). exact E.
Qed.
(** Anything but items raises. *)
Lemma named_bad d : not_item d -> named_item d = None.
Proof.
  intros [D N]. unfold named_item. destruct (get_item d "type") as [ty|] eqn:E; [|reflexivity]. cbn [obind]. destruct (is_string ty "item") eqn:Es; [|reflexivity].
  exfalso. apply N. apply string_is in Es. subst ty. apply (field_get _ _ _ D). exact E.
Qed.
Lemma ingredient_bad d : not_item d -> ingredient d = None.
Proof. intros H. destruct (proj1 H) as (l & E & _). subst d. exact (named_bad _ H). Qed.
Lemma entry_bad e v b k ds d : crafting e -> dictionary e -> body e v b -> dictionary b -> forall i, field b "ingredients" i -> k = "ingredients" \/ k = "results" -> field b k (DList ds) -> In d ds -> not_item d -> entry_recipe e v = None.
Proof.
  intros C De Bo Db i Fi Hk Fk Hd Bad. apply (crafting_kept e De) in C. apply (field_get _ _ _ Db) in Fk, Fi.
  unfold entry_recipe. rewrite !(has_get e _ De). cbn [obind].
  assert (E1 : (if match get_item e "category" with Some _ => true | None => false end then let* c := get_item e "category" in Some (negb (is_string c "crafting" || is_string c "advanced-crafting")) else Some false) = Some false).
  { destruct (get_item e "category") as [c|]; cbn [obind]; [rewrite C|]; reflexivity. }
  rewrite E1. cbn [obind]. rewrite (get_or_get e _ _ De). cbn [obind].
  set (entry2 := match get_item e v with Some b => b | None => e end).
  assert (E2 : (if match get_item e v with Some _ => true | None => false end then get_item e v else Some e) = Some entry2) by (unfold entry2; destruct (get_item e v); reflexivity).
  rewrite E2. cbn [obind].
  assert (Last : forall tm, (let* given := get_item b "ingredients" in
    let* items := iterate given in
    let* ingredients := omap ingredient items in
    let* hrs := has b "results" in
    let* results := if hrs
      then let* given := get_item b "results" in let* items := iterate given in omap named_item items
      else let* r := get_item b "result" in let* c := get_or b "result_count" one in Some [(r, c)] in
    Some (Some {| rc_time := tm; rc_ingredients := ingredients; rc_results := results |})) = None).
  { intros tm. destruct Hk as [-> | ->].
    - rewrite Fk. cbn [obind iterate]. rewrite (omap_none ingredient ds d Hd (ingredient_bad d Bad)). reflexivity.
    - destruct (get_item b "ingredients") as [g|]; [|reflexivity]. cbn [obind]. destruct (iterate g) as [its|]; [|reflexivity]. cbn [obind]. destruct (omap ingredient its); [|reflexivity]. cbn [obind].
      rewrite (has_get b _ Db), Fk. cbn [obind iterate]. rewrite (omap_none named_item ds d Hd (named_bad d Bad)). reflexivity. }
  assert (X : dictionary entry2 /\ (entry2 = b \/ (get_item entry2 "ingredients" = None /\ entry2 = e /\ get_item e "normal" = Some b))).
  { unfold entry2. destruct Bo as [b F|i' Av F|b Av Ai F].
    - apply (field_get _ _ _ De) in F. rewrite F. auto.
    - apply (absent_get _ _ De) in Av. rewrite Av. auto.
    - apply (absent_get _ _ De) in Av, Ai. apply (field_get _ _ _ De) in F. rewrite Av. auto. }
  destruct X as (D2 & X). rewrite (get_or_get entry2 _ _ D2). cbn [obind]. rewrite !(has_get entry2 _ D2). cbn [obind].
  destruct X as [->|(Ni & -> & Nn)].
  - rewrite Fi. cbn [negb andb obind]. rewrite Fi. specialize (Last (match get_item b "energy_required" with Some t => t | None => match get_item e "energy_required" with Some t => t | None => half end end)). rewrite Fi in Last. exact Last.
  - rewrite Ni. cbn [negb andb]. destruct (get_item e "result"), (get_item e "results"); cbn [negb orb]; try (rewrite Nn; cbn [obind]; apply Last). cbn [obind]. rewrite Ni. reflexivity.
Qed.
Lemma recipes_bad es v e : In e es -> entry_recipe e v = None -> get_recipes_for_variant es v = None.
Proof.
  induction es as [|e' es IH]; intros Hi E; [destruct Hi|]. cbn [get_recipes_for_variant]. destruct Hi as [->|Hi]; [rewrite E; reflexivity|].
  destruct (entry_recipe e' v); [|reflexivity]. cbn [obind]. rewrite (IH Hi E). reflexivity.
Qed.
