(** Code that allocates variables and hands them on. *)
From Coq Require Import String ZArith List Bool Lia.
From Verif Require Import Spec_Cnf M_Json M_Util M_Card M_Oracle M_Balancer M_Interchange P_Cnf P_Util P_Card P_Grid P_GridOk P_Gen.
Import ListNotations.
Open Scope Z_scope.

(** Started at any top at least [n], [f] adds clauses that express [P], a
    condition on the variables up to [n], and returns something that under
    every solution satisfies [R]. *)
Definition alloc_ok {X} (n : Z) (f : Z -> option (X * cnf * Z)) (P : assignment -> Prop) (R : assignment -> X -> Prop) (ok : Z -> X -> Prop) : Prop :=
  local n P /\
  forall top x cs top', n <= top -> f top = Some (x, cs, top') ->
    top <= top' /\ cnf_ok top' cs /\ ok top' x /\
    (forall a, sat a cs = true -> P a /\ R a x) /\
    forall a, P a -> exists b, agree top a b /\ sat b cs = true.

Lemma gen_ok_bind {X} n (f : Z -> option (X * cnf * Z)) P R ok k Q Q' : alloc_ok n f P R ok ->
  (forall top x, n <= top -> ok top x -> gen_ok top (k x) (Q x)) ->
  local n Q' -> (forall a x, R a x -> (Q x a <-> Q' a)) ->
  gen_ok n (bind_gen f k) (fun a => P a /\ Q' a).
Proof.
  intros [LP Hf] Hk LQ HQ. split; [apply local_and; assumption|]. intros top cs top' Ht E. unfold bind_gen in E.
  destruct (f top) as [[[x c1] t1]|] eqn:Ef; [|discriminate]. cbn [obind] in E. destruct (k x t1) as [[c2 t2]|] eqn:Ek; [|discriminate]. cbn [obind] in E.
  apply Some_inj in E. assert (cs = (c1 ++ c2)%list) by congruence. assert (t2 = top') by congruence. subst cs t2. clear E.
  destruct (Hf top x c1 t1 Ht Ef) as (M1 & O1 & Ox & S1 & C1). destruct (Hk t1 x ltac:(lia) Ox) as [LQx Hkx]. destruct (Hkx t1 c2 top' ltac:(lia) Ek) as (M2 & O2 & S2 & C2).
  split; [lia|]. split; [apply cnf_ok_app; [eapply cnf_ok_mono; [exact M2|exact O1]|exact O2]|]. split.
  - intros a. rewrite sat_app_iff. intros [Sa Sb]. destruct (S1 a Sa) as [Pa Ra]. split; [exact Pa|]. apply (HQ a x Ra). apply S2. exact Sb.
  - intros a [Pa Qa]. destruct (C1 a Pa) as (b & Ab & Sb). destruct (S1 b Sb) as [_ Rb].
    assert (Qb : Q x b) by (apply (HQ b x Rb); eapply LQ; [eapply agree_mono; [exact Ht|exact Ab]|exact Qa]).
    destruct (C2 b Qb) as (c & Ac & Sc). exists c. split; [eapply agree_trans; [exact Ab|eapply agree_mono; [exact M1|exact Ac]]|].
    rewrite sat_app_iff. split; [|exact Sc]. rewrite <- (sat_agree t1 b c c1 Ac O1). exact Sb.
Qed.

(** New variables can be given any values. *)
Lemma extend_values : forall bs a top, 0 <= top -> exists b, agree top a b /\ values b (fresh top (length bs)) = bs.
Proof.
  induction bs as [|x bs IH]; intros a top Ht; [exists a; split; [apply agree_refl|reflexivity]|].
  destruct (IH (fun v => if v =? top + 1 then x else a v) (top + 1) ltac:(lia)) as (b & Ab & Vb). exists b. split.
  - intros v Hv. rewrite <- (Ab v ltac:(lia)). destruct (Z.eqb_spec v (top + 1)); [lia|reflexivity].
  - cbn [length fresh]. unfold values in *. cbn [map]. f_equal; [|exact Vb]. unfold evl. destruct (Z.ltb_spec 0 (top + 1)); [|lia].
    rewrite <- (Ab (top + 1) ltac:(lia)). rewrite Z.eqb_refl. reflexivity.
Qed.
