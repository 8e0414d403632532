(** Proofs about directions, tiles and their JSON form. *)
From Coq Require Import ZArith List Bool String Lia.
From Verif Require Import Spec_Tile Spec_Layout M_Json M_Tile.
Import ListNotations.
Local Open Scope string_scope.
Open Scope Z_scope.

Lemma dir_of_value_value d : dir_of_value (dir_value d) = Some d.
Proof. destruct d; reflexivity. Qed.

Lemma dir_value_bound d : 0 <= dir_value d < 4.
Proof. destruct d; cbn; lia. Qed.

Lemma dir_of_value_some v : 0 <= v < 4 <-> exists d, dir_of_value v = Some d /\ dir_value d = v.
Proof.
  split.
  - intros H. assert (C : v = 0 \/ v = 1 \/ v = 2 \/ v = 3) by lia.
    destruct C as [->|[->|[->| ->]]]; eexists; split; reflexivity.
  - intros (d & _ & <-). apply dir_value_bound.
Qed.

Lemma dir_of_value_inv v d : dir_of_value v = Some d -> v = dir_value d.
Proof.
  unfold dir_of_value.
  destruct (Z.eqb_spec v 0); [intros [= <-]; assumption|].
  destruct (Z.eqb_spec v 1); [intros [= <-]; assumption|].
  destruct (Z.eqb_spec v 2); [intros [= <-]; assumption|].
  destruct (Z.eqb_spec v 3); [intros [= <-]; assumption|discriminate].
Qed.

Lemma dir_add_some d r : dir_add d r = Some (dir_add' d r).
Proof.
  unfold dir_add'. unfold dir_add.
  assert (H : 0 <= (dir_value d + r) mod 4 < 4) by (apply Z.mod_pos_bound; lia).
  apply dir_of_value_some in H. destruct H as (e & -> & _). reflexivity.
Qed.

Lemma dir_add'_value d r : dir_value (dir_add' d r) = (dir_value d + r) mod 4.
Proof.
  unfold dir_add', dir_add.
  assert (H : 0 <= (dir_value d + r) mod 4 < 4) by (apply Z.mod_pos_bound; lia).
  apply dir_of_value_some in H. destruct H as (e & -> & E). exact E.
Qed.

Lemma dir_value_inj d e : dir_value d = dir_value e -> d = e.
Proof. destruct d, e; cbn; intros; congruence. Qed.

Lemma next_ac d : next d = anticlockwise d. Proof. destruct d; reflexivity. Qed.
Lemma prev_c d : prev d = clockwise d. Proof. destruct d; reflexivity. Qed.
Lemma reverse_opp d : reverse d = opposite d. Proof. destruct d; reflexivity. Qed.
Lemma vec_step d : dir_vec d = (step_x d, step_y d). Proof. destruct d; reflexivity. Qed.
Lemma dx_step d : dx d = step_x d. Proof. destruct d; reflexivity. Qed.
Lemma dy_step d : dy d = step_y d. Proof. destruct d; reflexivity. Qed.

Lemma dir_eqb_spec d e : reflect (d = e) (dir_eqb d e).
Proof. destruct d, e; constructor; congruence. Qed.

Lemma dir_eqb_refl d : dir_eqb d d = true. Proof. destruct d; reflexivity. Qed.

Lemma mk_belt_some i o : o <> opposite i -> mk_belt i o = Some (Belt i o).
Proof.
  intros H. unfold mk_belt. rewrite reverse_opp. destruct (dir_eqb_spec (opposite i) o); [congruence|reflexivity].
Qed.

Lemma mk_belt_inv i o t : mk_belt i o = Some t -> t = Belt i o /\ o <> opposite i.
Proof.
  unfold mk_belt. rewrite reverse_opp. destruct (dir_eqb_spec (opposite i) o); [discriminate|].
  intros [= <-]. split; congruence.
Qed.

Lemma mk_assembler_iff x y t : mk_assembler x y = Some t <-> t = Assembler x y /\ valid_tile t.
Proof.
  unfold mk_assembler.
  destruct (Z.leb_spec 0 x), (Z.ltb_spec x 3), (Z.leb_spec 0 y), (Z.ltb_spec y 3); cbn [andb];
    (split; intros E; [first [discriminate E | injection E as <-; split; [reflexivity|cbn; lia]]
            |destruct E as [-> V]; cbn in V; first [lia | reflexivity]]).
Qed.

Lemma tile_read_write t : valid_tile t -> tile_read (tile_write t) = Some t.
Proof.
  destruct t as [| |i o|d e|d h|d k|x y]; intros V; try reflexivity.
  - change (tile_read (tile_write (Belt i o))) with
      (let* i' := dir_of_value (dir_value i) in let* o' := dir_of_value (dir_value o) in mk_belt i' o').
    rewrite !dir_of_value_value. cbn [obind]. apply mk_belt_some, V.
  - destruct d; reflexivity.
  - destruct d; reflexivity.
  - destruct d; reflexivity.
  - change (tile_read (tile_write (Assembler x y))) with (mk_assembler x y).
    apply mk_assembler_iff. split; [reflexivity|assumption].
Qed.

Lemma tile_read_valid j t : tile_read j = Some t -> valid_tile t.
Proof.
  unfold tile_read. destruct (jget "type" j) as [ty|]; [|discriminate]. cbn [obind].
  destruct (jstr ty) as [s|]; [|discriminate]. cbn [obind].
  repeat (destruct (String.eqb s _)); try (intros [= <-]; exact I); try discriminate.
  - destruct (jdir _ j) as [i|]; [|discriminate]; cbn [obind].
    destruct (jdir _ j) as [o|]; [|discriminate]; cbn [obind].
    intros E. apply mk_belt_inv in E. destruct E as [-> E]. exact E.
  - destruct (jdir _ j) as [i|]; [|discriminate]; cbn [obind].
    destruct (jget _ j) as [v|]; [|discriminate]; cbn [obind].
    destruct (jbool v); [|discriminate]; cbn [obind]. intros [= <-]; exact I.
  - destruct (jdir _ j) as [i|]; [|discriminate]; cbn [obind].
    destruct (jget _ j) as [v|]; [|discriminate]; cbn [obind].
    destruct (jbool v); [|discriminate]; cbn [obind]. intros [= <-]; exact I.
  - destruct (jdir _ j) as [i|]; [|discriminate]; cbn [obind].
    destruct (jget _ j) as [v|]; [|discriminate]; cbn [obind].
    destruct (jnum v); [|discriminate]; cbn [obind]. intros [= <-]; exact I.
  - destruct (jget _ j) as [v|]; [|discriminate]; cbn [obind].
    destruct (jnum v) as [x|]; [|discriminate]; cbn [obind].
    destruct (jget _ j) as [v2|]; [|discriminate]; cbn [obind].
    destruct (jnum v2) as [y|]; [|discriminate]; cbn [obind].
    intros E. apply mk_assembler_iff in E. tauto.
Qed.

(** Association lists. *)
Lemma assoc_aset {A} k (v : A) l : assoc k (aset k v l) = Some v.
Proof.
  induction l as [|[k' v'] l IH]; cbn; [rewrite String.eqb_refl; reflexivity|].
  destruct (String.eqb_spec k k') as [->|N]; cbn; [rewrite String.eqb_refl; reflexivity|].
  rewrite (proj2 (String.eqb_neq k k') N). exact IH.
Qed.

Lemma assoc_aset_other {A} k k2 (v : A) l : k2 <> k -> assoc k2 (aset k v l) = assoc k2 l.
Proof.
  intros N. induction l as [|[k' v'] l IH]; cbn.
  - rewrite (proj2 (String.eqb_neq k2 k) N). reflexivity.
  - destruct (String.eqb_spec k k') as [->|N2]; cbn.
    + rewrite (proj2 (String.eqb_neq k2 k') N). reflexivity.
    + destruct (String.eqb k2 k'); [reflexivity|exact IH].
Qed.

Lemma aset_same {A} k (v : A) l : assoc k l = Some v -> aset k v l = l.
Proof.
  induction l as [|[k' v'] l IH]; cbn; [discriminate|].
  destruct (String.eqb_spec k k') as [->|N]; [intros [= ->]; reflexivity|].
  intros H. rewrite IH by assumption. reflexivity.
Qed.

Lemma aset_aset {A} k (v v' : A) l : aset k v (aset k v' l) = aset k v l.
Proof.
  induction l as [|[k' w] l IH]; cbn; [rewrite String.eqb_refl; reflexivity|].
  destruct (String.eqb_spec k k') as [->|N]; cbn; [rewrite String.eqb_refl; reflexivity|].
  rewrite (proj2 (String.eqb_neq k k') N), IH. reflexivity.
Qed.

(** omap. *)
Lemma omap_map_some {A B} (f : A -> option B) (g : A -> B) l :
  (forall x, In x l -> f x = Some (g x)) -> omap f l = Some (map g l).
Proof.
  induction l as [|x l IH]; intros H; cbn; [reflexivity|].
  rewrite H by (left; reflexivity). cbn. rewrite IH by (intros; apply H; right; assumption). reflexivity.
Qed.

Lemma omap_inv {A B} (f : A -> option B) l ys : omap f l = Some ys ->
  Forall2 (fun x y => f x = Some y) l ys.
Proof.
  revert ys. induction l as [|x l IH]; cbn; intros ys.
  - intros [= <-]. constructor.
  - destruct (f x) as [y|] eqn:E; [|discriminate]. cbn.
    destruct (omap f l) as [ys'|]; [|discriminate]. cbn. intros [= <-]. constructor; auto.
Qed.
