(** Proofs about the paints of cells. *)
From Coq Require Import String ZArith QArith List Bool Lia Sorted.
From Verif Require Import M_Json M_Palette P_Palette Spec_Palette.
Import ListNotations.
Open Scope Z_scope.

Lemma alike_same a b : alike a b <-> same_paint a b.
Proof. destruct a as [[r g] b1], b as [[r' g'] b']. reflexivity. Qed.
Lemma alike_refl a : alike a a. Proof. repeat split; reflexivity. Qed.

Lemma insert_in x l y : In y (insert x l) <-> y = x \/ In y l.
Proof.
  induction l as [|z l IH]; cbn; [intuition|]. destruct (Z.ltb_spec x z); [cbn; intuition|]. destruct (Z.eqb_spec x z); [subst; cbn; intuition|]. cbn. rewrite IH. intuition.
Qed.
Lemma sorted_set_in l y : In y (sorted_set l) <-> In y l.
Proof. induction l as [|x l IH]; cbn; [reflexivity|]. rewrite insert_in, IH. intuition. Qed.
Definition increasing (l : list Z) := StronglySorted Z.lt l.
Lemma insert_sorted x l : increasing l -> increasing (insert x l).
Proof.
  unfold increasing. induction l as [|z l IH]; intros S; cbn; [repeat constructor|]. inversion S; subst. destruct (Z.ltb_spec x z).
  - constructor; [exact S|]. constructor; [assumption|]. eapply Forall_impl; [|eassumption]. cbn. intros; lia.
  - destruct (Z.eqb_spec x z); [exact S|]. constructor; [apply IH; assumption|]. apply Forall_forall. intros y I. apply insert_in in I. destruct I as [->|I]; [lia|]. rewrite Forall_forall in *. auto.
Qed.
Lemma sorted_set_sorted l : increasing (sorted_set l).
Proof. induction l as [|x l IH]; [constructor|]. apply insert_sorted. exact IH. Qed.
Lemma increasing_nodup l : increasing l -> NoDup l.
Proof. induction 1 as [|x l S IH F]; constructor; [|exact IH]. intros I. rewrite Forall_forall in F. specialize (F x I). lia. Qed.

Lemma zip_lookup_spec {A} key : forall keys (values : list A), NoDup keys -> (length keys <= length values)%nat -> In key keys ->
  exists i v, nth_error keys i = Some key /\ nth_error values i = Some v /\ zip_lookup key keys values = Some v.
Proof.
  induction keys as [|k ks IH]; intros vs N L I; [contradiction|]. destruct vs as [|v vs]; cbn in L; [lia|]. cbn. destruct (Z.eqb_spec key k) as [->|D]; [exists 0%nat, v; repeat split|].
  destruct I as [->|I]; [contradiction|]. inversion N; subst. destruct (IH vs) as (i & w & A1 & A2 & A3); [assumption|lia|assumption|]. exists (S i), w. auto.
Qed.
Lemma numbers_spec vs : (forall v, In v vs -> simple v) -> exists l, numbers vs = Some l /\ forall n, In n l <-> In (JNum n) vs.
Proof.
  induction vs as [|v vs IH]; intros S; [exists []; split; [reflexivity|intros n; cbn; tauto]|]. destruct IH as (l & E & H); [intros; apply S; right; assumption|]. destruct (S v (or_introl eq_refl)) as [->|[n ->]].
  - exists l. split; [exact E|]. intros n. rewrite H. cbn. split; [intros; right; assumption|intros [X|X]; [discriminate|exact X]].
  - exists (n :: l). cbn. rewrite E. split; [reflexivity|]. intros m. cbn. rewrite H. split; intros [X|X]; try (right; exact X); left; congruence.
Qed.
Lemma get_colour_cases key cell : coloured cell -> In key keys -> exists c, colour_under key cell c /\
  first_colour (get_colour key cell) = Some (match c with Some n => JNum n | None => JNull end) /\
  (forall v, In v (value_colours (get_colour key cell)) -> simple v) /\
  (forall n, c = Some n -> In (JNum n) (value_colours (get_colour key cell))).
Proof.
  intros C I. unfold get_colour. destruct (C key I) as [E|[(v & E & [->|[n ->]])|(v & l & E & F)]]; rewrite E.
  - exists (Some 0). repeat split; [constructor; exact E| |]. { intros v [<-|[]]. right. exists 0. reflexivity. } { intros n [= <-]. left. reflexivity. }
  - exists None. repeat split; [apply null; exact E| |]. { intros v [<-|[]]. left. reflexivity. } { intros n; discriminate. }
  - exists (Some n). repeat split; [apply number; exact E| |]. { intros v [<-|[]]. right. exists n. reflexivity. } { intros m [= <-]. left. reflexivity. }
  - assert (S : forall u, In u (v :: l) -> simple u) by (intros u; apply (proj1 (Forall_forall _ _) F)). destruct (S v (or_introl eq_refl)) as [->|[n ->]].
    + exists None. repeat split; [apply (first_null _ _ l); exact E|exact S|]. intros n; discriminate.
    + exists (Some n). repeat split; [apply (first_number _ _ n l); exact E|exact S|]. intros m [= <-]. left. reflexivity.
Qed.
Lemma colour_under_fun key cell c d : colour_under key cell c -> colour_under key cell d -> c = d.
Proof. intros H K. inversion H; inversion K; subst; congruence. Qed.
Lemma occurs_values n cell : occurs n cell <-> In (JNum n) (item_colours cell).
Proof.
  unfold occurs, item_colours. rewrite in_flat_map. change colour_keys with keys. split; intros (key & I & H); exists key; (split; [exact I|]); unfold get_colour in *.
  - destruct H as [[E ->]|[E|(l & E & K)]]; rewrite E; cbn; auto.
  - destruct (jget key cell) as [v|]; [|destruct H as [[= <-]|[]]; auto]. right. destruct v; cbn in H; try (destruct H as [H|[]]; try discriminate); [|right; exists l; auto]. injection H as <-. left. reflexivity.
Qed.
Lemma all_spec cells : (forall c, In c cells -> coloured c) -> exists all, all_colours cells = Some all /\ increasing all /\ forall n, In n all <-> exists c, In c cells /\ occurs n c.
Proof.
  intros C. unfold all_colours. destruct (numbers_spec (flat_map item_colours cells)) as (l & E & H).
  - intros v I. apply in_flat_map in I. destruct I as (cell & Ic & I). unfold item_colours in I. apply in_flat_map in I. destruct I as (key & Ik & I). destruct (get_colour_cases key cell (C cell Ic) Ik) as (c & _ & _ & S & _). exact (S v I).
  - rewrite E. exists (sorted_set l). split; [reflexivity|]. split; [apply sorted_set_sorted|]. intros n. rewrite sorted_set_in, H, in_flat_map. split; intros (c & Ic & I); exists c; (split; [exact Ic|]); apply occurs_values; exact I.
Qed.
Lemma under_occurs key cell n : coloured cell -> In key keys -> colour_under key cell (Some n) -> occurs n cell.
Proof. intros C I U. destruct (get_colour_cases key cell C I) as (c & U' & _ & _ & V). apply occurs_values. unfold item_colours. apply in_flat_map. exists key. split; [exact I|]. apply V. symmetry. exact (colour_under_fun _ _ _ _ U U'). Qed.

Section Chosen.
  Variable cells : list json.
  Hypothesis C : forall c, In c cells -> coloured c.
  (** The paint of a colour. *)
  Definition paint_from (all : list Z) (count : option nat) (c : option Z) : option paint :=
    match c with
    | None => Some grey
    | Some n => match count with None => zip_lookup n all (create_palette (length all)) | Some k => array_lookup n (create_palette k) end
    end.
  Lemma paint_reduce count all key cell c : all_colours cells = Some all -> (forall k, count = Some k -> (length all <= k)%nat) -> In cell cells -> In key keys -> colour_under key cell c ->
    paint_of count cells key cell = paint_from all count c.
  Proof.
    intros E L Ic Ik U. destruct (get_colour_cases key cell (C cell Ic) Ik) as (c' & U' & F & _ & _). rewrite <- (colour_under_fun _ _ _ _ U U') in *. unfold paint_of. rewrite E. cbn [obind].
    destruct count as [k|]; [rewrite (proj2 (Nat.leb_le _ _) (L k eq_refl))|]; cbn [obind]; rewrite F; cbn [obind]; destruct c; reflexivity.
  Qed.
End Chosen.
