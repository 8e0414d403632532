(** Property theorems C105 to C107: what the renderer draws. *)
From Coq Require Import String ZArith QArith Qabs List Bool Lia Lqa.
From Verif Require Import M_Json Spec_Tile M_Tile M_Render Spec_Render.
Import ListNotations.
Open Scope Z_scope.

Lemma reach_ok long a : 0 <= a < 32 -> Qle_bool (Qabs (reach long a)) 2 = true.
Proof.
  intros H. apply Qle_bool_iff. unfold reach.
  assert (B : (0 <= Qabs (1 - (a # 16)) /\ Qabs (1 - (a # 16)) <= 1)%Q).
  { split; [apply Qabs_nonneg|]. apply Qabs_Qle_condition. assert (X : (0 <= (a # 16) /\ (a # 16) <= 2)%Q) by (split; unfold Qle; cbn [Qnum Qden]; lia). set (r := (a # 16)%Q) in *. clearbody r. lra. }
  destruct B as [B0 B1]. set (q := Qabs (1 - (a # 16))) in *. clearbody q. apply Qabs_Qle_condition. destruct long; lra.
Qed.

(** Every valid tile can be drawn at every time of the animation, except for
    inserters of a kind that there is no image of. *)
Theorem C105_drawn t a : valid_tile t -> 0 <= a < 32 ->
  (render_cell t a = None <-> exists d k, t = Inserter d k /\ k <> 0 /\ k <> 1).
Proof.
  intros V A. destruct t as [| |i o|d e|d h|d k|x y].
  - cbn. split; [discriminate|intros (d & k & E & _); discriminate].
  - cbn. split; [discriminate|intros (d & k & E & _); discriminate].
  - cbn in V. destruct i, o; try (exfalso; apply V; reflexivity); (split; [cbn; discriminate|intros (d & k & E & _); discriminate]).
  - destruct d, e; (split; [cbn; discriminate|intros (d & k & E & _); discriminate]).
  - destruct d, h; (split; [cbn; discriminate|intros (d & k & E & _); discriminate]).
  - split.
    + intros E. exists d, k. split; [reflexivity|]. split; intros ->; cbn -[reach Qle_bool Qabs] in E; rewrite (reach_ok _ a A) in E; discriminate.
    + intros (d' & k' & [= <- <-] & N0 & N1). cbn. destruct (Z.eqb_spec k 0); [contradiction|]. destruct (Z.eqb_spec k 1); [contradiction|]. cbn [orb]. destruct (Z.eqb_spec k (-2)); [reflexivity|]. destruct (Z.eqb_spec k (-1)); reflexivity.
  - cbn in V. split; [|intros (d & k & E & _); discriminate]. assert (X : x = 0 \/ x = 1 \/ x = 2) by lia. assert (Y : y = 0 \/ y = 1 \/ y = 2) by lia. destruct X as [->|[->| ->]], Y as [->|[->| ->]]; cbn; discriminate.
Qed.

Ltac no_alike H := exfalso; let A := fresh in let B := fresh in destruct H as [A B]; cbn in A, B;
  repeat match goal with X : Forall2 _ _ _ |- _ => inversion X; clear X; subst end;
  cbn in *; unfold same_pair in *; cbn in *; intuition (try discriminate; try lia; try lra).

(** The picture of a cell tells its tile: tiles whose pictures are alike at some
    time of the animation are equal, or nothing is drawn for either. *)
Theorem C105_faithful t t' a p p' : valid_tile t -> valid_tile t' ->
  render_cell t a = Some p -> render_cell t' a = Some p' -> pictures_alike p p' ->
  t = t' \/ (t = Empty \/ t = Filler) /\ (t' = Empty \/ t' = Filler).
Proof.
  intros V V' R R' H.
  assert (K : forall d k p, render_cell (Inserter d k) a = Some p -> exists long, k = Z_of_bool long /\ p = ([whole (INSERTER_PLATFORM long) ((1 - dir_value d) mod 4) 0 (- (19 # 64), (3 # 64))%Q], [Arm long d (reach long a) (16 <? a)])).
  { clear. intros d k p E. cbn -[reach Qle_bool Qabs] in E. destruct (Z.eqb_spec k 0) as [->|]; [|destruct (Z.eqb_spec k 1) as [->|]].
    - cbn -[reach Qle_bool Qabs] in E. destruct (Qle_bool (Qabs (reach false a)) 2); [|discriminate]. injection E as <-. exists false. split; reflexivity.
    - cbn -[reach Qle_bool Qabs] in E. destruct (Qle_bool (Qabs (reach true a)) 2); [|discriminate]. injection E as <-. exists true. split; reflexivity.
    - cbn [orb] in E. destruct (Z.eqb_spec k (-2)); [discriminate|]. destruct (Z.eqb_spec k (-1)); discriminate. }
  assert (M : forall x y, valid_tile (Assembler x y) -> (x = 0 \/ x = 1 \/ x = 2) /\ (y = 0 \/ y = 1 \/ y = 2)) by (intros x y Vm; cbn in Vm; lia).
  assert (Empties : forall q, pictures_alike ([], []) q -> q = ([], [])) by (intros [q1 q2] [Q1 Q2]; inversion Q1; inversion Q2; cbn in *; subst; reflexivity).
  assert (Sym : forall q, pictures_alike q ([], []) -> q = ([], [])) by (intros [q1 q2] [Q1 Q2]; inversion Q1; inversion Q2; cbn in *; subst; reflexivity).
  assert (Some_drawn : forall u q, render_cell u a = Some q -> valid_tile u -> q = ([], []) -> u = Empty \/ u = Filler).
  { intros u q Ru Vu ->. destruct u as [| |i o|d e|d h|d k|x y]; auto.
    - destruct i, o; cbn in Ru; try discriminate; exfalso; apply Vu; reflexivity.
    - destruct d, e; discriminate.
    - destruct d, h; discriminate.
    - destruct (K _ _ _ Ru) as (? & _ & ?). discriminate.
    - destruct (M _ _ Vu) as [[->|[->| ->]] [->|[->| ->]]]; discriminate. }
  destruct t as [| |i o|d e|d h|d k|x y].
  - right. injection R as <-. split; [auto|]. apply (Some_drawn t' p' R' V'). apply Empties. exact H.
  - right. injection R as <-. split; [auto|]. apply (Some_drawn t' p' R' V'). apply Empties. exact H.
  - left. destruct t' as [| |i' o'|d' e'|d' h'|d' k'|x' y'].
    1-2: injection R' as <-; apply Sym in H; destruct (Some_drawn _ _ R V H) as [E|E]; discriminate E.
    + destruct i, o; try (exfalso; apply V; reflexivity); destruct i', o'; try (exfalso; apply V'; reflexivity); try reflexivity; injection R as <-; injection R' as <-; no_alike H.
    + destruct i, o; try (exfalso; apply V; reflexivity); destruct d', e'; injection R as <-; injection R' as <-; no_alike H.
    + destruct i, o; try (exfalso; apply V; reflexivity); destruct d', h'; injection R as <-; injection R' as <-; no_alike H.
    + destruct (K _ _ _ R') as (long & -> & ->). destruct i, o; try (exfalso; apply V; reflexivity); injection R as <-; no_alike H.
    + destruct (M _ _ V') as [X Y]. destruct i, o; try (exfalso; apply V; reflexivity); injection R as <-; destruct X as [->|[->| ->]], Y as [->|[->| ->]]; injection R' as <-; no_alike H.
  - left. destruct t' as [| |i' o'|d' e'|d' h'|d' k'|x' y'].
    1-2: injection R' as <-; apply Sym in H; destruct (Some_drawn _ _ R V H) as [E|E]; discriminate E.
    + destruct i', o'; try (exfalso; apply V'; reflexivity); destruct d, e; injection R as <-; injection R' as <-; no_alike H.
    + destruct d, e, d', e'; try reflexivity; injection R as <-; injection R' as <-; no_alike H.
    + destruct d, e, d', h'; injection R as <-; injection R' as <-; no_alike H.
    + destruct (K _ _ _ R') as (long & -> & ->). destruct d, e; injection R as <-; no_alike H.
    + destruct (M _ _ V') as [X Y]. destruct d, e; injection R as <-; destruct X as [->|[->| ->]], Y as [->|[->| ->]]; injection R' as <-; no_alike H.
  - left. destruct t' as [| |i' o'|d' e'|d' h'|d' k'|x' y'].
    1-2: injection R' as <-; apply Sym in H; destruct (Some_drawn _ _ R V H) as [E|E]; discriminate E.
    + destruct i', o'; try (exfalso; apply V'; reflexivity); destruct d, h; injection R as <-; injection R' as <-; no_alike H.
    + destruct d, h, d', e'; injection R as <-; injection R' as <-; no_alike H.
    + destruct d, h, d', h'; try reflexivity; injection R as <-; injection R' as <-; no_alike H.
    + destruct (K _ _ _ R') as (long & -> & ->). destruct d, h; injection R as <-; no_alike H.
    + destruct (M _ _ V') as [X Y]. destruct d, h; injection R as <-; destruct X as [->|[->| ->]], Y as [->|[->| ->]]; injection R' as <-; no_alike H.
  - left. destruct (K _ _ _ R) as (long & -> & ->). destruct t' as [| |i' o'|d' e'|d' h'|d' k'|x' y'].
    1-2: injection R' as <-; apply Sym in H; discriminate H.
    + destruct i', o'; try (exfalso; apply V'; reflexivity); injection R' as <-; no_alike H.
    + destruct d', e'; injection R' as <-; no_alike H.
    + destruct d', h'; injection R' as <-; no_alike H.
    + destruct (K _ _ _ R') as (long' & -> & ->). destruct H as [_ H]. cbn in H. inversion H; subst. cbn in *. destruct H3 as (-> & -> & _). reflexivity.
    + destruct (M _ _ V') as [X Y]. destruct X as [->|[->| ->]], Y as [->|[->| ->]]; injection R' as <-; no_alike H.
  - left. destruct (M _ _ V) as [X Y]. destruct t' as [| |i' o'|d' e'|d' h'|d' k'|x' y'].
    1-2: injection R' as <-; apply Sym in H; destruct (Some_drawn _ _ R V H) as [E|E]; discriminate E.
    + destruct i', o'; try (exfalso; apply V'; reflexivity); injection R' as <-; destruct X as [->|[->| ->]], Y as [->|[->| ->]]; injection R as <-; no_alike H.
    + destruct d', e'; injection R' as <-; destruct X as [->|[->| ->]], Y as [->|[->| ->]]; injection R as <-; no_alike H.
    + destruct d', h'; injection R' as <-; destruct X as [->|[->| ->]], Y as [->|[->| ->]]; injection R as <-; no_alike H.
    + destruct (K _ _ _ R') as (long & -> & ->). destruct X as [->|[->| ->]], Y as [->|[->| ->]]; injection R as <-; no_alike H.
    + destruct (M _ _ V') as [X' Y']. destruct X as [->|[->| ->]], Y as [->|[->| ->]]; injection R as <-; destruct X' as [->|[->| ->]], Y' as [->|[->| ->]]; try reflexivity; injection R' as <-; no_alike H.
Qed.

Example C105_some : valid_tile (Belt RIGHT UP) /\ valid_tile (Splitter UP true) /\ (exists p p', render_cell (Belt RIGHT UP) 21 = Some p /\ render_cell (Splitter UP true) 21 = Some p' /\ ~ pictures_alike p p').
Proof.
  split; [discriminate|]. split; [exact I|]. eexists _, _. split; [reflexivity|]. split; [reflexivity|]. intros [_ H]. inversion H.
Qed.
(** Every image has the frames of its animation in order, row by row, and what is
    drawn of it is the frame of that time: the sixteen of belts, the thirty-two of
    splitters and machines, both halves of a splitter alike; tunnels and
    platforms do not move. *)
Theorem C105_frames t a below above s c r o l u : 0 <= a -> render_cell t a = Some (below, above) -> In (Entry s c r o l u) (below ++ above) ->
  match s with
  | BELT => c = a mod 16 /\ 0 <= r < 20
  | UNDERGROUND => 0 <= c < 4 /\ 0 <= r < 2
  | INSERTER_PLATFORM _ => 0 <= c < 4 /\ r = 0
  | _ => 0 <= c < 8 /\ 0 <= r < 4 /\ 8 * r + c = a mod 32
  end.
Proof.
  intros A R Hi.
  assert (Fr : 0 <= a mod 8 < 8 /\ 0 <= (a / 8) mod 4 < 4 /\ 8 * ((a / 8) mod 4) + a mod 8 = a mod 32).
  { pose proof (Z.mod_pos_bound a 8 ltac:(lia)). pose proof (Z.mod_pos_bound (a / 8) 4 ltac:(lia)). split; [lia|]. split; [lia|]. change 32 with (8 * 4). rewrite (Z.rem_mul_r a 8 4) by lia. lia. }
  unfold render_cell, render_tile in R. revert Fr R. generalize (a mod 16) as m, (a mod 8) as m8, ((a / 8) mod 4) as m4, (a mod 32) as m32. intros m m8 m4 m32 Fr R.
  destruct t as [| |i d|d e|d h|d k|x y].
  - injection R as <- <-. destruct Hi.
  - injection R as <- <-. destruct Hi.
  - destruct i, d; cbn in R; try discriminate; injection R as <- <-; destruct Hi as [Hi|[]]; injection Hi as <- <- <- _ _ _; (split; [reflexivity|lia]).
  - destruct d, e; cbn in R; injection R as <- <-; destruct Hi as [Hi|[Hi|[]]]; injection Hi as <- <- <- _ _ _; (split; [try reflexivity|]; lia).
  - destruct d, h; cbn in R; injection R as <- <-; destruct Hi as [Hi|[Hi|[]]]; injection Hi as <- <- <- _ _ _; first [exact Fr | split; [reflexivity|lia]].
  - cbn -[reach Qle_bool Qabs Z.modulo Z.div] in R. destruct (if (k =? 0) || (k =? -2) then _ else _) as [lo|]; [|discriminate]. cbn [obind] in R. destruct (if k =? 0 then Some false else _) as [lo'|]; [|discriminate]. cbn [obind] in R.
    destruct (Qle_bool _ _); [|discriminate]. injection R as <- <-. destruct Hi as [Hi|[Hi|[]]]; [|discriminate]. injection Hi as <- <- <- _ _ _. split; [apply Z.mod_pos_bound; lia|reflexivity].
  - cbn -[Z.modulo Z.div] in R. destruct (if x =? 0 then _ else _) as [[[ox lx] ux]|]; [|discriminate]. cbn [obind] in R. destruct (if y =? 0 then _ else _) as [[[oy ly] uy]|]; [|discriminate]. cbn [obind] in R. injection R as <- <-. destruct Hi as [Hi|[]]. injection Hi as <- <- <- _ _ _. exact Fr.
Qed.
Print Assumptions C105_frames.
Print Assumptions C105_drawn.
Print Assumptions C105_faithful.
