(** C123: the pictures of things of several cells have no gaps. *)
From Coq Require Import ZArith QArith List Bool Lia Lqa.
From Verif Require Import M_Json Spec_Tile M_Tile M_Render M_Quad Spec_Import Spec_Quad.
Import ListNotations.
Open Scope Z_scope.

Ltac numbers := unfold within, in_block in *; unfold between in *; cbn [fst snd entry_size] in *; rewrite ?inject_Z_plus in *;
  change (inject_Z 0) with 0%Q in *; change (inject_Z 1) with 1%Q in *; change (inject_Z 2) with 2%Q in *; change (inject_Z 3) with 3%Q in *; change (inject_Z (-1)) with (-1)%Q in *.
(** Every point of the cell of a belt or of a tunnel's end is drawn. *)
Theorem C123_cell t a c p : match t with Belt i o => o <> opposite i | Underground _ _ => True | _ => False end -> in_block 1 c p ->
  exists d r, render_tile t a BOTTOM = Some [d] /\ rectangle_of c d = Some r /\ within p r.
Proof.
  intros V B. assert (K : exists y, render_tile t a BOTTOM = Some [whole BELT (a mod 16) y (- (1 # 2), - (1 # 2))%Q]).
  { destruct t as [| |i o|d e|d e|d k|x y]; try contradiction; [destruct i, o; try (exfalso; apply V; reflexivity)|destruct d, e]; eexists; reflexivity. }
  destruct K as [y E]. rewrite E. eexists. eexists. split; [reflexivity|]. split; [reflexivity|]. destruct c as [cx cy], p as [px py]. numbers. lra.
Qed.
(** A machine: the square of its nine cells is drawn. *)
Theorem C123_machine a c p : in_block 3 c p ->
  exists x y d r, 0 <= x < 3 /\ 0 <= y < 3 /\ render_tile (Assembler x y) a BOTTOM = Some [d] /\
    rectangle_of (fst c + x, snd c + y) d = Some r /\ within p r.
Proof.
  intros B. destruct c as [cx cy], p as [px py].
  assert (X : exists x, 0 <= x < 3 /\ (inject_Z cx + inject_Z x <= px <= inject_Z cx + inject_Z x + 1)%Q).
  { numbers. destruct (Qlt_le_dec px (inject_Z cx + 1)); [exists 0|destruct (Qlt_le_dec px (inject_Z cx + 2)); [exists 1|exists 2]]; (split; [lia|]); numbers; lra. }
  assert (Y : exists y, 0 <= y < 3 /\ (inject_Z cy + inject_Z y <= py <= inject_Z cy + inject_Z y + 1)%Q).
  { numbers. destruct (Qlt_le_dec py (inject_Z cy + 1)); [exists 0|destruct (Qlt_le_dec py (inject_Z cy + 2)); [exists 1|exists 2]]; (split; [lia|]); numbers; lra. }
  destruct X as (x & Hx & Px), Y as (y & Hy & Py). exists x, y.
  assert (x = 0 \/ x = 1 \/ x = 2) as [-> | [-> | ->]] by lia; assert (y = 0 \/ y = 1 \/ y = 2) as [-> | [-> | ->]] by lia;
    eexists; eexists; (split; [exact Hx|]); (split; [exact Hy|]); (split; [reflexivity|]); (split; [reflexivity|]); numbers; lra.
Qed.
(** Together the parts show the whole entry of the moment, in order: parts further
    right show what is further right, parts further down what is further down
    (second coordinates of entries grow upwards). *)
Theorem C123_machine_image a q : between 0 (fst q) 1 -> between 0 (snd q) 1 ->
  exists x y o l u, 0 <= x < 3 /\ 0 <= y < 3 /\
    render_tile (Assembler x y) a BOTTOM = Some [Entry ASSEMBLING_MACHINE (a mod 8) ((a / 8) mod 4) o l u] /\ within q (l, u).
Proof.
  intros X Y. destruct q as [qx qy].
  assert (Kx : exists x, 0 <= x < 3 /\ (x = 0 /\ (0 <= qx <= 12 # 32)%Q \/ x = 1 /\ (12 # 32 <= qx <= 216 # 320)%Q \/ x = 2 /\ (216 # 320 <= qx <= 1)%Q)).
  { numbers. destruct (Qlt_le_dec qx (12 # 32)); [exists 0|destruct (Qlt_le_dec qx (216 # 320)); [exists 1|exists 2]]; (split; [lia|]); [left|right; left|right; right]; (split; [reflexivity|]); lra. }
  assert (Ky : exists y, 0 <= y < 3 /\ (y = 2 /\ (0 <= qy <= 47 # 128)%Q \/ y = 1 /\ (47 # 128 <= qy <= 21 # 32)%Q \/ y = 0 /\ (21 # 32 <= qy <= 1)%Q)).
  { numbers. destruct (Qlt_le_dec qy (47 # 128)); [exists 2|destruct (Qlt_le_dec qy (21 # 32)); [exists 1|exists 0]]; (split; [lia|]); [left|right; left|right; right]; (split; [reflexivity|]); lra. }
  destruct Kx as (x & Hx & Px), Ky as (y & Hy & Py). exists x, y.
  destruct Px as [[-> Px] | [[-> Px] | [-> Px]]]; destruct Py as [[-> Py] | [[-> Py] | [-> Py]]];
    do 3 eexists; (split; [lia|]); (split; [lia|]); (split; [reflexivity|]); numbers; lra.
Qed.
Theorem C123_machine_order a x y x' y' s k r o l u s' k' r' o' l' u' :
  render_tile (Assembler x y) a BOTTOM = Some [Entry s k r o l u] -> render_tile (Assembler x' y') a BOTTOM = Some [Entry s' k' r' o' l' u'] ->
  0 <= x < 3 -> 0 <= y < 3 -> 0 <= x' < 3 -> 0 <= y' < 3 ->
  (x < x' -> (fst u <= fst l')%Q) /\ (y < y' -> (snd u' <= snd l)%Q) /\ s = s' /\ k = k' /\ r = r'.
Proof.
  intros E E' Hx Hy Hx' Hy'.
  assert (x = 0 \/ x = 1 \/ x = 2) as [-> | [-> | ->]] by lia; assert (y = 0 \/ y = 1 \/ y = 2) as [-> | [-> | ->]] by lia;
    assert (x' = 0 \/ x' = 1 \/ x' = 2) as [-> | [-> | ->]] by lia; assert (y' = 0 \/ y' = 1 \/ y' = 2) as [-> | [-> | ->]] by lia;
    cbn in E, E'; inversion E; inversion E'; subst; cbn [fst snd]; (split; [intros H; first [exfalso; lia | lra]|split; [intros H; first [exfalso; lia | lra]|auto]]).
Qed.
(** A splitter: of the points of its two cells each is drawn for one half, or the
    other. [c] is the cell of its head. *)
Theorem C123_splitter d a c p :
  let c' := (fst c - step_x (right_hand d), snd c - step_y (right_hand d)) in
  in_block 1 c p \/ in_block 1 c' p ->
  exists head e r, render_tile (Splitter d head) a TOP = Some [e] /\ rectangle_of (if head then c else c') e = Some r /\ within p r.
Proof.
  intros c' B. destruct c as [cx cy], p as [px py]. subst c'. destruct d; cbn [right_hand step_x step_y fst snd] in *; rewrite ?Z.sub_0_r in *; unfold Z.sub in *; cbn [Z.opp] in *.
  4: destruct (Qlt_le_dec px ((inject_Z cx) + (7 # 8))); [exists true|exists false].
  3: destruct (Qlt_le_dec py ((inject_Z cy) + 1)); [exists true|exists false].
  2: destruct (Qlt_le_dec px (inject_Z cx)); [exists false|exists true].
  1: destruct (Qlt_le_dec py (inject_Z cy)); [exists false|exists true].
  all: eexists; eexists; (split; [reflexivity|]); (split; [reflexivity|]); numbers; lra.
Qed.

Example C123_met : in_block 3 (2, -1) (5 # 2, 1 # 3)%Q /\ (exists r, rectangle_of (2, -1) (Entry ASSEMBLING_MACHINE 0 0 (- (15 # 64), - (27 # 128))%Q (0, 21 # 32)%Q (12 # 32, 1)%Q) = Some r /\ ~ within (5, 5)%Q r).
Proof. split; [unfold in_block, between; cbn; repeat split; discriminate|]. eexists. split; [reflexivity|]. intros [[_ H] _]. cbn in H. apply H. reflexivity. Qed.

Print Assumptions C123_cell.
Print Assumptions C123_machine.
Print Assumptions C123_machine_image.
Print Assumptions C123_machine_order.
Print Assumptions C123_splitter.
