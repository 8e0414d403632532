(** Property theorems C106 and C107: the loop of the animation, the entries of the
    images, and --show-raw. *)
From Coq Require Import String ZArith QArith Qabs List Bool Lia Lqa.
From Verif Require Import M_Json Spec_Tile M_Tile M_Render Spec_Render.
Import ListNotations.
Open Scope Z_scope.

(** The items that are printed for a layout. *)
Definition item_of (t : tile) : json := JObj [("tile"%string, tile_write t)].

Lemma length_of ts : get_animation_length (map item_of ts) = if existsb (fun t => match t with Splitter _ _ => true | _ => false end) ts then 32 else 16.
Proof.
  unfold get_animation_length.
  assert (E : existsb splitter_item (map item_of ts) = existsb (fun t => match t with Splitter _ _ => true | _ => false end) ts).
  { induction ts as [|t ts IH]; [reflexivity|]. cbn [map existsb]. rewrite IH. f_equal. destruct t; reflexivity. }
  rewrite E. reflexivity.
Qed.
(** For a layout of belts, tunnels and splitters the animation closes: what is drawn
    after its last picture is its first one. *)
Theorem C106_loop ts t a : (forall t, In t ts -> match t with Inserter _ _ | Assembler _ _ => False | _ => True end) -> In t ts ->
  render_cell t (a + get_animation_length (map item_of ts)) = render_cell t a.
Proof.
  intros H I. rewrite length_of. specialize (H t I). set (n := if existsb _ ts then 32 else 16).
  assert (N16 : (a + n) mod 16 = a mod 16).
  { unfold n. destruct (existsb _ ts); [change 32 with (2 * 16)|change 16 with (1 * 16) at 1]; apply Z_mod_plus_full. }
  assert (N32 : (exists d h, t = Splitter d h) -> (a + n) mod 8 = a mod 8 /\ ((a + n) / 8) mod 4 = (a / 8) mod 4).
  { intros (d & h & ->). assert (E : existsb (fun t => match t with Splitter _ _ => true | _ => false end) ts = true) by (apply existsb_exists; exists (Splitter d h); split; [exact I|reflexivity]). unfold n. rewrite E. split; [change 32 with (4 * 8); apply Z_mod_plus_full|]. change 32 with (4 * 8). rewrite Z_div_plus_full by discriminate. change 4 with (1 * 4) at 1. apply Z_mod_plus_full. }
  clearbody n. destruct t as [| |i o|d e|d h|d k|x y]; try contradiction; try reflexivity.
  - unfold render_cell, render_tile. rewrite N16. reflexivity.
  - unfold render_cell, render_tile. rewrite N16. reflexivity.
  - destruct N32 as [N8 N4]; [eauto|]. unfold render_cell, render_tile. rewrite N16, N8, N4. reflexivity.
Qed.
(** With a machine and no splitter it does not. *)
Theorem C106_loop_refuted x y : 0 <= x < 3 -> 0 <= y < 3 ->
  exists p p', render_cell (Assembler x y) 0 = Some p /\ render_cell (Assembler x y) (0 + get_animation_length (map item_of [Assembler x y])) = Some p' /\ ~ pictures_alike p p'.
Proof.
  intros Hx Hy. rewrite length_of. assert (X : x = 0 \/ x = 1 \/ x = 2) by lia. assert (Y : y = 0 \/ y = 1 \/ y = 2) by lia.
  destruct X as [->|[->| ->]], Y as [->|[->| ->]]; eexists _, _; (split; [reflexivity|]); (split; [reflexivity|]); intros [H _]; cbn in H; inversion H; subst; cbn in *; intuition discriminate.
Qed.

(** The part of an image that is drawn for an entry: inside the image for every
    entry there is, rows counted from above, and different entries have no point in
    common other than their borders. *)
Definition inside (p : Q * Q) (r : Q * Q * (Q * Q)) : Prop := (fst (fst r) < fst p < fst (snd r) /\ snd (fst r) < snd p < snd (snd r))%Q.
Lemma div_le a b c : (0 < c -> a <= b -> a / c <= b / c)%Q.
Proof. intros Hc H. apply Qmult_le_compat_r; [exact H|]. apply Qlt_le_weak. apply Qinv_lt_0_compat. exact Hc. Qed.
Lemma div_one c : (0 < c -> c / c == 1)%Q.
Proof. intros H. apply Qmult_inv_r. intros E. rewrite E in H. discriminate. Qed.
Theorem C106_entries columns rows : 0 < columns -> 0 < rows -> forall x y lower upper, 0 <= x < columns -> 0 <= y < rows ->
  (0 <= fst lower /\ fst upper <= 1 /\ 0 <= snd lower /\ snd upper <= 1)%Q ->
  let r := texture columns rows x y lower upper in
  (0 <= fst (fst r) /\ fst (snd r) <= 1 /\ 0 <= snd (fst r) /\ snd (snd r) <= 1)%Q /\
  (forall p, inside p r -> (1 - inject_Z (y + 1) / inject_Z rows < snd p < 1 - inject_Z y / inject_Z rows)%Q) /\
  (forall x' y' lower' upper' p, 0 <= x' < columns -> 0 <= y' < rows -> (0 <= fst lower' /\ fst upper' <= 1 /\ 0 <= snd lower' /\ snd upper' <= 1)%Q ->
    inside p r -> inside p (texture columns rows x' y' lower' upper') -> x = x' /\ y = y').
Proof.
  intros Hc Hr x y lower upper Hx Hy (L1 & L2 & L3 & L4). assert (C : (0 < inject_Z columns)%Q) by (change 0%Q with (inject_Z 0); rewrite <- Zlt_Qlt; exact Hc). assert (R : (0 < inject_Z rows)%Q) by (change 0%Q with (inject_Z 0); rewrite <- Zlt_Qlt; exact Hr).
  assert (G : forall x n lo up, 0 <= x < n -> (0 <= lo -> up <= 1 -> inject_Z x / inject_Z n <= (inject_Z x + lo) / inject_Z n /\ (inject_Z x + up) / inject_Z n <= inject_Z (x + 1) / inject_Z n /\ 0 <= inject_Z x / inject_Z n /\ inject_Z (x + 1) / inject_Z n <= 1)%Q).
  { clear. intros x n lo up Hx L U. assert (N : (0 < inject_Z n)%Q) by (change 0%Q with (inject_Z 0); rewrite <- Zlt_Qlt; lia). repeat split.
    - apply div_le; [exact N|lra].
    - apply div_le; [exact N|rewrite inject_Z_plus; change (inject_Z 1) with 1%Q; lra].
    - apply Qle_shift_div_l; [exact N|]. rewrite Qmult_0_l. change 0%Q with (inject_Z 0). rewrite <- Zle_Qle. lia.
    - apply Qle_shift_div_r; [exact N|]. rewrite Qmult_1_l. rewrite <- Zle_Qle. lia. }
  assert (D : forall x x' n q, 0 < n -> (inject_Z x / inject_Z n < q -> q < inject_Z (x + 1) / inject_Z n -> inject_Z x' / inject_Z n < q -> q < inject_Z (x' + 1) / inject_Z n -> x = x')%Q).
  { clear. intros x x' n q Hn A1 A2 B1 B2. assert (N : (0 < inject_Z n)%Q) by (change 0%Q with (inject_Z 0); rewrite <- Zlt_Qlt; exact Hn).
    assert (T : forall u v : Z, (inject_Z u / inject_Z n < q)%Q -> (q < inject_Z (v + 1) / inject_Z n)%Q -> u < v + 1).
    { intros u v P1 P2. destruct (Z_lt_le_dec u (v + 1)) as [K|K]; [exact K|]. exfalso. assert (inject_Z (v + 1) / inject_Z n <= inject_Z u / inject_Z n)%Q by (apply div_le; [exact N|rewrite <- Zle_Qle; exact K]). lra. }
    pose proof (T x x' A1 B2). pose proof (T x' x B1 A2). lia. }
  destruct (G x columns (fst lower) (fst upper) Hx L1 L2) as (G1 & G2 & G3 & G4). destruct (G (rows - y - 1) rows (snd lower) (snd upper) ltac:(lia) L3 L4) as (G5 & G6 & G7 & G8).
  cbn zeta. unfold texture, inside. cbn [fst snd]. split; [repeat split; lra|]. split.
  - intros p [_ [P1 P2]].
    assert (S : forall k, (inject_Z (rows - k) / inject_Z rows == 1 - inject_Z k / inject_Z rows)%Q). { intros k. unfold Zminus. rewrite inject_Z_plus, inject_Z_opp. unfold Qdiv. rewrite Qmult_plus_distr_l. fold (inject_Z rows / inject_Z rows)%Q. rewrite (div_one _ R). ring. }
    pose proof (S (y + 1)) as S1. pose proof (S y) as S2. replace (rows - (y + 1)) with (rows - y - 1) in S1 by lia. rewrite <- S1, <- S2. replace (rows - y - 1 + 1) with (rows - y) in G6 by lia. split; lra.
  - intros x' y' lower' upper' p Hx' Hy' (M1 & M2 & M3 & M4) [[P1 P2] [P3 P4]] [[Q1 Q2] [Q3 Q4]].
    destruct (G x' columns (fst lower') (fst upper') Hx' M1 M2) as (G1' & G2' & G3' & G4'). destruct (G (rows - y' - 1) rows (snd lower') (snd upper') ltac:(lia) M3 M4) as (G5' & G6' & G7' & G8').
    split; [apply (D x x' columns (fst p)); try lra; exact Hc|]. enough (rows - y - 1 = rows - y' - 1) by lia. apply (D _ _ rows (snd p)); try lra; exact Hr.
Qed.

(** --show-raw with names shows the value that the path leads to. *)
Theorem C107_names int_of item path v : (forall piece, In piece path -> int_of piece = None) -> leads int_of item path v -> show_raw int_of item path = Some v.
Proof.
  unfold show_raw. intros N L. generalize item at 1. induction L as [j|piece path l j v E A L IH|piece path i l j v E P A L IH]; intros whole_; cbn.
  - reflexivity.
  - rewrite E. cbn. rewrite A. apply IH. intros q I. apply N. right. exact I.
  - rewrite (N piece (or_introl eq_refl)) in E. discriminate.
Qed.
(** With a number in it, it raises, whatever is there. *)
Theorem C107_numbers_refuted int_of item path : (exists piece i, In piece path /\ int_of piece = Some i) -> show_raw int_of item path = None.
Proof.
  unfold show_raw. intros (piece & i & I & E). generalize item at 1. revert item. induction path as [|q path IH]; intros item whole_; [contradiction|]. cbn. destruct (int_of q) eqn:Q; [reflexivity|]. destruct I as [->|I]; [congruence|]. destruct (dict_get q item); cbn; [apply IH; exact I|reflexivity].
Qed.

Definition zero_only (s : string) : option Z := if String.eqb s "0" then Some 0 else None.
Example C107_a_name : leads zero_only (JObj [("tile"%string, tile_write (Belt UP UP))]) ["tile"; "type"]%string (JStr "belt").
Proof. eapply leads_in; [reflexivity..|]. eapply leads_in; [reflexivity..|]. apply leads_here. Qed.
Example C107_a_number : leads zero_only (JObj [("underground"%string, JArr [JBool true; JBool false])]) ["underground"; "0"]%string (JBool true).
Proof. eapply leads_in; [reflexivity..|]. eapply (leads_at _ _ _ 0); [reflexivity|lia|reflexivity|]. apply leads_here. Qed.
Example C106_a_layout : render_cell (Splitter UP true) (5 + get_animation_length (map item_of [Belt UP UP; Splitter UP true])) = render_cell (Splitter UP true) 5.
Proof. apply C106_loop; [|right; left; reflexivity]. intros t [<-|[<-|[]]]; exact I. Qed.

Print Assumptions C106_loop.
Print Assumptions C106_loop_refuted.
Print Assumptions C106_entries.
Print Assumptions C107_names.
Print Assumptions C107_numbers_refuted.
