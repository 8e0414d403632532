(** Proofs about the older formats of cells. *)
From Coq Require Import String ZArith List Bool Lia.
From Verif Require Import M_Json Spec_Tile M_Tile M_Blueprint Spec_Legacy M_Legacy.
Import ListNotations.
Open Scope Z_scope.

Lemma omap_app {A B} (f : A -> option B) l m : omap f (l ++ m) = let* a := omap f l in let* b := omap f m in Some (a ++ b)%list.
Proof.
  induction l as [|x l IH]; cbn; [destruct (omap f m); reflexivity|]. destruct (f x); cbn; [|reflexivity]. rewrite IH. destruct (omap f l); cbn; [|reflexivity]. destruct (omap f m); reflexivity.
Qed.
Lemma has_not k j : jget k j = None -> has_key k j = false. Proof. unfold has_key. intros ->. reflexivity. Qed.
Lemma has_it k j v : jget k j = Some v -> has_key k j = true. Proof. unfold has_key. intros ->. reflexivity. Qed.

(** What is read of a record. *)
Definition reading (t : tile) : option cell :=
  match t with
  | Empty => Some (Old OldEmpty)
  | Underground d e => Some (Old (OldUnderground (JNum (number d)) e))
  | Splitter d h => Some (Old (OldSplitter (JNum (number d)) (JBool h)))
  | _ => None
  end.
Definition agrees (c : cell) (t : tile) : Prop :=
  match c, t with
  | Old OldEmpty, Empty => True
  | Old (OldUnderground (JNum v) e), Underground d e' => v = number d /\ e = e'
  | Old (OldSplitter (JNum v) h), Splitter d h' => v = number d /\ truthy h = h'
  | Old (OldInserter (JNum v) (JNum k)), Inserter d k' => v = number d /\ k = k'
  | Old (OldMachine (JNum x) (JNum y)), Assembler x' y' => x = x' /\ y = y'
  | _, _ => False
  end.
Lemma read_described j t : jget "tile" j = None -> describes j t ->
  match t with Belt _ _ => read_item j = None | _ => exists c, read_item j = Some c /\ agrees c t end.
Proof.
  intros T D. unfold read_item. rewrite T.
  assert (Q : forall i o, directed j i o -> jget "input_direction" j = Some (match i with Some d => JNum (number d) | None => JNull end) /\ jget "output_direction" j = Some (match o with Some d => JNum (number d) | None => JNull end)) by (intros i o H; exact H).
  unfold is in *. inversion D as [E S H|i o E S H|d E S H|d E S H|d h E S Hh H|i o E H|i o E B H|d o E B U H|d i E B U V H|d k i o E B U V S C H Hk|d h i o (E & B & U & V) S C D1 D2 H|d k i o (E & B & U & V) S C D1 H|x y i o (E & B & U & V) S C D1 D2 D3 X Y H]; subst; destruct (Q _ _ H) as [Hi Ho]; unfold is in *; rewrite Hi, Ho; cbn [obind].
  - rewrite (has_not _ _ E). unfold read_plain. rewrite S. cbn. eexists. split; [reflexivity|exact I].
  - rewrite (has_not _ _ E). unfold read_plain. rewrite S. cbn. reflexivity.
  - rewrite (has_not _ _ E). unfold read_plain. rewrite S. cbn. eexists. split; [reflexivity|cbn; auto].
  - rewrite (has_not _ _ E). unfold read_plain. rewrite S. cbn. eexists. split; [reflexivity|cbn; auto].
  - rewrite (has_not _ _ E). unfold read_plain. rewrite S. cbn. rewrite Hh. cbn. eexists. split; [reflexivity|cbn; auto].
  - rewrite (has_it _ _ _ E). unfold read_marked. rewrite E. cbn. eexists. split; [reflexivity|exact I].
  - rewrite (has_it _ _ _ E). unfold read_marked. rewrite E. cbn. rewrite B. cbn. reflexivity.
  - rewrite (has_it _ _ _ E). unfold read_marked. rewrite E. cbn. rewrite B. cbn. rewrite U. cbn. eexists. split; [reflexivity|cbn; auto].
  - rewrite (has_it _ _ _ E). unfold read_marked. rewrite E. cbn. rewrite B. cbn. rewrite U. cbn. rewrite V. cbn. eexists. split; [reflexivity|cbn; auto].
  - rewrite (has_it _ _ _ E). unfold read_marked. rewrite E. cbn. rewrite B. cbn. rewrite U. cbn. rewrite V. cbn. rewrite S. cbn. rewrite C. cbn. eexists. split; [reflexivity|]. cbn. split; [reflexivity|]. destruct Hk as [-> | ->]; reflexivity.
  - rewrite (has_it _ _ _ E). unfold read_marked. rewrite E. cbn. rewrite B. cbn. rewrite U. cbn. rewrite V. cbn. rewrite S. cbn. rewrite C. cbn. rewrite D1. cbn. rewrite D2. cbn. eexists. split; [reflexivity|]. cbn. auto.
  - rewrite (has_it _ _ _ E). unfold read_marked. rewrite E. cbn. rewrite B. cbn. rewrite U. cbn. rewrite V. cbn. destruct S as [S|S]; unfold is in S; rewrite S; cbn; rewrite C; cbn; rewrite D1; cbn; (eexists; split; [reflexivity|cbn; auto]).
  - assert (M : old_machine (JNum x) (JNum y) = Some (OldMachine (JNum x) (JNum y))).
    { unfold old_machine, below_three. destruct (Z.leb_spec 0 x), (Z.ltb_spec x 3), (Z.leb_spec 0 y), (Z.ltb_spec y 3); try lia. reflexivity. }
    rewrite (has_it _ _ _ E). unfold read_marked. rewrite E. cbn. rewrite B. cbn. rewrite U. cbn. rewrite V. cbn. destruct S as [S|S]; unfold is in S; rewrite S; cbn; rewrite C; cbn; rewrite D1; cbn; rewrite D2; cbn; rewrite D3; cbn [obind]; rewrite M; (eexists; split; [reflexivity|cbn; auto]).
Qed.

(** A tile that leaves no trace in a blueprint. *)
Definition traceless (t : tile) : bool := match t with Empty | Splitter _ false => true | _ => false end.
Definition blank (c : cell) : bool := match c with Old OldEmpty => true | Old (OldSplitter _ h) => negb (truthy h) | _ => false end.
Definition is_old (c : cell) : Prop := match c with Old _ => True | New _ => False end.
Lemma agrees_blank c t : agrees c t -> is_old c /\ blank c = traceless t.
Proof.
  destruct c as [u|[|ci co|cd ce|cd ch|cd ct|cx cy]], t as [| |i o|d1 e1|d1 h1|d1 k|x y]; cbn; try tauto.
  all: repeat match goal with |- context [match ?x with JNull => _ | _ => _ end] => is_var x; destruct x end; cbn; try tauto; intros [_ <-]; destruct (truthy ch); auto.
Qed.
Lemma old_entities l cs : (forall c, In c cs -> is_old (snd c)) -> forall n, cell_entities l n cs = if forallb (fun c => blank (snd c)) cs then Some [] else None.
Proof.
  induction cs as [|[p c] cs IH]; intros H n; [reflexivity|]. cbn [cell_entities forallb snd]. pose proof (H _ (or_introl eq_refl)) as O. cbn in O. destruct c as [t|t]; [contradiction|].
  assert (IH' : forall n, cell_entities l n cs = if forallb (fun c => blank (snd c)) cs then Some [] else None) by (apply IH; intros c I; apply H; right; exact I).
  unfold cell_entity. cbn [snd fst]. destruct t as [|i o|d e|d h|d k|x y]; cbn; try reflexivity; [apply IH'|]. destruct (truthy h); cbn; [reflexivity|apply IH'].
Qed.
Lemma cells_row_snd x y r : map snd (cells_row x y r) = r.
Proof. revert x. induction r as [|c r IH]; intros x; cbn; [reflexivity|]. rewrite IH. reflexivity. Qed.
Lemma cells_rows_snd y g : map snd (cells_rows y g) = concat g.
Proof. revert y. induction g as [|r g IH]; intros y; cbn; [reflexivity|]. rewrite map_app, cells_row_snd, IH. reflexivity. Qed.

Lemma read_row js r : Forall2 (fun j t => jget "tile" j = None /\ describes j t) js r ->
  (exists i o, In (Belt i o) r) /\ omap read_item js = None \/ exists cs, omap read_item js = Some cs /\ Forall2 agrees cs r.
Proof.
  induction 1 as [|j t js r [T D] F IH]; [right; exists []; split; [reflexivity|constructor]|].
  pose proof (read_described j t T D) as R. cbn [omap].
  destruct IH as [[(i & o & I) IH]|(cs & IH & A)].
  - left. split; [exists i, o; right; exact I|]. destruct (read_item j); cbn; [rewrite IH|]; reflexivity.
  - destruct t as [| |i o|d e|d h|d k|x y]; try (destruct R as (c & -> & Ac); right; exists (c :: cs); cbn; rewrite IH; cbn; split; [reflexivity|constructor; assumption]).
    left. split; [exists i, o; left; reflexivity|]. rewrite R. reflexivity.
Qed.
Lemma read_rows jss g : Forall2 (Forall2 (fun j t => jget "tile" j = None /\ describes j t)) jss g ->
  (exists i o r, In r g /\ In (Belt i o) r) /\ omap (omap read_item) jss = None \/ exists css, omap (omap read_item) jss = Some css /\ Forall2 (Forall2 agrees) css g.
Proof.
  induction 1 as [|js r jss g F F' IH]; [right; exists []; split; [reflexivity|constructor]|]. cbn [omap].
  destruct IH as [[(i & o & r' & Ir & I) IH]|(css & IH & A)].
  - left. split; [exists i, o, r'; split; [right; exact Ir|exact I]|]. destruct (omap read_item js); cbn; [rewrite IH|]; reflexivity.
  - destruct (read_row js r F) as [[(i & o & I) E]|(cs & E & Ac)]; [left|right].
    + split; [exists i, o, r; split; [left; reflexivity|exact I]|]. rewrite E. reflexivity.
    + exists (cs :: css). rewrite E, IH. cbn. split; [reflexivity|constructor; assumption].
Qed.
Lemma agrees_concat css g : Forall2 (Forall2 agrees) css g -> Forall2 agrees (concat css) (concat g).
Proof. induction 1 as [|cs r css g F F' IH]; [constructor|]. cbn. apply Forall2_app; assumption. Qed.
Lemma forallb_agrees cs r : Forall2 agrees cs r -> forallb blank cs = forallb traceless r /\ forall c, In c cs -> is_old c.
Proof.
  induction 1 as [|c t cs r A F [IH1 IH2]]; [split; [reflexivity|intros c []]|]. destruct (agrees_blank c t A) as [O B]. cbn. rewrite B, IH1. split; [reflexivity|]. intros c' [<-|I]; auto.
Qed.
Lemma encode_described l jss g : Forall2 (Forall2 (fun j t => jget "tile" j = None /\ describes j t)) jss g ->
  encode_line l jss = if forallb traceless (concat g) then Some [] else None.
Proof.
  intros F. unfold encode_line. destruct (read_rows jss g F) as [[(i & o & r & Ir & I) E]|(css & E & A)].
  - rewrite E. cbn. destruct (forallb traceless (concat g)) eqn:K; [|reflexivity]. rewrite forallb_forall in K. specialize (K (Belt i o)). discriminate K. apply in_concat. exists r. auto.
  - rewrite E. cbn [obind]. apply agrees_concat in A. destruct (forallb_agrees _ _ A) as [B O].
    rewrite old_entities.
    + assert (X : forall cs, forallb (fun c : (Z * Z) * cell => blank (snd c)) cs = forallb blank (map snd cs)) by (induction cs as [|c cs IH]; cbn; [reflexivity|rewrite IH; reflexivity]).
      rewrite X, cells_rows_snd, B. reflexivity.
    + intros c I. apply O. rewrite <- (cells_rows_snd 0). apply in_map. exact I.
Qed.
(** Records of the present format among them. *)
Fixpoint erase_old (cs : list ((Z * Z) * cell)) : list ((Z * Z) * tile) :=
  match cs with [] => [] | (p, New t) :: r => (p, t) :: erase_old r | (p, Old _) :: r => (p, Empty) :: erase_old r end.
Lemma entities_of_new l cs : forall n es, cell_entities l n cs = Some es -> make_entities l n (erase_old cs) = Some es.
Proof.
  induction cs as [|[p c] cs IH]; intros n es H; [exact H|]. cbn [cell_entities] in H. destruct c as [t|t]; cbn [erase_old make_entities].
  - unfold cell_entity in H. cbn [snd fst] in H. destruct (tile_entity l n (p, t)) as [[e|]|]; cbn [obind] in *; [|apply IH; exact H|discriminate]. destruct (cell_entities l (n + 1) cs) as [es'|] eqn:E; [|discriminate]. cbn in H. injection H as <-. rewrite (IH _ _ E). reflexivity.
  - destruct p as [x y]. cbn. destruct (cell_entity l n (x, y, Old t)) as [[e|]|] eqn:E; cbn in H; [|apply IH; exact H|discriminate]. exfalso. unfold cell_entity in E. cbn in E. destruct t; try discriminate. destruct (truthy is_head); discriminate.
Qed.
Lemma erase_row x y r : erase_old (cells_row x y r) = enum_row x y (map (fun c => match c with New t => t | Old _ => Empty end) r).
Proof. revert x. induction r as [|[t|t] r IH]; intros x; cbn; [reflexivity| |]; rewrite IH; reflexivity. Qed.
Lemma erase_app a b : erase_old (a ++ b) = (erase_old a ++ erase_old b)%list.
Proof. induction a as [|[p [t|t]] a IH]; cbn; [reflexivity| |]; rewrite IH; reflexivity. Qed.
Lemma erase_rows y g : erase_old (cells_rows y g) = enum_rows y (map (map (fun c => match c with New t => t | Old _ => Empty end)) g).
Proof. revert y. induction g as [|r g IH]; intros y; cbn; [reflexivity|]. rewrite erase_app, erase_row, IH. reflexivity. Qed.
