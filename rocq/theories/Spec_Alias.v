(** Templates without their aliases. *)
From Coq Require Import String ZArith List.
From Verif Require Import M_Json M_Template M_Alias.
Import ListNotations.

(** The template that is left when the functions are taken out. *)
Fixpoint without_aliases (c : ctemplate) : template :=
  match c with
  | Leaf t => t
  | Comp fields => TComposite ((fix keep fs := match fs with [] => [] | (n, inl c) :: r => (n, without_aliases c) :: keep r | (_, inr _) :: r => keep r end) fields)
  end.
(** [i] is a tile of [c], and [j] is what is left of it when the values of the
    functions are taken out. *)
Inductive stripped : ctemplate -> instance -> instance -> Prop :=
| stripped_leaf t i : stripped (Leaf t) i i
| stripped_comp fields tile kept : keeps fields tile kept -> stripped (Comp fields) (IRec tile) (IRec kept)
with keeps : list (string * (ctemplate + func)) -> list (string * instance) -> list (string * instance) -> Prop :=
| keeps_end tile : keeps [] tile []
| keeps_member n c fs tile i j kept : assoc n tile = Some i -> stripped c i j -> keeps fs tile kept -> keeps ((n, inl c) :: fs) tile ((n, j) :: kept)
| keeps_alias n f fs tile kept : keeps fs tile kept -> keeps ((n, inr f) :: fs) tile kept.
(** Everywhere in the template the names are different, and names of fields. *)
Inductive well_named : ctemplate -> Prop :=
| well_leaf t : well_named (Leaf t)
| well_comp fields : NoDup (map fst fields) -> (forall n, In n (map fst fields) -> field_name n = true) ->
    (forall n c, In (n, inl c) fields -> well_named c) -> well_named (Comp fields).
