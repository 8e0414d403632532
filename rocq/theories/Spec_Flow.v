(** Steady flows through a belt layout in which some sides of splitters may be
    left unconnected. *)
From Coq Require Import ZArith QArith List Bool.
From Verif Require Import Spec_Tile Spec_Layout M_Network Spec_Network Spec_Balancer.
Import ListNotations.
Open Scope Z_scope.

(** Along the cells [at_ 0 .. at_ (k-1)] of an edge there are [cnt] straight belts
    from number [i] on, and nothing else. *)
Definition straight_ends (T : layout) (at_ : Z -> pos) (k cnt i : Z) : Prop :=
  0 <= i <= k - cnt /\
  forall y, 0 <= y < k -> T (at_ y) = if (i <=? y) && (y <? i + cnt) then Belt RIGHT RIGHT else Empty.

(** The cells (x, i) .. (x, i + n - 1). *)
Definition rows (x i n : Z) : list pos := map (fun k => (x, i + Z.of_nat k)) (seq 0 (Z.to_nat n)).

Section Flow.
  Variable A : area.
  Variable T : layout.
  Variable L : Z.

  (** The output, or the input, of a splitter half is connected. *)
  Definition exit_used (p : pos) : Prop := exists f, joined A T L (Exit p) f.
  Definition entrance_used (p : pos) : Prop := exists s, joined A T L s (Entrance p).

  (** A line delivers what it is given; nothing moves through an unconnected
      side; a splitter keeps nothing, and shares equally between its outputs
      when both are connected. *)
  Definition steady_flow (into : start -> Q) (from : finish -> Q) : Prop :=
    (forall s f, joined A T L s f -> from f == into s)%Q /\
    (forall p, inside A p -> is_splitter_tile (T p) ->
       (~ exit_used p -> into (Exit p) == 0)%Q /\ (~ entrance_used p -> from (Entrance p) == 0)%Q) /\
    (forall s, is_splitter_at A T s ->
       (into (Exit (fst s)) + into (Exit (snd s)) == from (Entrance (fst s)) + from (Entrance (snd s)))%Q /\
       (exit_used (fst s) -> exit_used (snd s) -> into (Exit (fst s)) == into (Exit (snd s)))%Q).

  (** In every steady flow every outlet carries the same share of what enters. *)
  Definition shares_equally : Prop :=
    forall into from ins outs, steady_flow into from -> inlets A T ins -> outlets A T outs ->
    forall p, In p outs ->
      (inject_Z (Z.of_nat (length outs)) * from (Leave p) == fold_right Qplus 0 (map (fun q => into (Enter q)) ins))%Q.
End Flow.
