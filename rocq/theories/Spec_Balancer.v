(** What it means that a belt layout is a given network of splitters. *)
From Coq Require Import ZArith QArith List Bool.
From Verif Require Import Spec_Tile Spec_Layout M_Network Spec_Network.
Import ListNotations.
Open Scope Z_scope.

(** Where a line of belts starts: where items enter the rectangle, or behind
    the output of a splitter half.  Where it finishes: where items leave the
    rectangle, or at the input of a splitter half. *)
Inductive start := Enter (p : pos) | Exit (p : pos).
Inductive finish := Leave (p : pos) | Entrance (p : pos).

Section Lines.
  Variable A : area.
  Variable T : layout.

  (** [q] is the first cell of the line. *)
  Definition begins (s : start) (q : pos) : Prop :=
    match s with
    | Enter p => q = p /\ inside A p /\ exists d, takes (T p) d /\ neighbour A p (opposite d) = None
    | Exit p => inside A p /\ exists d h, T p = Splitter d h /\ neighbour A p d = Some q /\ takes (T q) d
    end.
  (** [r] is the last cell of the line. *)
  Definition reaches (f : finish) (r : pos) : Prop :=
    match f with
    | Leave p => r = p /\ inside A p /\ ~ is_splitter_tile (T p) /\ exists d, pushes (T p) d /\ neighbour A p d = None
    | Entrance p => r = p /\ inside A p /\ is_splitter_tile (T p)
    end.
  (** A line of belts and tunnels leads from [s] to [f]. *)
  Definition joined (L : Z) (s : start) (f : finish) : Prop :=
    exists q r, begins s q /\ carried A T L q r /\ reaches f r.

  (** The two halves of a splitter: [false] is the head. *)
  Definition is_splitter_at (s : pos * pos) : Prop :=
    inside A (fst s) /\ inside A (snd s) /\
    exists d, T (fst s) = Splitter d true /\ T (snd s) = Splitter d false /\
      neighbour A (fst s) (anticlockwise d) = Some (snd s).
  Definition half (s : pos * pos) (b : bool) : pos := if b then snd s else fst s.

  (** A placement of a network: the splitters of the layout listed in the order
      of the network, which half the first input and the first output of each
      uses, and the cells of the free inputs and outputs. *)
  Record placement := {
    pl_splitters : list (pos * pos);
    pl_in : nat -> bool;
    pl_out : nat -> bool;
    pl_inputs : list pos;
    pl_outputs : list pos }.

  Definition start_of (P : placement) (s : source) : option start :=
    match s with
    | FromInput j => option_map Enter (nth_error (pl_inputs P) j)
    | FromSplitter i b => option_map (fun s => Exit (half s (xorb b (pl_out P i)))) (nth_error (pl_splitters P) i)
    end.
  Definition finish_of (P : placement) (k : sink) : option finish :=
    match k with
    | ToOutput j => option_map Leave (nth_error (pl_outputs P) j)
    | ToSplitter i b => option_map (fun s => Entrance (half s (xorb b (pl_in P i)))) (nth_error (pl_splitters P) i)
    end.

  (** The layout contains exactly the splitters of the network, items leave
      exactly at the listed outputs and enter at the listed inputs or not at all
      (a splitter half at the border whose belt is missing in the network is no
      input), and every belt of the network, from the start [w k] to the end
      [k], is a line of the layout. *)
  Definition realises_by (L : Z) (net : network) (ic : Z) (n : nat) (oc : Z) (m : nat) (P : placement) (w : sink -> source) : Prop :=
    length (pl_splitters P) = length net /\
    NoDup (map fst (pl_splitters P)) /\
    (forall s, In s (pl_splitters P) -> is_splitter_at s) /\
    (forall p d, inside A p -> T p = Splitter d true -> In p (map fst (pl_splitters P))) /\
    length (pl_inputs P) = n /\ NoDup (pl_inputs P) /\
    (forall p, In p (pl_inputs P) -> begins (Enter p) p) /\
    (forall p, begins (Enter p) p -> In p (pl_inputs P) \/ is_splitter_tile (T p)) /\
    length (pl_outputs P) = m /\ NoDup (pl_outputs P) /\
    (forall p, In p (pl_outputs P) <-> reaches (Leave p) p) /\
    wiring net ic n oc m w /\
    forall k, sink_colour net oc m k <> None ->
      exists s f, start_of P (w k) = Some s /\ finish_of P k = Some f /\ joined L s f.
  Definition realises (L : Z) (net : network) (ic : Z) (n : nat) (oc : Z) (m : nat) : Prop :=
    exists P w, realises_by L net ic n oc m P w.

  (** No belt of the network is missing. *)
  Definition complete (net : network) : Prop :=
    forall nd, In nd net -> fst (fst nd) <> None /\ snd (fst nd) <> None /\ fst (snd nd) <> None /\ snd (snd nd) <> None.

  (** A steady flow through the layout: a line delivers what it is given, and
      the outputs of a splitter share equally what its inputs receive. *)
  Definition steady_layout (L : Z) (into : start -> Q) (from : finish -> Q) : Prop :=
    (forall s f, joined L s f -> from f == into s)%Q /\
    (forall s, is_splitter_at s ->
       into (Exit (fst s)) == into (Exit (snd s)) /\
       into (Exit (fst s)) + into (Exit (snd s)) == from (Entrance (fst s)) + from (Entrance (snd s)))%Q.
  (** All the places where items enter, and leave, listed. *)
  Definition inlets (ps : list pos) : Prop := NoDup ps /\ forall p, In p ps <-> begins (Enter p) p.
  Definition outlets (ps : list pos) : Prop := NoDup ps /\ forall p, In p ps <-> reaches (Leave p) p.
  (** In every steady flow every outlet carries the same share of what enters. *)
  Definition balanced_layout (L : Z) : Prop :=
    forall into from ins outs, steady_layout L into from -> inlets ins -> outlets outs ->
    forall p, In p outs ->
      (inject_Z (Z.of_nat (length outs)) * from (Leave p) == fold_right Qplus 0 (map (fun q => into (Enter q)) ins))%Q.
End Lines.
