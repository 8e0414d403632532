(** The rest of the main functions that use --partial: those of
    belt_balancer_net_free_power_of_2.py, interchange.py and
    belt_balancer_net_free.py. *)
From Coq Require Import ZArith List Bool.
From Verif Require Import Spec_Cnf Spec_Tile M_Json M_Tile M_Util M_Card M_Network M_Template M_Grid M_Oracle M_Balancer M_NetFree M_Pow2 M_Interchange M_Main.
Import ListNotations.
Open Scope Z_scope.

(** belt_balancer_net_free_power_of_2.py 121-123, interchange.py 243-245 and
    belt_balancer_net_free.py 398-400: the partial solution is added last. *)
Definition with_partial (partial : option (list (list tile))) (r : option (grid * cnf * Z)) : option (grid * cnf * Z) :=
  let* (g, cs, top) := r in
  let* c := match partial with Some tiles => set_nonempty_tiles g tiles | None => Some [] end in
  Some (g, (cs ++ c)%list, top).

(** The argument of --underground-length: -1 is no limit
    (belt_balancer_net_free_power_of_2.py 108-109). *)
Definition length_option (l : Z) : option Z := if l =? -1 then None else Some l.

(** belt_balancer_net_free_power_of_2.py 108-123: main before itersolve. *)
Definition pow2_main (E : card_encoder) (w h l : Z) (partial : option (list (list tile))) : option (grid * cnf * Z) :=
  with_partial partial (power_of_two E w h (length_option l)).

(** interchange.py 186-245: main before itersolve. *)
Definition interchange_main (E : card_encoder) (w h ul : Z) (alternating rot_symmetry : bool) (partial : option (list (list tile))) : option (grid * cnf * Z) :=
  with_partial partial (interchange_clauses E w h ul alternating rot_symmetry).

(** belt_balancer_net_free.py 378-400: main before itersolve, without its warning. *)
Definition net_free_main (w h l n m : Z) (aligned : bool) (partial : option (list (list tile))) : option (grid * cnf * Z) :=
  with_partial partial (net_free w h (length_option l) n m aligned).
