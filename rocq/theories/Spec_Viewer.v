(** Videos of layouts: all pictures of one layout, in order. *)
From Coq Require Import ZArith List.
Import ListNotations.
Open Scope Z_scope.

Section Spec.
  Variable layout : Type.
  Variable length_of : layout -> Z.
  Definition video (l : layout) : list (layout * Z) := map (fun a => (l, Z.of_nat a)) (seq 0 (Z.to_nat (length_of l))).
  Definition numbered_videos (ls : list layout) : list (Z * list (layout * Z)) := combine (map Z.of_nat (seq 0 (length ls))) (map video ls).
End Spec.
