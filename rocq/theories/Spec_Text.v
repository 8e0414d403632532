(** What the texts of json and the strings of blueprints are to satisfy. *)
From Coq Require Import String Ascii ZArith List Bool.
From Verif Require Import M_Text.
Import ListNotations.
Local Open Scope string_scope.

(** Dictionaries have each key once, at every depth. *)
Inductive proper : doc -> Prop :=
| proper_null : proper DNull
| proper_bool b : proper (DBool b)
| proper_num n : proper (DNum n)
| proper_half n : proper (DHalf n)
| proper_str s : proper (DStr s)
| proper_arr l : (forall x, In x l -> proper x) -> proper (DArr l)
| proper_obj l : NoDup (map fst l) -> (forall k x, In (k, x) l -> proper x) -> proper (DObj l).
(** The characters of a blueprint string. *)
Definition plain (c : ascii) : Prop := c = "="%char \/ In c (list_ascii_of_string "ABCDEFGHIJKLMNOPQRSTUVWXYZabcdefghijklmnopqrstuvwxyz0123456789+/").
(** Characters that can be typed and that json does not write without escape are
    absent: codes from 32 to 126. *)
Definition printable (c : ascii) : Prop := (32 <= nat_of_ascii c <= 126)%nat.
(** [t] is [s] with other characters, all of ASCII, put in between. *)
Inductive broken_up : string -> string -> Prop :=
| broken_end : broken_up "" ""
| broken_same c s t : broken_up s t -> broken_up (String c s) (String c t)
| broken_more c s t : (nat_of_ascii c < 128)%nat -> ~ plain c -> broken_up s t -> broken_up s (String c t).
