(** Strings: decimal numerals, file extensions. *)
From Coq Require Import String Ascii Arith.

(** every character satisfies P *)
Fixpoint chars (P : ascii -> Prop) (s : string) : Prop := match s with EmptyString => True | String c r => P c /\ chars P r end.
(** value of a decimal string *)
Fixpoint value (s : string) (acc : nat) : nat :=
  match s with EmptyString => acc | String c r => value r (10 * acc + (nat_of_ascii c - 48)) end.
Definition is_digit (c : ascii) : Prop := 48 <= nat_of_ascii c < 58.
(** neither a dot nor a directory separator *)
Definition plain (c : ascii) : Prop := c <> "."%char /\ c <> "/"%char.
