(** Two ways of laying out a table of nx columns and ny rows. *)
From Verif Require Import Base.
Definition column_order (nx ny x y : nat) : nat := x * ny + y.
Definition row_order (nx ny x y : nat) : nat := y * nx + x.
