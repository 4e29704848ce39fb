(** Version numbers, src/basic/ECadVersion.h.  The two numbers are unsigned; toInt is at most 9999, so no
    machine arithmetic wraps and naturals are exact. *)
From Verif Require Import Base.

Definition version : Type := (N * N)%type.
Local Open Scope N_scope.

(** ECadVersion.h:10-13 *)
Definition to_int (v : version) : N := (fst v mod 100) * 100 + snd v mod 100.
(** ECadVersion.h:15-21 *)
Definition from_int (n : N) : version := (n / 100 mod 100, n mod 100).
(** ECadVersion.h:28-36 *)
Definition version_gt (a b : version) : bool := to_int b <? to_int a.
Definition version_lt (a b : version) : bool := to_int a <? to_int b.
