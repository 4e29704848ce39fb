From Verif Require Import Base Bondwire_Model Padstack_Model.

(** the first position of a name *)
Inductive first_at : list string -> string -> nat -> Prop :=
| fa_here n ns : first_at (n :: ns) n 0
| fa_later m ns n i : m <> n -> first_at ns n i -> first_at (m :: ns) n (S i).

Section S.
  Context {P : Type} (p_default : P).

  (** abstract state: the layer names, and a total assignment of parameters to positions *)
  Definition astate : Type := (list string * (nat -> P))%type.

  Definition put (f : nat -> P) (i : nat) (v : P) : nat -> P := fun j => if (j =? i)%nat then v else f j.

  (** specification of each call, with its answer (None: no answer) *)
  Inductive spec_op : astate -> ps_op P -> option bool -> astate -> Prop :=
  | sp_layers names f ls :
      spec_op (names, f) (SetLayers ls) None
              (ls, fun i => if (i <? Nat.min (List.length names) (List.length ls))%nat then f i else p_default)
  | sp_set names f i v : (i < List.length names)%nat ->
      spec_op (names, f) (SetPad (Z.of_nat i) v) (Some true) (names, put f i v)
  | sp_set_bad names f id v : (id < 0 \/ Z.of_nat (List.length names) <= id)%Z ->
      spec_op (names, f) (SetPad id v) (Some false) (names, f)
  | sp_named names f n i v : first_at names n i ->
      spec_op (names, f) (SetPadNamed n v) (Some true) (names, put f i v)
  | sp_named_bad names f n v : ~ In n names ->
      spec_op (names, f) (SetPadNamed n v) (Some false) (names, f).

  Inductive spec_run : astate -> list (ps_op P) -> list bool -> astate -> Prop :=
  | sr_nil s : spec_run s [] [] s
  | sr_cons s o b s1 ops bs s2 : spec_op s o b s1 -> spec_run s1 ops bs s2 ->
      spec_run s (o :: ops) (match b with Some b => b :: bs | None => bs end) s2.

  (** no call uses an id below -1 *)
  Definition sane (o : ps_op P) : Prop := match o with SetPad id _ => (-1 <= id)%Z | _ => True end.
End S.
