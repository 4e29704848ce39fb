(** Name generators of the collections. *)
From Verif Require Import Base.
From Coq Require Import DecimalString.

(** [std::to_string(size_t)]; indices are unbounded naturals here (the C++ counter would wrap only after
    2^64 used names). *)
Definition to_dec (n : nat) : string := NilZero.string_of_uint (Nat.to_uint n).

Local Open Scope string_scope.

(** src/basic/ECollection.h:117-122 – the [while(true)] loop of [NextKey] for string keys.  [count] is the
    collection's [Count]. *)
Fixpoint next_key_loop (fuel : nat) (count : string -> bool) (key : string) (index : nat) : res string :=
  match fuel with
  | O => OutOfFuel
  | S fuel' =>
      let name := key ++ to_dec index in
      if negb (count name) then Ok name else next_key_loop fuel' count key (S index)
  end.

(** src/basic/ECollection.h:113-124 – [NextKey(collection, key)]. *)
Definition next_key (fuel : nat) (count : string -> bool) (key : string) : res string :=
  if negb (count key) then Ok key else next_key_loop fuel count key 1.

(** src/basic/ECollection.h:97-103 – [NextKey] for integral keys ([next++] on an unbounded integer). *)
Fixpoint next_int_key (fuel : nat) (count : Z -> bool) (key : Z) : res Z :=
  match fuel with
  | O => OutOfFuel
  | S fuel' => if count key then next_int_key fuel' count (key + 1)%Z else Ok key
  end.

(** src/collection/ELayerCollection.cpp:118-125 – [FindLayerByName] seen as a test on the list of layer
    names. *)
Definition layer_name_used (names : list string) (n : string) : bool :=
  existsb (String.eqb n) names.

(** src/collection/ELayerCollection.cpp:127-137 – [GetNextLayerName(base)]; same loop as [NextKey]. *)
Definition get_next_layer_name (fuel : nat) (names : list string) (base : string) : res string :=
  if negb (layer_name_used names base) then Ok base
  else next_key_loop fuel (layer_name_used names) base 1.

(** src/extension/xfl/ECadExtXflHandler.cpp:406-418 – [GetNextPadstackInstName(defName)]; state is
    [m_padstackInstNames], a set of strings (here the list of names handed out, newest first). *)
Definition next_padstack_inst_name (fuel : nat) (used : list string) (defName : string)
  : res (string * list string) :=
  match next_key_loop fuel (layer_name_used used) (defName ++ "_inst_") 1 with
  | Ok n => Ok (n, n :: used)
  | UB => UB | Throw => Throw | OutOfFuel => OutOfFuel
  end.

(** The importer asks for one name per via instance (ECadExtXflHandler.cpp:283). *)
Fixpoint padstack_inst_names (fuel : nat) (used : list string) (defs : list string)
  : res (list string * list string) :=
  match defs with
  | [] => Ok ([], used)
  | d :: ds =>
      match next_padstack_inst_name fuel used d with
      | Ok (n, used') =>
          match padstack_inst_names fuel used' ds with
          | Ok (ns, used'') => Ok (n :: ns, used'')
          | UB => UB | Throw => Throw | OutOfFuel => OutOfFuel
          end
      | UB => UB | Throw => Throw | OutOfFuel => OutOfFuel
      end
  end.
