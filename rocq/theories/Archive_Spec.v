(** What has to be in an archive. *)
From Verif Require Import Base Archive_Model.
Open Scope string_scope.

(** [d] is [c] or one of its base classes *)
Inductive derives : string -> string -> Prop :=
| derives_refl c : derives c c
| derives_base c k b d : In (c, k) classes -> In b (k_bases k) -> derives b d -> derives c d.

(** Objects of class [c] have the data member [x] *)
Definition has_member (c : string) (x : string * string) : Prop :=
  derives c (fst x) /\ exists k, In (fst x, k) classes /\ In (snd x) (k_members k).

(** Caches that are made again from other members; the database of a definition, which the loading database sets; the
    version, which is in front of the archive *)
Definition restored : list (string * string) :=
  [("ETransform2D", "m_transform"); ("ENetCollection", "m_netIdNameMap"); ("EDefinition", "m_database"); ("EDatabase", "m_version")].
