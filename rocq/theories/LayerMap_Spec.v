From Verif Require Import Base LayerMap_Model.
Local Open Scope Z_scope.

(** layer ids in use: positions of layers and the two reserved ids *)
Definition valid_id (z : Z) : Prop := 0 <= z \/ z = noLayer \/ z = ComponentLayer.
