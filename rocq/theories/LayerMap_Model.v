(** ELayerMap: a boost::bimap between layer ids. *)
From Verif Require Import Base.
Local Open Scope Z_scope.

(** src/basic/ECadDef.h – reserved layer ids *)
Definition noLayer : Z := -1.
Definition ComponentLayer : Z := -10.

(** src/design/ELayerMap.h:9 – [boost::bimap<ELayerId, ELayerId>]: both views are ordered sets; the list is
    kept in the order of the left view. *)
Definition lmap := list (Z * Z).

Fixpoint sorted_insert (p : Z * Z) (m : lmap) : lmap :=
  match m with
  | [] => [p]
  | q :: m' => if fst p <? fst q then p :: q :: m' else q :: sorted_insert p m'
  end.

(** ELayerMap.cpp:52-55 – SetMapping: bimap insertion, refused if either side is present. *)
Definition set_mapping (p : Z * Z) (m : lmap) : lmap :=
  if existsb (fun q => (fst q =? fst p) || (snd q =? snd p)) m then m else sorted_insert p m.

(** ELayerMap.cpp:26-31 *)
Definition lm_new : lmap := set_mapping (ComponentLayer, ComponentLayer) (set_mapping (noLayer, noLayer) []).

(** ELayerMap.cpp:75-79 – GetMappingForward *)
Definition forward (m : lmap) (x : Z) : Z :=
  match find (fun q => fst q =? x) m with Some q => snd q | None => noLayer end.

(** ELayerMap.cpp:81-85 – GetMappingBackward *)
Definition backward (m : lmap) (y : Z) : Z :=
  match find (fun q => snd q =? y) m with Some q => fst q | None => noLayer end.

(** ELayerMap.cpp:57-64 – MappingLeft *)
Definition mapping_left (m other : lmap) : lmap :=
  fold_left (fun acc q => set_mapping (forward other (fst q), snd q) acc) m [].

(** ELayerMap.cpp:66-73 – MappingRight *)
Definition mapping_right (m other : lmap) : lmap :=
  fold_left (fun acc q => set_mapping (fst q, forward other (snd q)) acc) m [].

(** a history of SetMapping calls on a new layer map *)
Definition lm_run (calls : list (Z * Z)) : lmap := fold_left (fun m p => set_mapping p m) calls lm_new.
