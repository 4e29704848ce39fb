(** What a Python program may expect of the settings classes, in terms of the C++ objects and their members. *)
From Verif Require Import Base PyApi_Model.
From Coq Require Import Ascii QArith.
Close Scope Q_scope.
Open Scope nat_scope.
Open Scope string_scope.
Open Scope list_scope.

(** A Python name and a C++ name are the same up to underscores and the case of letters: [min_alpha] and [minAlpha]. *)
Definition lower (c : ascii) : ascii :=
  let n := nat_of_ascii c in if Nat.leb 65 n && Nat.leb n 90 then ascii_of_nat (n + 32) else c.
Fixpoint plain (s : string) : string :=
  match s with
  | EmptyString => EmptyString
  | String c s' => if Ascii.eqb c "_"%char then plain s' else String (lower c) (plain s')
  end.
Definition same_spelling (a m : string) : Prop := plain a = plain m.

(** The part of an object the members [p] lead to. *)
Definition member (m : string) (o : cobj) : option cobj :=
  match o with
  | CObj _ ms => option_map snd (List.find (fun e => String.eqb (fst e) m) ms)
  | CVal _ => None
  end.
Fixpoint follow (o : option cobj) (p : list string) : option cobj :=
  match p, o with
  | [], _ => o
  | m :: p', Some o' => follow (member m o') p'
  | _ :: _, None => None
  end.
(** Object number [i] of a program's state. *)
Definition obj (s : state) (i : nat) : option cobj := option_map snd (nth_error (s_objs s) i).
Definition whole (s : state) (i : nat) (p : list string) : option cobj := follow (obj s i) p.

(** Variable [x] stands for what the members [p] of object [i] lead to. *)
Definition stands_for (s : state) (x i : nat) (p : list string) : Prop :=
  exists g, nth_error (s_vars s) x = Some (VRef (Ref i g p)).
(** A reference to extraction settings that have been replaced since. *)
Definition stale (s : state) (x : nat) : Prop :=
  exists i g p, nth_error (s_vars s) x = Some (VRef (Ref i g ("extractionSettings" :: p))) /\
    forall g' o, nth_error (s_objs s) i = Some (g', o) -> g <> g'.

Definition value_of (s : state) (e : arg) (v : cobj) : Prop :=
  match e with
  | ALit l => v = CVal l
  | AVar y => exists i p, stands_for s y i p /\ whole s i p = Some v
  end.

(** One list of members leads into the other. *)
Definition related (p q : list string) : Prop := (exists r, q = p ++ r) \/ (exists r, p = q ++ r).
(** Nothing is different except at the members [p] of object [i] and, inevitably, in what they are part of. *)
Definition only_at (s s' : state) (i : nat) (p : list string) : Prop :=
  forall j q, ~ (j = i /\ related p q) -> whole s' j q = whole s j q.

(** The variable whose object a statement may change. *)
Definition target (t : stmt) : option nat :=
  match t with
  | Set_ x _ _ | Append x _ | AddBlock x _ _ _ | Extract x _ => Some x
  | _ => None
  end.
(** Run from [s], none of the statements is applied to a variable that stands for object [i] or a part of it. *)
Section Quiet.
  Context (step : state -> stmt -> res state).
  Fixpoint quiet (i : nat) (s : state) (ts : list stmt) : Prop :=
    match ts with
    | [] => True
    | t :: ts' =>
        (forall x p, target t = Some x -> ~ stands_for s x i p) /\
        forall s', step s t = Ok s' -> quiet i s' ts'
    end.
End Quiet.

(** Attributes that are objects of their own class and part of the object they are read from. *)
Definition parts : list string :=
  ["top_uniform_bc"; "bot_uniform_bc"; "env_temperature"; "mesh_settings"; "polygon_merge_settings"; "layer_cut_settings"; "mor"; "settings"].
Definition is_object (o : cobj) : Prop := exists c ms, o = CObj c ms.

(** ** New objects *)
(** [y = x.a.b.c]: one attribute after the other, each into a new variable; [n] variables exist before. *)
Fixpoint chain (x n : nat) (l : list string) : list stmt :=
  match l with
  | [] => []
  | a :: l' => Get x a :: chain n (S n) l'
  end.
(** the variable it ends in *)
Definition chain_end (x n : nat) (l : list string) : nat := match l with [] => x | _ => n + List.length l - 1 end.

(** What the attributes of a new object are to be, from the initialisers of src/basic/ECadSettings.h. *)
Definition under (a : string) (l : list (list string * lit)) : list (list string * lit) := map (fun e => (a :: fst e, snd e)) l.
Definition int (z : Z) : lit := Num (inject_Z z).
Section Documented.
  Context (cwd : string) (invalid maxf : Q).
  Definition of_point (x y : Q) : list (list string * lit) := [(["x"], Num x); (["y"], Num y)].
  Definition of_mesh : list (list string * lit) :=
    [(["min_alpha"], int 20); (["min_len"], int 0); (["max_len"], Num maxf); (["tolerance"], int 0)].
  Definition of_prism_mesh : list (list string * lit) :=
    of_mesh ++ [(["iteration"], int 0); (["dump_mesh_file"], Flag false); (["gen_mesh_by_layer"], Flag false);
                (["imprint_upper_layer"], Flag false)].
  Definition of_merge (threads : Z) (nets : list lit) : list (list string * lit) :=
    [(["threads"], int threads); (["out_file"], Text ""); (["mt_by_layer"], Flag true); (["include_padstack_inst"], Flag true);
     (["include_dielectric_layer"], Flag true); (["skip_top_bot_dielectric_layers"], Flag false); (["select_nets"], Seq nets)].
  Definition of_temperature (v : Q) (u : string) : list (list string * lit) := [(["value"], Num v); (["unit"], Text u)].
  Definition of_no_bc : list (list string * lit) := [(["type"], Text "HTC"); (["value"], Num invalid)].
  Definition in_dir (dir : string) : string := match dir with EmptyString => cwd | _ => dir end.
  Definition of_prism (dir : string) (threads : Z) (nets : list lit) : list (list string * lit) :=
    [(["force_rebuild"], Flag false); (["threads"], int threads); (["work_dir"], Text (in_dir dir));
     (["top_block_bc"], Seq []); (["bot_block_bc"], Seq [])] ++
    under "top_uniform_bc" of_no_bc ++ under "bot_uniform_bc" of_no_bc ++
    under "env_temperature" (of_temperature (inject_Z 25) "Celsius") ++
    under "mesh_settings" of_prism_mesh ++ under "polygon_merge_settings" (of_merge threads nets) ++
    under "layer_cut_settings" [(["dump_sketch_img"], Flag true); (["layer_cut_precision"], int 6); (["layer_transition_ratio"], int 2);
                                (["add_circle_center_as_steiner_point"], Flag false); (["imprint_box"], Seq [])].
  Definition of_thermal (threads : Z) : list (list string * lit) :=
    [(["dump_results"], Flag true); (["threads"], int threads)] ++
    under "env_temperature" (of_temperature (inject_Z 25) "Celsius").
  Definition of_static (threads : Z) : list (list string * lit) :=
    of_thermal threads ++
    [(["maximum_res"], Flag true); (["dump_hotmaps"], Flag false); (["dump_matrices"], Flag false); (["residual"], Num (1 # 10));
     (["iteration"], int 10); (["solver_type"], Text "ConjugateGradient")].
  Definition of_transient (threads : Z) : list (list string * lit) :=
    of_thermal threads ++
    [(["verbose"], Flag false); (["adaptive"], Flag true); (["temperature_depend"], Flag true); (["step"], int 1); (["duration"], int 10);
     (["absolute_error"], Num (1 # 1000000)); (["relative_error"], Num (1 # 1000000)); (["min_sampling_interval"], int 0);
     (["sampling_window"], int 0)] ++
    under "mor" [(["order"], int 0); (["rom_load_file"], Text ""); (["rom_save_file"], Text "")].
  Definition of_setup (dir : string) (settings : list (list string * lit)) : list (list string * lit) :=
    [(["work_dir"], Text (in_dir dir)); (["monitors"], Seq [])] ++ under "settings" settings.
  Definition documented (c : ctor) : list (list string * lit) :=
    match c with
    | NPoint x y => of_point x y
    | NBox x1 y1 x2 y2 => under "ll" (of_point x1 y1) ++ under "ur" (of_point x2 y2)
    | NTemperature v u => of_temperature v u
    | NMesh => of_mesh
    | NPrismMesh => of_prism_mesh
    | NMerge t n => of_merge t n
    | NPrism d t n => of_prism d t n
    | NStaticSettings t => of_static t
    | NTransientSettings t => of_transient t
    | NStaticSetup d t n => of_setup d (of_static t)
    | NTransientSetup d t n => of_setup d (of_transient t)
    end.
  (** Those of the extraction settings a new simulation comes with. *)
  Definition documented_extraction (c : ctor) : option (list (list string * lit)) :=
    match c with
    | NStaticSetup d t n | NTransientSetup d t n => Some (of_prism d t n)
    | _ => None
    end.
End Documented.
