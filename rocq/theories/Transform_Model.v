(** ETransform2D.  Floating point numbers are idealised as rationals; cosine and sine are arbitrary functions
    of the angle (section parameters).  The 3x3 matrices of the external geometry library are modelled as
    affine maps. *)
From Verif Require Import Base.
From Coq Require Export QArith.
Local Open Scope Q_scope.

Definition pt : Type := (Q * Q)%type.

(** x' = a11 x + a12 y + a13, y' = a21 x + a22 y + a23 *)
Record aff := mkAff { a11 : Q; a12 : Q; a13 : Q; a21 : Q; a22 : Q; a23 : Q }.

Definition aff_id : aff := mkAff 1 0 0 0 1 0.

(** matrix product (m * n): first n, then m *)
Definition aff_mul (m n : aff) : aff :=
  mkAff (a11 m * a11 n + a12 m * a21 n) (a11 m * a12 n + a12 m * a22 n) (a11 m * a13 n + a12 m * a23 n + a13 m)
        (a21 m * a11 n + a22 m * a21 n) (a21 m * a12 n + a22 m * a22 n) (a21 m * a13 n + a22 m * a23 n + a23 m).

Definition aff_apply (m : aff) (p : pt) : pt :=
  (a11 m * fst p + a12 m * snd p + a13 m, a21 m * fst p + a22 m * snd p + a23 m).

(** src/basic/ETransform.h:8 *)
Inductive mirror2d := MNo | MX | MY | MXY.

(** ETransform.h:10-17 *)
Record tdata := mkTD { td_scale : Q; td_rot : Q; td_mirror : mirror2d; td_off : Q * Q }.
Definition td_default : tdata := mkTD 1 0 MNo (0, 0).

(** ETransform.h:19-23; the library's tolerant comparison is idealised to exact comparison *)
Definition is_scaled (d : tdata) : bool := negb (Qeq_bool (td_scale d) 1).
Definition is_rotated (d : tdata) : bool := negb (Qeq_bool (td_rot d) 0).
Definition is_mirrored (d : tdata) : bool := match td_mirror d with MNo => false | _ => true end.
Definition is_offsetted (d : tdata) : bool := negb (Qeq_bool (fst (td_off d)) 0 && Qeq_bool (snd (td_off d)) 0).
Definition is_transformed (d : tdata) : bool := is_scaled d || is_rotated d || is_mirrored d || is_offsetted d.

Section Transform.
  Context (cosQ sinQ : Q -> Q).

  (** the library's elementary transforms *)
  Definition mk_scale (s : Q) : aff := mkAff s 0 0 0 s 0.
  Definition mk_rotate (r : Q) : aff := mkAff (cosQ r) (- sinQ r) 0 (sinQ r) (cosQ r) 0.
  Definition mk_mirror (m : mirror2d) : aff :=
    match m with
    | MNo => aff_id
    | MX => mkAff 1 0 0 0 (-1) 0
    | MY => mkAff (-1) 0 0 0 1 0
    | MXY => mkAff (-1) 0 0 0 (-1) 0
    end.
  Definition mk_shift (o : Q * Q) : aff := mkAff 1 0 (fst o) 0 1 (snd o).

  (** ETransform.h:25-34 – GetTransform of one item *)
  Definition td_transform (d : tdata) : aff :=
    let t := aff_id in
    let t := if is_scaled d then aff_mul (mk_scale (td_scale d)) t else t in
    let t := if is_rotated d then aff_mul (mk_rotate (td_rot d)) t else t in
    let t := if is_mirrored d then aff_mul (mk_mirror (td_mirror d)) t else t in
    let t := if is_offsetted d then aff_mul (mk_shift (td_off d)) t else t in
    t.

  (** ETransform.h:117-119 – the item sequence (oldest first) and the cached matrix *)
  Record transform := mkT { t_seq : list tdata; t_cache : option aff }.

  (** ETransform.h:65 *)
  Definition t_new : transform := mkT [td_default] None.

  (** ETransform.h:106-114 – the loop of GetTransform *)
  Definition seq_transform (l : list tdata) : aff :=
    fold_left (fun t d => if is_transformed d then aff_mul (td_transform d) t else t) l aff_id.

  (** ETransform.h:104-116 – GetTransform and its effect on the cache *)
  Definition get_transform (t : transform) : aff :=
    match t_cache t with Some m => m | None => seq_transform (t_seq t) end.
  Definition read (t : transform) : transform := mkT (t_seq t) (Some (get_transform t)).

  (** ETransform.h:81-91 – the mutable accessors reset the cache and edit the last item ([back()] of the
      never empty list). *)
  Fixpoint edit_last (f : tdata -> tdata) (l : list tdata) : list tdata :=
    match l with
    | [] => []
    | [d] => [f d]
    | d :: l' => d :: edit_last f l'
    end.
  Definition edit (f : tdata -> tdata) (t : transform) : transform := mkT (edit_last f (t_seq t)) None.

  (** ETransform.h:93-102 – Append of another transform object *)
  Definition append (t u : transform) : transform :=
    match t_cache t with
    | Some m => mkT (t_seq t) (Some (aff_mul (get_transform u) m))
    | None => mkT (t_seq t ++ filter is_transformed (t_seq u)) None
    end.

  (** ETransform.h:93-102 with the object itself as argument: the loop runs over the list it extends.
      [todo] are the items not yet visited. *)
  Fixpoint self_append_loop (fuel : nat) (l todo : list tdata) : res (list tdata) :=
    match fuel with
    | O => OutOfFuel
    | S fuel' =>
        match todo with
        | [] => Ok l
        | d :: todo' =>
            if is_transformed d then self_append_loop fuel' (l ++ [d]) (todo' ++ [d])
            else self_append_loop fuel' l todo'
        end
    end.
  Definition self_append (fuel : nat) (t : transform) : res transform :=
    match t_cache t with
    | Some m => Ok (mkT (t_seq t) (Some (aff_mul m m)))
    | None => bind (self_append_loop fuel (t_seq t) (t_seq t)) (fun l => Ok (mkT l None))
    end.

  (** ETransform.h:54-60 – save, and load into a new object: only the sequence is archived *)
  Definition save (t : transform) : list tdata := t_seq t.
  Definition load (l : list tdata) : transform := mkT l None.

  Inductive t_op :=
  | TRead                               (* GetTransform *)
  | TEdit (f : tdata -> tdata)          (* Scale() = .., Rotation() = .., Mirror() = .., Offset() = .. *)
  | TAppend (u : transform).

  Definition t_step (t : transform) (o : t_op) : transform :=
    match o with TRead => read t | TEdit f => edit f t | TAppend u => append t u end.
  Definition t_run (t : transform) (ops : list t_op) : transform := fold_left t_step ops t.

  (** ETransform.h:122-130 – makeETransform2D *)
  Definition make_transform (s r : Q) (o : Q * Q) (m : mirror2d) : transform :=
    t_run t_new [TEdit (fun d => mkTD s (td_rot d) (td_mirror d) (td_off d));
                 TEdit (fun d => mkTD (td_scale d) r (td_mirror d) (td_off d));
                 TEdit (fun d => mkTD (td_scale d) (td_rot d) (td_mirror d) o);
                 TEdit (fun d => mkTD (td_scale d) (td_rot d) m (td_off d))].
End Transform.
