(** What the static and transient thermal drivers should do. *)
From Verif Require Import Base QSum Solver_Model.
From Coq Require Import Qabs Qround Sorted.
Open Scope Q_scope.

(** Two temperature fields agree within [eps]: everywhere, or on average. *)
Definition agree (maximum : bool) (eps : Q) (a b : list Q) : Prop :=
  if maximum
  then forall i x y, nth_error a i = Some x -> nth_error b i = Some y -> Qabs (x - y) <= eps
  else sumf (fun p => Qabs (fst p - snd p)) (combine a b) <= eps * inject_Z (Z.of_nat (List.length a)).

(** Every field is computed from the one before it. *)
Fixpoint chained (f : list Q -> option (list Q)) (l : list (list Q)) : Prop :=
  match l with
  | a :: r => match r with b :: _ => f a = Some b /\ chained f r | [] => True end
  | [] => True
  end.

(** Probe values that were stored for the sorted probes, handed back in the order of the request. *)
Definition hand_back {A} (d : A) (stored : list A) (perm : list nat) : list A :=
  map (fun i => nth i stored d) perm.

(** Which of the observed states are recorded: those more than [gap] after the previous record
    (after time zero for the first). *)
Fixpoint recorded (gap last : Q) (l : list (list Q * Q)) : list (list Q * Q) :=
  match l with
  | [] => []
  | (x, t) :: r => if Qltb gap (t - last) then (x, t) :: recorded gap t r else recorded gap last r
  end.

(** Consecutive instants are more than [gap] apart, the first more than [gap] after [last]. *)
Fixpoint spaced (gap last : Q) (ts : list Q) : Prop :=
  match ts with
  | [] => True
  | t :: r => last + gap < t /\ spaced gap t r
  end.

(** What integrations started at [starts] observe, each handing its state to the next. *)
Section Observed.
  Context (integrate : Q -> Q -> list Q -> list (list Q * Q) * list Q * nat) (enter leave : list Q -> list Q).
  Fixpoint observed (len : Q) (starts : list Q) (x : list Q) : list (list Q * Q) :=
    match starts with
    | [] => []
    | t :: r => let '(obs, fin, _) := integrate t len (enter x) in obs ++ observed len r (leave fin)
    end.
End Observed.

Definition in_window (a b : Q) (xt : list Q * Q) : bool := Qle_bool a (snd xt) && Qle_bool (snd xt) b.

(** A sample shows the state [x] at time [t]: [value] of the state, in the user's unit. *)
Definition shows (value : list Q -> res (list Q)) (celsius : bool) (xt : list Q * Q) (s : sample) : Prop :=
  fst s = snd xt /\ exists vs, value (fst xt) = Ok vs /\ snd s = if celsius then map (fun t => t - (27315 # 100)) vs else vs.
