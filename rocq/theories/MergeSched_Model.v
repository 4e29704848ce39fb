(** Merging the layers of a layout in parallel.  src/utility/ELayoutPolygonMerger.cpp 100-122

    [M] is the state of the merger of one layer, [turn per] one step of generic's PolygonMergeRunner with [per] threads on it,
    [None] when it is finished.  generic's ThreadPool is a queue from which at most [threads] workers take tasks; its
    destructor, at the end of the block, returns when the queue is empty and no worker is busy.  Steps of different layers may
    come in any order; a step of a layer reads and writes the merger of that layer only. *)
From Verif Require Import Base.
Open Scope nat_scope.

Section Sched.
  Context {M : Type} (turn : nat -> M -> option M).

  (** 118: the threads of one runner *)
  Definition per_layer (by_layer : bool) (threads : nat) : nat := if by_layer then 1 else threads.

  (** 119-120: Run *)
  Fixpoint run_layer (per fuel : nat) (m : M) : res M :=
    match fuel with
    | 0 => OutOfFuel
    | S f => match turn per m with Some m' => run_layer per f m' | None => Ok m end
    end.

  (** 107-110 *)
  Fixpoint run_layers (per fuel : nat) (ms : list M) : res (list M) :=
    match ms with
    | [] => Ok []
    | m :: r => match run_layer per fuel m with
                | Ok m' => match run_layers per fuel r with Ok r' => Ok (m' :: r') | UB => UB | Throw => Throw | OutOfFuel => OutOfFuel end
                | UB => UB | Throw => Throw | OutOfFuel => OutOfFuel
                end
    end.

  (** 102-106: the pool, with the positions of the mergers that wait and of those being worked on *)
  Record pool := mkPool { waiting : list nat; running : list nat; store : list M }.
  Definition submitted (ms : list M) : pool := mkPool (seq 0 (List.length ms)) [] ms.

  Fixpoint replace (i : nat) (m : M) (ms : list M) : list M :=
    match ms with
    | [] => []
    | x :: r => match i with 0 => m :: r | S j => x :: replace j m r end
    end.

  (** a worker takes the next task, or the worker of layer [i] makes a step *)
  Inductive event := Take | Move (i : nat).
  Definition pool_step (threads per : nat) (e : event) (p : pool) : option pool :=
    match e with
    | Take => match waiting p with
              | [] => None
              | i :: r => if List.length (running p) <? threads then Some (mkPool r (i :: running p) (store p)) else None
              end
    | Move i => if existsb (Nat.eqb i) (running p) then
                  match nth_error (store p) i with
                  | None => None
                  | Some m => match turn per m with
                              | Some m' => Some (mkPool (waiting p) (running p) (replace i m' (store p)))
                              | None => Some (mkPool (waiting p) (remove Nat.eq_dec i (running p)) (store p))
                              end
                  end
                else None
    end.
  Fixpoint pool_run (threads per : nat) (es : list event) (p : pool) : option pool :=
    match es with
    | [] => Some p
    | e :: r => match pool_step threads per e p with Some q => pool_run threads per r q | None => None end
    end.

  Definition idle (p : pool) : bool := match waiting p, running p with [], [] => true | _, _ => false end.

  (** MergeLayers, 100-111; [es] is the schedule of the pool, which must lead to an idle pool *)
  Definition merge_layers (by_layer : bool) (threads fuel : nat) (es : list event) (ms : list M) : option (res (list M)) :=
    if 1 <? threads then
      match pool_run threads (per_layer by_layer threads) es (submitted ms) with
      | Some p => if idle p then Some (Ok (store p)) else None
      | None => None
      end
    else Some (run_layers (per_layer by_layer threads) fuel ms).
End Sched.
