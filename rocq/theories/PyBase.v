(** Python basics shared by all parts of the model. *)
From Coq Require Import List Arith ZArith Lia Bool.
Import ListNotations.

(** The Python exceptions that the modelled code can raise (explicitly, e.g. data.py:344,
    scm.py:68, bandits.py:117, or from the operations used). *)
Inductive exn : Type :=
| ValueError | TypeError | AttributeError | IndexError | KeyError
| ZeroDivisionError | NameError | RecursionError | AxisError | OverflowError
| OracleError.  (* any exception raised by third-party or user-supplied code *)

(** A computation that returns or raises. *)
Inductive res (X : Type) : Type :=
| Ok (x : X)
| Err (e : exn).
Arguments Ok {X} x.
Arguments Err {X} e.

(** sequencing: an exception skips the rest (Python semantics of every modelled body) *)
Definition bind {X Y} (r : res X) (k : X -> res Y) : res Y :=
  match r with Ok x => k x | Err e => Err e end.
Notation "'do' x <- r ; k" := (bind r (fun x => k))
  (at level 200, x name, r at level 100, k at level 200, right associativity).

(** [map] with a computation that may raise: left to right, first error wins; list
    comprehensions such as bandits.py:191-193, scm.py:91. *)
Fixpoint mapM {X Y} (f : X -> res Y) (l : list X) : res (list Y) :=
  match l with
  | [] => Ok []
  | x :: xs => do y <- f x; do ys <- mapM f xs; Ok (y :: ys)
  end.

(** Python's builtin [min(iterable)]/[max(iterable)] for a comparison [lt]:
    keeps the first element and replaces it only when a later one compares
    strictly smaller (larger); ValueError on an empty iterable. With NaN in the
    list the result depends on the order, exactly as in Python (bandits.py:159, 170, 393, 403,
    407, 521, 523; parameters.py:391, 657). *)
Section MinMax.
  Context {X : Type} (lt : X -> X -> bool).
  (** one comparison of min and of max (bandits.py:159, 403) *)
  Definition min_step (cur x : X) : X := if lt x cur then x else cur.
  Definition max_step (cur x : X) : X := if lt cur x then x else cur.
  (** min(l), max(l) (bandits.py:159, 403) *)
  Definition py_min (l : list X) : res X :=
    match l with [] => Err ValueError | x :: xs => Ok (fold_left min_step xs x) end.
  Definition py_max (l : list X) : res X :=
    match l with [] => Err ValueError | x :: xs => Ok (fold_left max_step xs x) end.
  (** two-argument [max(a, b)] (arms.py:252, 272, 277) *)
  Definition py_max2 (a b : X) : X := max_step a b.
End MinMax.

(** Selecting the positions where a mask is true
    ([[a for (a, m) in zip(l, mask) if m]], and [array[mask]]; bandits.py:183, 403, 407). *)
Fixpoint select {X} (mask : list bool) (l : list X) : list X :=
  match mask, l with
  | b :: bs, x :: xs => if b then x :: select bs xs else select bs xs
  | _, _ => []
  end.

(** [l[i] = f(l[i])]: the update of one arm in the list of arms (bandits.py:358, 502) *)
Fixpoint modify {X} (i : nat) (f : X -> X) (l : list X) : list X :=
  match l, i with
  | [], _ => []
  | x :: xs, O => f x :: xs
  | x :: xs, S j => x :: modify j f xs
  end.

(** elementwise on zip(l, m) (bandits.py:183; numpy arithmetic on equal lengths, data.py:283) *)
Fixpoint map2 {X Y Z} (f : X -> Y -> Z) (l : list X) (m : list Y) : list Z :=
  match l, m with
  | x :: xs, y :: ys => f x y :: map2 f xs ys
  | _, _ => []
  end.

(** Generic "while True" loop (bandits.py:232, 342, 487; test_utils.py:65): one iteration either
    continues, returns or raises. *)
Inductive step (S R : Type) : Type :=
| Continue (s : S)
| Finish (r : R) (s : S)
| Fail (e : exn) (s : S).
Arguments Continue {S R} s.
Arguments Finish {S R} r s.
Arguments Fail {S R} e s.

Inductive outcome (S R : Type) : Type :=
| Returned (r : R) (s : S)
| Raised (e : exn) (s : S)
| OutOfFuel (s : S).
Arguments Returned {S R} r s.
Arguments Raised {S R} e s.
Arguments OutOfFuel {S R} s.

Fixpoint loop {S R} (fuel : nat) (body : S -> step S R) (s : S) : outcome S R :=
  match fuel with
  | O => OutOfFuel s
  | Datatypes.S n =>
      match body s with
      | Continue s' => loop n body s'
      | Finish r s' => Returned r s'
      | Fail e s' => Raised e s'
      end
  end.
