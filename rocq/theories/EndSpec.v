(** Vocabulary for the statements about whole runs with the arms of arms.py. *)
From Coq Require Import List Arith ZArith Bool.
From Verif Require Import PyBase Num NumOps DataModel DataSpec BanditModel BanditSpec ArmModel ArmSpec PacSpec EndModel.
Import ListNotations.
Open Scope nat_scope.

(** number of the first [n] rounds in which arm [j] was sampled; [pulls s j t] is [sampled_rounds s j (S t)] *)
Definition sampled_rounds {A G} (s : bstate (A := A) (G := G)) (j n : nat) : nat :=
  length (filter (sampled s j) (seq 0 n)).

(** [n] updates in [p] rounds with samples: one each, but LUCB may draw the same arm twice *)
Definition matches (alg : algorithm) (n p : nat) : Prop := p <= n <= 2 * p /\ (alg <> LUCB -> n = p).

Section Source.
  Context {A D G : Type} (ops : arm_ops A D G) (w : world D G) (cfg : config) (all : option D) (Inv : nat -> nat -> A -> Prop).
  (** [d] can be what an arm [a] that was updated [n] times gets next: drawn from the model, or rows of the
      pre-drawn data, starting at its own unit count or at that of the first arm *)
  Definition next_data (n : nat) (a : A) (d : D) : Prop := exists st g g',
    get_data w cfg all st g = (Ok d, g') /\
    (all = None \/ st = a_units ops a \/ (exists a0, Inv 0 n a0 /\ st = a_units ops a0) \/ (n = 0 /\ st = 0)).
End Source.
