(** Vocabulary for the probability that a bandit run returns a wrong arm. *)
From Coq Require Import List Arith ZArith Reals Bool.
From Flocq Require Import Core BinarySingleNaN.
From Verif Require Import PyBase Num NumLemmas BanditModel BanditSpec.
Import ListNotations.
Open Scope nat_scope.

(** [P E p]: the event [E] has probability at most [p]. Only monotonicity and the union bound are
    required, so every probability measure qualifies. *)
Record upper {Om : Type} (P : (Om -> Prop) -> R -> Prop) : Prop := mkUpper {
  up_mono : forall (E E' : Om -> Prop) p q, (forall x, E x -> E' x) -> (p <= q)%R -> P E' p -> P E q;
  up_none : P (fun _ => False) 0%R;
  up_union : forall (E E' : Om -> Prop) p q, P E p -> P E' q -> P (fun x => E x \/ E' x) (p + q)%R }.

(** a proper interval around [x] *)
Definition covers (r : reading) (x : R) : Prop := good_interval r /\ in_interval r x.

(** some interval recorded for arm [j] does not contain [x] *)
Definition misses {A G} (s : bstate (A := A) (G := G)) (j : nat) (x : R) : Prop :=
  exists t r, recorded s j t = Some r /\ ~ covers r x.

(** arm [j] was sampled in round [t]; the number of rounds up to [t] in which it was *)
Definition sampled {A G} (s : bstate (A := A) (G := G)) (j t : nat) : bool :=
  match recorded_samples s j t with Some (S _) => true | _ => false end.
Definition pulls {A G} (s : bstate (A := A) (G := G)) (j t : nat) : nat :=
  length (filter (sampled s j) (seq 0 (S t))).

(** the interval recorded in the [n]-th round with samples for arm [j] does not contain [x] *)
Definition misses_at {A G} (s : bstate (A := A) (G := G)) (j n : nat) (x : R) : Prop :=
  exists t r, sampled s j t = true /\ pulls s j t = n /\ recorded s j t = Some r /\ ~ covers r x.

(** exactly one arm was returned, and it is better than each of the others by [margin] *)
Definition best_by (margin : R) (K : nat) (v : nat -> R) (best : list nat) : Prop :=
  exists i, best = [i] /\ i < K /\ forall j, j < K -> j <> i -> (v i + margin <= v j)%R.

Fixpoint sum_upto (f : nat -> R) (n : nat) : R :=
  match n with O => 0%R | S m => (sum_upto f m + f n)%R end.

(** random bandits: everything a run gets may depend on the outcome of a random experiment *)
Section Events.
  Context {Om A D G : Type} (alg : algorithm) (ops : arm_ops A D G) (w : Om -> world D G) (cfg : config) (fuel : nat)
    (all : Om -> option D) (arms : Om -> list A) (g : Om -> G) (K : nat) (v : nat -> R).
  Definition run_at (x : Om) := run alg ops (w x) cfg fuel (all x) (arms x) (g x).
  Definition ever_misses (j : nat) (x : Om) : Prop := exists best s, run_at x = Returned best s /\ misses s j (v j).
  Definition misses_nth (j n : nat) (x : Om) : Prop := exists best s, run_at x = Returned best s /\ misses_at s j n (v j).
  (** the run returned before the sample limit, but not the best arm *)
  Definition wrong (margin : R) (x : Om) : Prop := exists best s,
    run_at x = Returned best s /\ ~ exceeds (b_total s) (c_limit cfg) /\ ~ best_by margin K v best.
End Events.

(** error_tol separates the arms for the uniform algorithm and for LUCB only *)
Definition margin_of (alg : algorithm) (cfg : config) : R :=
  match alg with SE => 0%R | _ => B2R (c_error_tol cfg) end.

(** finitely many outcomes with weights *)
Definition mass (ws : list R) (b : nat -> bool) : R :=
  fold_right (fun i acc => ((if b i then nth i ws 0 else 0) + acc)%R) 0%R (seq 0 (length ws)).
Definition weighted (ws : list R) (E : nat -> Prop) (p : R) : Prop :=
  exists b, (forall i, E i -> b i = true) /\ (mass ws b <= p)%R.
