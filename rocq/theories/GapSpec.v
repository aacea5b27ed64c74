(** Vocabulary for the number of rounds in terms of the gaps between the arms. *)
From Coq Require Import List Arith ZArith Reals Bool.
From Flocq Require Import Core BinarySingleNaN.
From Verif Require Import PyBase Num NumLemmas BanditModel BanditSpec PacSpec.
Import ListNotations.
Open Scope nat_scope.

(** a proper finite interval of width at most [w] around both [x] and the estimate *)
Definition tight (x w : R) (r : reading) : Prop :=
  is_finite (r_lcb r) = true /\ is_finite (r_ucb r) = true /\ is_finite (r_var r) = true /\
  (B2R (r_lcb r) < B2R (r_ucb r))%R /\
  (B2R (r_lcb r) <= x <= B2R (r_ucb r))%R /\
  (B2R (r_lcb r) <= B2R (r_var r) <= B2R (r_ucb r))%R /\
  (B2R (r_ucb r) - B2R (r_lcb r) <= w)%R.

(** everything recorded is tight: [v j] is the true value of arm [j] and [W j n] bounds the width
    of its interval after the [n]-th round with samples for it *)
Definition accurate {A G} (v : nat -> R) (W : nat -> nat -> R) (s : bstate (A := A) (G := G)) : Prop :=
  forall j t r, recorded s j t = Some r -> tight (v j) (W j (pulls s j t)) r.

(** no two arms ever share a bound or an estimate *)
Definition untied {A G} (s : bstate (A := A) (G := G)) : Prop :=
  forall t j k rj rk, j <> k -> recorded s j t = Some rj -> recorded s k t = Some rk ->
    (B2R (r_lcb rj) <> B2R (r_lcb rk) /\ B2R (r_ucb rj) <> B2R (r_ucb rk) /\ B2R (r_var rj) <> B2R (r_var rk))%R.

(** arm [b] of [K] has the smallest value, and no other arm has it *)
Definition unique_best (K : nat) (v : nat -> R) (b : nat) : Prop :=
  b < K /\ forall j, j < K -> j <> b -> (v b < v j)%R.

(** samples drawn for arm [j] in the whole run *)
Definition arm_samples {A G} (s : bstate (A := A) (G := G)) (j : nat) : nat :=
  match nth_error (b_smp s) j with Some h => list_sum h | None => 0 end.

(** the run has not raised, and [s] is the state it ended in *)
Definition settled {S R} (o : outcome S R) (s : S) : Prop :=
  o = OutOfFuel s \/ exists r, o = Returned r s.

(** the sum of [f] over the arms except [b] *)
Definition others (K b : nat) (f : nat -> nat) : nat :=
  list_sum (map (fun j => if j =? b then 0 else f j) (seq 0 K)).
Definition total_of (K : nat) (f : nat -> nat) : nat := list_sum (map f (seq 0 K)).

(** successive elimination: after round [N] the widths are too small for arm [j] to stay *)
Definition far (K : nat) (v : nat -> R) (W : nat -> nat -> R) (b j N : nat) : Prop :=
  forall k k', k < K -> k' < K -> (W j N + W k N + W k' N <= v j - v b)%R.

(** the tolerance is a finite number that is not negative *)
Definition tol_ok (cfg : config) : Prop := is_finite (c_error_tol cfg) = true /\ (0 <= B2R (c_error_tol cfg))%R.

(** uniform sampling: after round [N] the intervals of [b] and [j] are separated *)
Definition apart (cfg : config) (v : nat -> R) (W : nat -> nat -> R) (b j N : nat) : Prop :=
  (W b N + W j N + 2 * B2R (c_error_tol cfg) < v j - v b)%R.

(** LUCB: width [wd] of arm [x] is less than half of its gap to the best arm [b] (for [b] itself:
    of the smallest gap), with room for the tolerance *)
Definition narrow (cfg : config) (K : nat) (v : nat -> R) (b x : nat) (wd : R) : Prop :=
  forall j, j < K -> j <> b -> (x = b \/ x = j) -> (2 * (wd + B2R (c_error_tol cfg)) < v j - v b)%R.
