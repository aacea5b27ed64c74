(** Vocabulary for the statements about the subclasses of AIPW. *)
From Coq Require Import List Arith ZArith Reals Bool Permutation.
From Verif Require Import PyBase NumOps DataModel TabSpec ArmModel ParamModel ParamSpec ParamSpec2 LinModel.
Import ListNotations.
Open Scope nat_scope.

(** the actions that call fit, reset, or set_to_truth *)
Definition is_fit {N} (a : action N) : bool := match a with Fit _ => true | _ => false end.
Definition is_reset {N} (a : action N) : bool := match a with Reset => true | _ => false end.
Definition is_truth {N} (a : action N) : bool := match a with Truth _ => true | _ => false end.

(** 0 and 1 are different numbers *)
Definition tells_apart {N} (o : numops N) : Prop :=
  neqb o (nint o 0) (nint o 1) = false /\ neqb o (nint o 1) (nint o 0) = false.

(** the state of a parameter after some actions *)
Definition after {N S} (m : methods N S) (s : S) (l : list (action N)) : S := fst (acts m s l).

Open Scope R_scope.
(** ** ridge regression with weight 1 and without intercept *)
Definition dot (a b : list R) : R := rsum (map2 Rmult a b).
Definition norm2 (a : list R) : R := dot a a.
(** a training set: rows and labels *)
Definition ridge_loss (data : list (list R * R)) (t : list R) : R :=
  rsum (map (fun p => (snd p - dot t (fst p)) ^ 2) data) + norm2 t.
Definition is_ridge (k : nat) (data : list (list R * R)) (t : list R) : Prop :=
  length t = k /\ forall t', length t' = k -> ridge_loss data t <= ridge_loss data t'.
(** labels that are a linear function of the rows *)
Definition noiseless (k : nat) (data : list (list R * R)) (t : list R) : Prop :=
  length t = k /\ Forall (fun p => length (fst p) = k /\ snd p = dot t (fst p)) data.
(** total squared error of the predictions of [t] *)
Definition squared_error (data : list (list R * R)) (t : list R) : R :=
  rsum (map (fun p => (snd p - dot t (fst p)) ^ 2) data).
(** the rows vary by [lam] in every direction *)
Definition spread (k : nat) (data : list (list R * R)) (lam : R) : Prop :=
  forall u, length u = k -> lam * norm2 u <= rsum (map (fun p => (dot u (fst p)) ^ 2) data).

(** a unit as a training row: exposure and covariates *)
Definition unit_row (a : atom) : list R * R := (b2r (a_x a) :: a_z a, a_y a).
(** a solver that computes ridge regression on a training set *)
Definition solves_ridge (solve : arr X -> list X -> res (list X)) (k : nat) (data : list (list R * R)) : Prop :=
  exists t, solve (mkArr [k] (map (fun p => map Fin (fst p)) data)) (map (fun p => Fin (snd p)) data) = Ok (map Fin t)
    /\ is_ridge k data t.
