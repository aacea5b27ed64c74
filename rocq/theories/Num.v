(** IEEE-754 binary64 numbers (Python float / numpy float64), bit exact, via
    Flocq's [BinarySingleNaN] (one NaN), rounding to nearest even. *)
From Coq Require Import ZArith Reals Bool List Lia Lra.
From Flocq Require Import Core BinarySingleNaN.
From Verif Require Import PyBase.
Import ListNotations.

Lemma prec_gt_0_53 : Prec_gt_0 53. Proof. reflexivity. Qed.
Lemma prec_lt_emax_53 : Prec_lt_emax 53 1024. Proof. reflexivity. Qed.
#[global] Existing Instance prec_gt_0_53.
#[global] Existing Instance prec_lt_emax_53.

Definition F : Set := binary_float 53 1024.
Definition fadd : F -> F -> F := Bplus mode_NE.
Definition fsub : F -> F -> F := Bminus mode_NE.
Definition fmul : F -> F -> F := Bmult mode_NE.
Definition fdiv : F -> F -> F := Bdiv mode_NE.
Definition fsqrt : F -> F := Bsqrt mode_NE.
Definition fltb : F -> F -> bool := Bltb.
Definition fleb : F -> F -> bool := Bleb.
Definition feqb : F -> F -> bool := Beqb.
Definition finf : F := B754_infinity false.
Definition fninf : F := B754_infinity true.
Definition fnan : F := B754_nan.
Definition f0 : F := B754_zero false.
(** conversion of a Python int (bandits.py:242: error_prob / len(arms)) *)
Definition f_of_Z (z : Z) : F :=
  binary_normalize 53 1024 prec_gt_0_53 prec_lt_emax_53 mode_NE z 0 false.
Definition f_of_nat (n : nat) : F := f_of_Z (Z.of_nat n).
(** decimal literal p/q, e.g. .05 (bandits.py:107): the correctly rounded quotient *)
Definition flit (p : Z) (q : positive) : F := fdiv (f_of_Z p) (f_of_Z (Zpos q)).
Definition fisnan (x : F) : bool := is_nan x.
Definition fisinf (x : F) : bool :=
  match x with B754_infinity _ => true | _ => false end.

(** [np.argmin] (bandits.py:164): index of the first NaN if there is one, else of the first minimum. *)
Fixpoint argmin_from (l : list F) (i : nat) (best : F) (ibest : nat) : nat :=
  match l with
  | [] => ibest
  | x :: xs =>
      if fisnan best then ibest
      else if fisnan x || fltb x best then argmin_from xs (S i) x i
           else argmin_from xs (S i) best ibest
  end.
Definition np_argmin (l : list F) : res nat :=
  match l with [] => Err ValueError | x :: xs => Ok (argmin_from xs 1 x 0) end.
