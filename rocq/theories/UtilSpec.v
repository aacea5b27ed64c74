(** Vocabulary for the utilities: what softmax, random functions and single-arm runs should be. *)
From Coq Require Import List Arith ZArith Reals Bool.
From Verif Require Import PyBase Num NumLemmas NumOps DataModel TabSpec UtilModel.
Import ListNotations.

(** softmax in real numbers: weights proportional to exp *)
Definition gibbs (xs : list R) (x : R) : R := (exp x / rsum (map exp xs))%R.

(** what is assumed of the float exponential: on arguments <= 0 it is a number between 0 and 1,
    and at 0 it is 1 *)
Definition exp_sane (lib : libm) : Prop :=
  forall x, num x -> (fkey x <= 0)%R ->
    num (m_exp lib x) /\ (0 <= fkey (m_exp lib x) <= 1)%R /\ (fkey x = 0%R -> fkey (m_exp lib x) = 1%R).

(** an array all columns of which coincide *)
Definition equal_columns {V} (k : nat) (a : arr V) : Prop :=
  atail a = [k] /\ Forall (fun r => exists v, r = repeat v k) (arows a).

(** k rounds of "draw [inc] samples, update with error [delta]" by the arm [a] in state [g],
    and what the arm shows after each *)
Inductive rounds {N V A G} (b : bench N V A G) (inc : Z) (delta : N) : nat -> A -> G -> list A -> A -> G -> Prop :=
| rounds_none a g : rounds b inc delta 0 a g [] a g
| rounds_next k a g d g1 a2 g2 seen a' g' :
    bn_generate b inc g = (Ok d, g1) -> bn_update b a d delta g1 = ((a2, g2), None) ->
    rounds b inc delta k a2 g2 seen a' g' -> rounds b inc delta (S k) a g (a2 :: seen) a' g'.

(** the number of rounds needed to reach [max] in steps of [inc]: the least k with max <= k*inc *)
Definition rounds_needed (max inc : Z) (k : nat) : Prop :=
  (max <= Z.of_nat k * inc)%Z /\ forall j, (j < k)%nat -> (Z.of_nat j * inc < max)%Z.
