(** Vocabulary for the statements about plots of bandit results. *)
From Coq Require Import String List Arith ZArith Bool.
From Verif Require Import PyBase Num BanditModel BanditSpec PlotModel.
Import ListNotations.

(** [ys] are the values of [sel] that the run recorded for arm [i] from round [k] on, and [xs]
    the cumulative numbers of samples of the same rounds *)
Definition curve {A G} (s : bstate (A := A) (G := G)) (k i : nat) (sel : reading -> F) (xs : list nat) (ys : list F) : Prop :=
  length xs = length (b_cum s) - k /\ length ys = length (b_cum s) - k /\
  forall t, t < length (b_cum s) - k ->
    nth_error xs t = nth_error (b_cum s) (k + t) /\
    exists r, recorded s i (k + t) = Some r /\ nth_error ys t = Some (sel r).

(** the four marks of one arm: the estimate with the arm's name, both bounds in the same
    colour for every arm, and the band between the bounds *)
Definition arm_marks {A G} (s : bstate (A := A) (G := G)) (names : list string) (k i : nat) (ms : list mark) : Prop :=
  exists name xs mid lo hi, nth_error names i = Some name /\
    curve s k i r_var xs mid /\ curve s k i r_lcb xs lo /\ curve s k i r_ucb xs hi /\
    ms = [Line xs mid (Some name) None; Line xs lo None (Some ("tab:blue"%string, flit 1 10));
          Line xs hi None (Some ("tab:blue"%string, flit 1 10)); Band xs lo hi (flit 2 10)].

(** the first round that is drawn of a run of [rounds] rounds: all rounds for None, the rounds
    from [z] on, or the last [-z] rounds for a negative [z] *)
Definition first_drawn (rounds : nat) (k : option Z) : nat :=
  match k with
  | None => 0
  | Some z => if (0 <=? z)%Z then Z.to_nat z else Z.to_nat (Z.max 0 (Z.of_nat rounds + z))
  end.

(** numbers that grow by at least [d] *)
Definition grows (d : nat) (l : list nat) : Prop :=
  forall t a b, nth_error l t = Some a -> nth_error l (S t) = Some b -> a + d <= b.

(** the entry in row [i] and column [j] *)
Definition cell {X} (rows : list (list X)) (i j : nat) : option X :=
  match nth_error rows i with Some r => nth_error r j | None => None end.
(** an n x n table *)
Definition square {X} (n : nat) (rows : list (list X)) : Prop := length rows = n /\ Forall (fun r => length r = n) rows.
