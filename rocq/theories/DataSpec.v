(** Vocabulary for the statements about datasets; independent of the model's helpers. *)
From Coq Require Import List Arith ZArith Bool.
From Verif Require Import PyBase DataModel.
Import ListNotations.

Section Spec.
  Context {V : Type}.
  Implicit Types d : expdata V.

  (** unit [j] of a dataset: its covariate row, its exposure, its response *)
  Definition unit_of d (j : nat)
    : option (list V) * option (option (list V)) * option (option (list V)) :=
    (match dcov d with Some c => nth_error (arows c) j | None => None end,
     option_map (fun a => nth_error (arows a) j) (dexp d),
     option_map (fun a => nth_error (arows a) j) (drsp d)).

  Definition units d := map (unit_of d) (seq 0 (n_units d)).

  Definition present_len (a : option (arr V)) (n : nat) : Prop :=
    match a with None => True | Some x => length (arows x) = n end.

  (** a dataset whose covariates exist, whose present fields all have [n_units] rows and
      whose [n_features] is the second dimension (1 for a vector) *)
  Definition aligned d : Prop :=
    exists c, dcov d = Some c /\ length (arows c) = n_units d /\
      n_features d = match atail c with [] => 1 | f :: _ => f end /\
      present_len (dexp d) (n_units d) /\ present_len (drsp d) (n_units d).

  (** same trailing shape and presence of every field, same number of features *)
  Definition same_shape d d' : Prop :=
    option_map atail (dcov d) = option_map atail (dcov d') /\
    option_map atail (dexp d) = option_map atail (dexp d') /\
    option_map atail (drsp d) = option_map atail (drsp d') /\
    n_features d = n_features d'.

  (** covariates are an (n, f) matrix *)
  Definition matrix (f : nat) d : Prop :=
    exists c, dcov d = Some c /\ atail c = [f] /\ Forall (fun r => length r = f) (arows c).

  (** covariates are a vector *)
  Definition vector d : Prop :=
    exists c, dcov d = Some c /\ atail c = [] /\ Forall (fun r => length r = 1) (arows c).

  Definition in_range (f : nat) (z : Z) : Prop := (- Z.of_nat f <= z < Z.of_nat f)%Z.

  (** [row'] lists the entries of [row] at the positions [idx], negative from the end *)
  Definition picks (f : nat) (idx : list Z) (row row' : list V) : Prop :=
    length row' = length idx /\
    forall j z, nth_error idx j = Some z ->
      nth_error row' j = nth_error row (Z.to_nat (if (z <? 0)%Z then Z.of_nat f + z else z)).

  (** rows of an optional field, one below the other *)
  Definition stacked (mine new out : option (arr V)) : Prop :=
    match mine with
    | None => out = None
    | Some a => exists b, new = Some b /\ atail a = atail b /\
                          out = Some (mkArr (atail a) (arows a ++ arows b))
    end.

  Definition stackable (mine new : option (arr V)) : Prop :=
    match mine with
    | None => True
    | Some a => exists b, new = Some b /\ atail a = atail b
    end.
  Variable vnone : V.
  (** appending a list of batches one after the other *)
  Fixpoint append_all (d : expdata V) (bs : list (expdata V)) : expdata V * option exn :=
    match bs with
    | [] => (d, None)
    | b :: bs => match append vnone d b with
                 | (d', None) => append_all d' bs
                 | r => r end
    end.
End Spec.
