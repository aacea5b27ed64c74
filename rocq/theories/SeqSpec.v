(** Vocabulary for ExpData as a sequence. *)
From Coq Require Import List Arith ZArith Bool.
From Verif Require Import PyBase SeqModel.
Import ListNotations.

(** the position of an entry in C order, and the entry: a[i1, i2, ...] *)
Fixpoint offset (shape idx : list nat) : nat :=
  match shape, idx with
  | _ :: s, i :: l => i * fold_right Nat.mul 1 s + offset s l
  | _, _ => 0
  end.
Definition entry_at {V} (a : nd V) (idx : list nat) : option V := nth_error (nflat a) (offset (nshape a) idx).
(** an index of an array *)
Definition index_of (shape idx : list nat) : Prop := Forall2 (fun n i => i < n) shape idx.

(** as many entries as the shape says *)
Definition well_shaped {V} (a : nd V) : Prop := length (nflat a) = fold_right Nat.mul 1 (nshape a).
(** an array or None with n rows *)
Definition rows_or_none {V} (a : option (nd V)) (n : nat) : Prop :=
  match a with None => True | Some a => exists rest, nshape a = n :: rest end.

(** list(d): any run that ends *)
Definition listed {V} (d : sdata V) (us : list (sdata V)) (e : option exn) : Prop :=
  exists fuel, iter_from fuel d 0 = Some (us, e).

(** [b] is the [i]-th row of [a] *)
Definition row_at {V} (a b : nd V) (i : nat) : Prop :=
  exists n, nshape a = n :: nshape b /\ well_shaped b /\
    forall idx, index_of (nshape b) idx -> entry_at b idx = entry_at a (i :: idx).
Definition opt_row_at {V} (a b : option (nd V)) (i : nat) : Prop :=
  match a, b with None, None => True | Some a, Some b => row_at a b i | _, _ => False end.

(** the entries of an array or None *)
Definition flat_of {V} (a : option (nd V)) : list V := match a with None => [] | Some a => nflat a end.
