(** Vocabulary for the statements about TabularCPD, independent of the model's loops. *)
From Coq Require Import List Arith ZArith Reals Bool.
From Verif Require Import PyBase NumOps TabModel.
Import ListNotations.

(** how many units have the value x / the pair (x, z) *)
Definition n_x (xs : list key) (x : key) : nat := count_occ key_eq xs x.
Definition pair_eq : forall a b : key * key, {a = b} + {a <> b}.
Proof. decide equality; apply key_eq. Defined.
Definition n_xz (xs zs : list key) (x z : key) : nat := count_occ pair_eq (combine xs zs) (x, z).

Section S.
  Context {N : Type} (o : numops N).
  (** the relative frequency of z among the units with x *)
  Definition freq (xs zs : list key) (x z : key) : N :=
    ndiv o (nnat o (n_xz xs zs x z)) (nnat o (n_x xs x)).

  (** a frequency below the floor or above one minus the floor *)
  Definition too_low (m v : N) : bool := nltb o v m.
  Definition too_high (m v : N) : bool := negb (too_low m v) && nltb o (nsub o (nint o 1) m) v.
  Definition violates (m v : N) : bool := too_low m v || too_high m v.

  (** the answer of a single query *)
  Definition answer (t : tab N) (x z : key) : list N := snd (tab_predict o t [x] [z]).

  (** numbers in which whole counts up to B add exactly *)
  Record exact_upto (B : nat) : Prop := mkExact {
    e_add : forall a b, a + b <= B -> nadd o (nnat o a) (nnat o b) = nnat o (a + b);
    e_zero : neqb o (nnat o 0) (nint o 0) = true;
    e_pos : forall k, 1 <= k -> k <= B -> neqb o (nnat o k) (nint o 0) = false;
    e_share : forall a b k, a <= b -> 1 <= b -> b <= B -> 1 <= k -> k <= B ->
      nsub o (ndiv o (nnat o a) (nnat o b)) (ndiv o (nint o 0) (nnat o k))
      = ndiv o (nnat o a) (nnat o b) }.
End S.

(** a number that is a real *)
Definition xval (a : X) : R := match a with Fin r => r | _ => 0%R end.
Fixpoint rsum (l : list R) : R := match l with [] => 0%R | a :: l' => (a + rsum l')%R end.
(** the relative frequency as a real number *)
Definition rfreq (xs zs : list key) (x z : key) : R := (INR (n_xz xs zs x z) / INR (n_x xs x))%R.

(** by how much a frequency p leaves the band [m, 1-m], and whether it stays inside *)
Definition viol (m p : R) : R :=
  (if Rlt_dec p m then m - p else if Rlt_dec (1 - m) p then p - (1 - m) else 0)%R.
Definition rkeep (m p : R) : bool :=
  if Rlt_dec p m then false else if Rlt_dec (1 - m)%R p then false else true.

(** the tables that a program can reach: a new one, after fits (also those that raised) and
    after predictions *)
Inductive reach {N : Type} (o : numops N) (ratio : N) : tab N -> Prop :=
| r_new : reach o ratio (tab_new ratio)
| r_fit : forall t xs zs, reach o ratio t -> reach o ratio (fst (tab_fit o t xs zs))
| r_predict : forall t xs zs, reach o ratio t -> reach o ratio (fst (tab_predict o t xs zs)).

(** a sequence of predictions *)
Definition predictions {N} (o : numops N) (qs : list (list key * list key)) (t : tab N) : tab N :=
  fold_left (fun t q => fst (tab_predict o t (fst q) (snd q))) qs t.
