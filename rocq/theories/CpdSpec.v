(** Vocabulary for the conditional distributions: matrices and vectors of real numbers, linear
    functions of the parents, well-behaved random generators. *)
From Coq Require Import List Arith ZArith Reals Bool.
From Verif Require Import PyBase Num NumLemmas NumOps DataModel ScmModel TabSpec ExampleSpec CpdModel.
Import ListNotations.
Open Scope R_scope.

(** an n by d matrix *)
Definition matrix (n d : nat) (rows : list (list R)) : Prop :=
  length rows = n /\ Forall (fun r => length r = d) rows.

(** real vectors and matrices as arrays *)
Definition rvec (l : list R) : arr X := vec (map Fin l).
Definition rmat (d : nat) (rows : list (list R)) : arr X := mkArr [d] (map (map Fin) rows).

(** the inner product, and column c of a matrix *)
Definition inner (u v : list R) : R := rsum (map2 Rmult u v).
Definition rcol (c : nat) (rows : list (list R)) : list R := map (fun r => nth c r 0) rows.

(** the samples of one parent: its number of columns and its rows, one row per unit *)
Definition sample : Type := (nat * list (list R))%type.
Definition sarr (p : sample) : arr X := rmat (fst p) (snd p).
Definition samples_of (n : nat) (ps : list sample) : Prop := Forall (fun p => matrix n (fst p) (snd p)) ps.
(** the values of one parent for unit j *)
Definition unit_of (j : nat) (p : sample) : list R := nth j (snd p) [].

(** sum_i parents[i, j] . betas[i], for vectors and (component c) for matrices *)
Definition linear (j : nat) (ps : list sample) (bs : list (list R)) : R :=
  rsum (map2 (fun p b => inner (unit_of j p) b) ps bs).
Definition linear_at (j c : nat) (ps : list sample) (bs : list (list (list R))) : R :=
  rsum (map2 (fun p b => inner (unit_of j p) (rcol c b)) ps bs).

(** coefficients fit the parents: one per parent, of matching length *)
Definition fits (ps : list sample) (bs : list (list R)) : Prop :=
  Forall2 (fun p b => length b = fst p) ps bs.
Definition fits_at (k : nat) (ps : list sample) (bs : list (list (list R))) : Prop :=
  Forall2 (fun p b => matrix (fst p) k b) ps bs.

(** a generator that behaves as documented on real numbers *)
Record regular {G} (w : cpd_world X G) : Prop := mkRegular {
  rg_normal : forall ms ss g, Forall (fun s => 0 <= s) ss -> length ms = length ss ->
    exists es g', cw_normal w (map Fin ms) (map Fin ss) g = (Ok (map Fin es), g') /\ length es = length ms;
  rg_mvnormal : forall ms cov n g, (1 <= length ms)%nat -> matrix (length ms) (length ms) cov ->
    exists rows g', cw_mvnormal w (map Fin ms) (map (map Fin) cov) n g = (Ok (map (map Fin) rows), g')
      /\ matrix n (length ms) rows;
  rg_binom : forall ps g, Forall (fun p => 0 <= p <= 1) ps ->
    exists bs g', cw_binom w (map Fin ps) g = (Ok (zos bs), g') /\ length bs = length ps;
  rg_choice : forall ps n g, Forall (fun p => 0 <= p) ps -> rsum ps = 1 ->
    exists idx g', cw_choice w (map Fin ps) n g = (Ok idx, g') /\ length idx = n
      /\ Forall (fun i => (i < length ps)%nat) idx }.

(** what is assumed of the float exponential: numbers go to numbers >= 0 *)
Definition exp_nonneg (lib : libm) : Prop :=
  forall x, num x -> num (m_exp lib x) /\ 0 <= fkey (m_exp lib x).

(** what numpy takes for the mean (or the variance) of every single draw: a number, one entry,
    or one entry per unit *)
Inductive per_unit (n : nat) : val X -> list R -> Prop :=
| PU_num r : per_unit n (VNum (Fin r)) (repeat r n)
| PU_one r : per_unit n (VArr (rvec [r])) (repeat r n)
| PU_each rs : length rs = n -> per_unit n (VArr (rvec rs)) rs.

(** one value per unit: shape (n,) or (n, 1) *)
Definition one_dim (v : val X) (xs : list R) : Prop :=
  v = VArr (rvec xs) \/ v = VArr (rmat 1 (map (fun x => [x]) xs)).

(** the parents of unit j next to each other *)
Definition features (n : nat) (ps : list sample) : arr X :=
  rmat (list_sum (map fst ps)) (map (fun j => List.concat (map (unit_of j) ps)) (seq 0 n)).
