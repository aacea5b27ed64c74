(** Model of ExpData as a sequence (/repo/causal_effect_bandits/data.py): integer keys, len, iteration. DataModel has
    arrays with at least one axis only; here arrays have any shape, because an integer key takes an axis away. *)
From Coq Require Import List Arith ZArith Bool.
From Verif Require Import PyBase.
Import ListNotations.

(** numpy arrays and numpy scalars of a numeric dtype (ExpData.cov/exp/rsp, data.py:45-47): the shape, () for a scalar,
    and the entries in C order *)
Record nd (V : Type) : Type := mkNd { nshape : list nat; nflat : list V }.
Arguments mkNd {V} nshape nflat.
Arguments nshape {V} n.
Arguments nflat {V} n.

(** an ExpData object (data.py:29-62) *)
Record sdata (V : Type) : Type := mkSD {
  sd_cov : option (nd V); sd_exp : option (nd V); sd_rsp : option (nd V); sd_units : nat; sd_features : nat }.
Arguments mkSD {V} sd_cov sd_exp sd_rsp sd_units sd_features.
Arguments sd_cov {V} s.
Arguments sd_exp {V} s.
Arguments sd_rsp {V} s.
Arguments sd_units {V} s.
Arguments sd_features {V} s.

Section Seq.
  Context {V : Type}.

  (** ExpData.__init__ (data.py:49-62); cov.shape[0] of a scalar raises IndexError *)
  Definition sd_init (c e y : option (nd V)) : res (sdata V) :=
    match c with
    | None => Ok (mkSD c e y 0 0)
    | Some a => match nshape a with
                | [] => Err IndexError
                | [n] => Ok (mkSD c e y n 1)
                | n :: f :: _ => Ok (mkSD c e y n f)
                end
    end.

  (** ExpData.__len__ (data.py:64-65) *)
  Definition sd_len (d : sdata V) : nat := sd_units d.

  (** a[i] for an int i (data.py:144-146): one axis less; negative indices count from the end;
      IndexError out of range and for scalars *)
  Definition nd_int (a : nd V) (i : Z) : res (nd V) :=
    match nshape a with
    | [] => Err IndexError
    | n :: rest =>
        let j := if (i <? 0)%Z then (i + Z.of_nat n)%Z else i in
        if ((0 <=? j) && (j <? Z.of_nat n))%Z
        then let size := fold_right Nat.mul 1 rest in
             Ok (mkNd rest (firstn size (skipn (Z.to_nat j * size) (nflat a))))
        else Err IndexError
    end.

  (** None if self.exp is None else self.exp[key] (data.py:145-146) *)
  Definition opt_int (a : option (nd V)) (i : Z) : res (option (nd V)) :=
    match a with None => Ok None | Some a => do b <- nd_int a i; Ok (Some b) end.

  (** ExpData.__getitem__ with an int (data.py:143-147); None[key] raises TypeError *)
  Definition sd_item (d : sdata V) (i : Z) : res (sdata V) :=
    match sd_cov d with
    | None => Err TypeError
    | Some a =>
        do c <- nd_int a i; do e <- opt_int (sd_exp d) i; do y <- opt_int (sd_rsp d) i;
        sd_init (Some c) e y
    end.

  (** for u in d (data.py:143-147): ExpData has no __iter__, so Python calls __getitem__ with 0, 1, ... until IndexError;
      the objects and the exception, None if the fuel runs out *)
  Fixpoint iter_from (fuel : nat) (d : sdata V) (i : nat) : option (list (sdata V) * option exn) :=
    match fuel with
    | 0 => None
    | S f => match sd_item d (Z.of_nat i) with
             | Err IndexError => Some ([], None)
             | Err e => Some ([], Some e)
             | Ok u => match iter_from f d (S i) with
                       | None => None
                       | Some (us, e) => Some (u :: us, e)
                       end
             end
    end.

  (** for u in reversed(d) (data.py:64-65, 143-147): __getitem__ with len(d) - 1, ..., 0, also until IndexError *)
  Fixpoint rev_from (d : sdata V) (n : nat) : list (sdata V) * option exn :=
    match n with
    | 0 => ([], None)
    | S i => match sd_item d (Z.of_nat i) with
             | Err IndexError => ([], None)
             | Err e => ([], Some e)
             | Ok u => let '(us, e) := rev_from d i in (u :: us, e)
             end
    end.
  Definition reversed (d : sdata V) : list (sdata V) * option exn := rev_from d (sd_len d).
End Seq.
