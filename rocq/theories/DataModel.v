(** Model of the data containers and transformers of
    /repo/causal_effect_bandits/data.py. *)
From Coq Require Import List Arith ZArith Bool.
From Verif Require Import PyBase Num.
Import ListNotations.

(** numpy arrays of dimension >= 1, seen along their first axis: the trailing shape
    and the flattened rows. 1-d: [atail = []], one entry per row; (n,f): [atail = [f]].
    Used for ExpData.cov/exp/rsp (data.py:45-47). Simplifications: 0-d arrays are not
    represented; dtype promotion is ignored (values are kept as they are). *)
Record arr (V : Type) : Type := mkArr { atail : list nat; arows : list (list V) }.
Arguments mkArr {V} atail arows.
Arguments atail {V} a.
Arguments arows {V} a.

(** An ExpData object (data.py:29-62): the three fields plus the attributes n_units and
    n_features, which are stored separately and can go stale. *)
Record expdata (V : Type) : Type := mkED {
  dcov : option (arr V);
  dexp : option (arr V);
  drsp : option (arr V);
  n_units : nat;
  n_features : nat }.
Arguments mkED {V} dcov dexp drsp n_units n_features.
Arguments dcov {V} e.
Arguments dexp {V} e.
Arguments drsp {V} e.
Arguments n_units {V} e.
Arguments n_features {V} e.

Section Data.
  Context {V : Type}.
  (** the Python object None as an array element, produced by np.r_[None, ...]
      (data.py:71) *)
  Variable vnone : V.

  (** cov.shape[0] (data.py:55, 81) *)
  Definition alen (a : arr V) : nat := length (arows a).

  (** data.py:56-59: n_features of an array *)
  Definition afeatures (a : arr V) : nat :=
    match atail a with [] => 1 | f :: _ => f end.

  (** ExpData.__init__ (data.py:49-62) *)
  Definition ed_init (c e y : option (arr V)) : expdata V :=
    match c with
    | None => mkED c e y 0 0
    | Some a => mkED c e y (alen a) (afeatures a)
    end.

  (** an operand of np.r_: None becomes the 1-d object array [None] (data.py:71, 75, 79) *)
  Definition r_operand (a : option (arr V)) : arr V :=
    match a with Some a => a | None => mkArr [] [[vnone]] end.

  (** np.r_[a, b] (data.py:71, 75, 79): concatenation along the first axis, ValueError
      unless the trailing shapes agree *)
  Definition np_r (a b : option (arr V)) : res (arr V) :=
    let x := r_operand a in
    let y := r_operand b in
    if list_eq_dec Nat.eq_dec (atail x) (atail y)
    then Ok (mkArr (atail x) (arows x ++ arows y))
    else Err ValueError.

  (** one optional field of append (data.py:72-75 for exp, 76-79 for rsp); [None] as
      first component of the result: the field keeps its value *)
  Definition append_field (mine new : option (arr V)) : res (option (arr V)) :=
    match mine with
    | None => Ok None
    | Some _ =>
        match new with
        | None => Err ValueError
        | Some _ => do a <- np_r mine new; Ok (Some a)
        end
    end.

  (** ExpData.append (data.py:67-81). Returns the mutated object, also when raising. *)
  Definition append (d new : expdata V) : expdata V * option exn :=
    if negb (n_features new =? n_features d) then (d, Some ValueError)
    else
      match np_r (dcov d) (dcov new) with
      | Err e => (d, Some e)
      | Ok c =>
          let d1 := mkED (Some c) (dexp d) (drsp d) (n_units d) (n_features d) in
          match append_field (dexp d) (dexp new) with
          | Err e => (d1, Some e)
          | Ok x =>
              let d2 := mkED (Some c) x (drsp d) (n_units d) (n_features d) in
              match append_field (drsp d) (drsp new) with
              | Err e => (d2, Some e)
              | Ok y => (mkED (Some c) x y (alen c) (n_features d), None)
              end
          end
      end.

  (** array[mask] with a boolean mask (data.py:92-98, 120-133): IndexError when the mask
      length differs from the first dimension *)
  Definition amask (m : list bool) (a : arr V) : res (arr V) :=
    if length m =? alen a then Ok (mkArr (atail a) (select m (arows a))) else Err IndexError.

  (** data.py:93-96, 97-100, 119-131: an optional field indexed by a mask *)
  Definition omask (m : list bool) (a : option (arr V)) : res (option (arr V)) :=
    match a with None => Ok None | Some a => do b <- amask m a; Ok (Some b) end.

  (** self.cov[mask] (data.py:92, 132-133): TypeError when cov is None *)
  Definition cmask (m : list bool) (a : option (arr V)) : res (option (arr V)) :=
    match a with None => Err TypeError | Some a => do b <- amask m a; Ok (Some b) end.

  (** one fold (body of the loop, data.py:92-101) *)
  Definition fold_by (d : expdata V) (m : list bool) : res (expdata V) :=
    do c <- cmask m (dcov d);
    do e <- omask m (dexp d);
    do y <- omask m (drsp d);
    Ok (ed_init c e y).

  (** ExpData.k_fold (data.py:83-103). [perm] is np.random.permutation. *)
  Definition k_fold (perm : list nat -> list nat) (d : expdata V) (k : Z)
    : res (list (expdata V)) :=
    if (k <? 1)%Z then Err ValueError
    else
      let kn := Z.to_nat k in
      let folds := perm (map (fun j => j mod kn) (seq 0 (n_units d))) in
      mapM (fun i => fold_by d (map (fun f => f =? i) folds)) (seq 0 kn).

  (** np.random.choice(a=[True, False], size, p=[p, 1 - p]) (data.py:117): numpy draws
      uniforms u in [0,1) and looks them up in the normalised cumulative sum
      [p/(p+(1-p)), 1]; True iff u is below the first entry. [us] are the draws. *)
  Definition choice_mask (p : F) (us : list F) : list bool :=
    let q := fsub (f_of_Z 1) p in
    let c := fdiv p (fadd p q) in
    map (fun u => fltb u c) us.

  (** ExpData.subsample (data.py:105-134); [draw n] are the n uniform draws. *)
  Definition subsample (draw : nat -> list F) (d : expdata V) (p : F)
    : res (expdata V * expdata V) :=
    if negb (fleb f0 p && fleb p (f_of_Z 1)) then Err ValueError
    else
      let m := choice_mask p (draw (n_units d)) in
      let m' := map negb m in
      do e1 <- omask m (dexp d);
      do e2 <- omask m' (dexp d);
      do y1 <- omask m (drsp d);
      do y2 <- omask m' (drsp d);
      do c1 <- cmask m (dcov d);
      do c2 <- cmask m' (dcov d);
      Ok (ed_init c1 e1 y1, ed_init c2 e2 y2).

  (** Python slice bounds: negative counts from the end, clamped to [0, n]
      (used by __getitem__, data.py:143-147, with slice keys) *)
  Definition slice_bound (n : nat) (b : Z) : nat :=
    if (b <? 0)%Z then Z.to_nat (Z.of_nat n + b) else Nat.min n (Z.to_nat b).

  (** array[start:stop] along the first axis (data.py:144-146) *)
  Definition aslice (start stop : option Z) (a : arr V) : arr V :=
    let n := alen a in
    let lo := match start with None => 0 | Some b => slice_bound n b end in
    let hi := match stop with None => n | Some b => slice_bound n b end in
    mkArr (atail a) (firstn (hi - lo) (skipn lo (arows a))).

  (** ExpData.__getitem__ (data.py:143-147) for keys slice(start, stop). Simplification:
      integer, list and mask keys and slice steps are not modelled. *)
  Definition getslice (d : expdata V) (start stop : option Z) : res (expdata V) :=
    match dcov d with
    | None => Err TypeError
    | Some c => Ok (ed_init (Some (aslice start stop c))
                            (option_map (aslice start stop) (dexp d))
                            (option_map (aslice start stop) (drsp d)))
    end.

  (** get_identity_fn (data.py:151-161) *)
  Definition identity_fn (d : expdata V) : res (expdata V) := Ok d.

  (** integer index into an axis of length n (data.py:178, 200), negative from the end *)
  Definition norm_index (n : nat) (i : Z) : res nat :=
    if ((- Z.of_nat n <=? i) && (i <? Z.of_nat n))%Z
    then Ok (Z.to_nat (if (i <? 0)%Z then i + Z.of_nat n else i)%Z)
    else Err IndexError.

  (** entries of a list at a list of (in-range) positions: array[[i, j, ...]] (data.py:200) *)
  Definition take_at {X} (js : list nat) (l : list X) : list X :=
    flat_map (fun j => match nth_error l j with Some x => [x] | None => [] end) js.

  (** d.cov[..., idx_to_include] (data.py:200): last axis. Simplification: 3-d and higher
      arrays are not modelled (OracleError). *)
  Definition mask_cov (idx : list Z) (a : arr V) : res (arr V) :=
    match atail a with
    | [] => do js <- mapM (norm_index (alen a)) idx; Ok (mkArr [] (take_at js (arows a)))
    | [f] => do js <- mapM (norm_index f) idx;
             Ok (mkArr [length idx] (map (take_at js) (arows a)))
    | _ => Err OracleError
    end.

  (** get_coordinate_mask_fn (data.py:186-202) *)
  Definition mask_fn (idx : list Z) (d : expdata V) : res (expdata V) :=
    match dcov d with
    | None => Err TypeError
    | Some c => do c' <- mask_cov idx c; Ok (ed_init (Some c') (dexp d) (drsp d))
    end.

  (** np.delete(row, j) (data.py:178) *)
  Definition delete_at {X} (j : nat) (l : list X) : list X := firstn j l ++ skipn (S j) l.

  (** get_remove_coordinates_fn (data.py:164-183): np.delete along axis 1; a 1-d array has
      no axis 1. The reshape of lines 179-180 is dead code: the result of np.delete keeps
      its dimension. Simplification: 3-d and higher arrays are not modelled. *)
  Definition remove_fn (i : Z) (d : expdata V) : res (expdata V) :=
    match dcov d with
    | None => Err AxisError
    | Some c =>
        match atail c with
        | [] => Err AxisError
        | [f] => do j <- norm_index f i;
                 Ok (ed_init (Some (mkArr [f - 1] (map (delete_at j) (arows c)))) (dexp d) (drsp d))
        | _ => Err OracleError
        end
    end.
End Data.

(** LinearDataGenerator (data.py:230-296). [V] is the number type with its addition,
    multiplication and dot product; random draws are oracles over a state [G]. *)
Record lin_oracle (V G : Type) : Type := mkLinOracle {
  lo_randn : G -> nat -> nat -> list (list V) * G;   (* np.random.randn(n, f), data.py:273 *)
  lo_sigmoid : V -> V;                               (* 1/(1+exp(-v)), data.py:275 *)
  lo_binom : G -> list V -> list V * G;              (* np.random.binomial(1, p), data.py:276 *)
  lo_noise : G -> nat -> list V * G }.               (* self._noise_model, data.py:277, 283 *)
Arguments lo_randn {V G} l.
Arguments lo_sigmoid {V G} l.
Arguments lo_binom {V G} l.
Arguments lo_noise {V G} l.

(** attributes set by the constructor (data.py:259-270) *)
Record lin_gen (V : Type) : Type := mkLin {
  lg_beta : list V; lg_tau : V; lg_gamma : list V; lg_features : nat }.
Arguments mkLin {V} lg_beta lg_tau lg_gamma lg_features.
Arguments lg_beta {V} l.
Arguments lg_tau {V} l.
Arguments lg_gamma {V} l.
Arguments lg_features {V} l.

Section Linear.
  Context {V G : Type} (vzero : V) (vadd vmul : V -> V -> V) (o : lin_oracle V G).

  (** LinearDataGenerator.__init__ (data.py:249-270); 1-d beta and gamma *)
  Definition lin_init (n_features : nat) (beta : list V) (tau : V) (gamma : option (list V))
    : res (lin_gen V) :=
    match gamma with
    | None => Ok (mkLin beta tau (repeat vzero n_features) n_features)
    | Some g => if length g =? n_features then Ok (mkLin beta tau g n_features)
                else Err ValueError
    end.

  (** inner product of one row (data.py:275, 283) *)
  Definition dot1 (r b : list V) : V := fold_left vadd (map2 vmul r b) vzero.

  (** x.dot(b) (data.py:275, 283): ValueError when b does not have one entry per column.
      Simplification: the summation order inside the dot product is left to right. *)
  Definition xdot (f : nat) (x : list (list V)) (b : list V) : res (list V) :=
    if length b =? f then Ok (map (fun r => dot1 r b) x) else Err ValueError.

  (** elementwise sum of two 1-d arrays with numpy broadcasting (data.py:283) *)
  Definition badd (a b : list V) : res (list V) :=
    if length a =? length b then Ok (map2 vadd a b)
    else if length b =? 1 then Ok (map (fun x => vadd x (hd vzero b)) a)
    else if length a =? 1 then Ok (map (fun y => vadd (hd vzero a) y) b)
    else Err ValueError.

  (** a 1-d array of numbers as an [arr] (data.py:276-284) *)
  Definition vec (l : list V) : arr V := mkArr [] (map (fun v => [v]) l).

  (** LinearDataGenerator.generate (data.py:272-284) *)
  Definition lin_generate (g : lin_gen V) (st : G) (n : nat) : res (expdata V) * G :=
    let '(x, st1) := lo_randn o st n (lg_features g) in
    match xdot (lg_features g) x (lg_gamma g) with
    | Err e => (Err e, st1)
    | Ok xg =>
        let '(t, st2) := lo_binom o st1 (map (lo_sigmoid o) xg) in
        let '(noise, st3) := lo_noise o st2 n in
        if negb (length noise =? n) then (Err ValueError, st3)
        else
          match xdot (lg_features g) x (lg_beta g) with
          | Err e => (Err e, st3)
          | Ok xb =>
              match badd xb (map (vmul (lg_tau g)) t) with
              | Err e => (Err e, st3)
              | Ok mean =>
                  let '(noise2, st4) := lo_noise o st3 n in
                  match badd mean noise2 with
                  | Err e => (Err e, st4)
                  | Ok y =>
                      (Ok (ed_init (Some (mkArr [lg_features g] x)) (Some (vec t)) (Some (vec y))), st4)
                  end
              end
          end
    end.

  (** DataGenerator.generate of the base class (data.py:222-227): np.zeros(n, 1) passes 1
      as the dtype argument, TypeError *)
  Definition base_generate (n : nat) : res (expdata V) := Err TypeError.
End Linear.
