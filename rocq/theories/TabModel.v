(** Model of TabularCPD (/repo/causal_effect_bandits/data.py:299-419), generic in the number
    type. *)
From Coq Require Import List Arith ZArith Bool.
From Verif Require Import PyBase NumOps.
Import ListNotations.

(** Dictionary keys are the byte strings xi.tobytes() and zi.tobytes() (data.py:350-353). A
    value is identified with its bytes, so x_values and z_values are lists of keys. *)
Definition key : Type := list nat.
Definition key_eq : forall a b : key, {a = b} + {a <> b} := list_eq_dec Nat.eq_dec.

(** Python dicts: association lists in insertion order (data.py:324-329) *)
Definition dict (A : Type) : Type := list (key * A).
(** d.get(k) (data.py:350-351, 365, 371-383, 409) *)
Fixpoint dget {A} (d : dict A) (k : key) : option A :=
  match d with
  | [] => None
  | (k', v) :: d' => if key_eq k k' then Some v else dget d' k
  end.
(** d[k] = v: replaces in place or appends (data.py:350-353, 367, 371, 374, 377, 382) *)
Fixpoint dset {A} (d : dict A) (k : key) (v : A) : dict A :=
  match d with
  | [] => [(k, v)]
  | (k', w) :: d' => if key_eq k k' then (k', v) :: d' else (k', w) :: dset d' k v
  end.
(** d.keys() (data.py:414, 416) *)
Definition dkeys {A} (d : dict A) : list key := map fst d.
(** self.x_values[k] = ... on a dict whose values are identified with the keys
    (data.py:352-353) *)
Definition remember (l : list key) (k : key) : list key :=
  if in_dec key_eq k l then l else l ++ [k].

(** the attributes of a TabularCPD (data.py:322-329); [t_min] is None until fit sets it *)
Record tab (N : Type) : Type := mkTab {
  t_units : nat; t_table : dict (dict N); t_xmarg : dict N;
  t_xs : list key; t_zs : list key; t_ratio : N; t_min : option N }.
Arguments mkTab {N} t_units t_table t_xmarg t_xs t_zs t_ratio t_min.
Arguments t_units {N} t.
Arguments t_table {N} t.
Arguments t_xmarg {N} t.
Arguments t_xs {N} t.
Arguments t_zs {N} t.
Arguments t_ratio {N} t.
Arguments t_min {N} t.

Section Tab.
  Context {N : Type} (o : numops N).

  (** TabularCPD.__init__ (data.py:322-329) *)
  Definition tab_new (ratio : N) : tab N := mkTab 0 [] [] [] [] ratio None.
  (** the default ratio (data.py:322) *)
  Definition tab_default : tab N := tab_new (nint o 20).

  (** a / b on Python numbers (data.py:359, 367, 371) *)
  Definition py_div (a b : N) : res N :=
    if neqb o b (nint o 0) then Err ZeroDivisionError else Ok (ndiv o a b).

  (** row[z] of a defaultdict, 0.0 when missing (data.py:323, 371) *)
  Definition cell (row : dict N) (z : key) : N :=
    match dget row z with Some v => v | None => nint o 0 end.
  (** table[x] of a defaultdict of defaultdicts (data.py:325, 347, 365) *)
  Definition row_of (t : dict (dict N)) (x : key) : dict N :=
    match dget t x with Some r => r | None => [] end.

  (** one unit of the counting loop (data.py:350-351) *)
  Definition count_unit (t : dict (dict N)) (u : key * key) : dict (dict N) :=
    let row := row_of t (fst u) in
    dset t (fst u) (dset row (snd u) (nadd o (cell row (snd u)) (nint o 1))).

  (** sum(x_table.values()) (data.py:366) *)
  Definition row_sum (row : dict N) : N := fold_left (nadd o) (map snd row) (nint o 0).

  (** the loop over the z values (data.py:368-379): row, non_violating_z, total_violations.
      Reading a missing cell inserts 0.0 before the division can raise. *)
  Fixpoint norm_cells (m s : N) (zs : list key) (row : dict N) (nv : list key) (total : N)
    : dict N * res (list key * N) :=
    match zs with
    | [] => (row, Ok (nv, total))
    | z :: zs' =>
        match py_div (cell row z) s with
        | Err e => (dset row z (cell row z), Err e)
        | Ok v =>
            if nltb o v m then norm_cells m s zs' (dset row z m) nv (nadd o total (nsub o m v))
            else
              let top := nsub o (nint o 1) m in
              if nltb o top v then norm_cells m s zs' (dset row z top) nv (nadd o total (nsub o v top))
              else norm_cells m s zs' (dset row z v) (nv ++ [z]) total
        end
    end.

  (** the adjustment of the non-violating cells (data.py:381-383) *)
  Definition adjust (row : dict N) (nv : list key) (total : N) : dict N :=
    fold_left (fun r z => dset r z (nsub o (cell r z) (ndiv o total (nnat o (length nv))))) nv row.

  (** one x value of the normalisation loop (data.py:365-383) *)
  Definition norm_row (t : tab N) (m : N) (x : key) : tab N * option exn :=
    let row := row_of (t_table t) x in
    let s := row_sum row in
    let t1 := mkTab (t_units t) (dset (t_table t) x row) (t_xmarg t) (t_xs t) (t_zs t) (t_ratio t) (t_min t) in
    match py_div s (nnat o (t_units t)) with
    | Err e => (t1, Some e)
    | Ok p =>
        let set_row r := mkTab (t_units t) (dset (t_table t) x r) (dset (t_xmarg t) x p) (t_xs t) (t_zs t) (t_ratio t) (t_min t) in
        match norm_cells m s (t_zs t) row [] (nint o 0) with
        | (row', Err e) => (set_row row', Some e)
        | (row', Ok (nv, total)) => (set_row (adjust row' nv total), None)
        end
    end.

  (** the normalisation loop (data.py:364) *)
  Fixpoint norm_rows (t : tab N) (m : N) (xs : list key) : tab N * option exn :=
    match xs with
    | [] => (t, None)
    | x :: xs' =>
        match norm_row t m x with
        | (t', Some e) => (t', Some e)
        | (t', None) => norm_rows t' m xs'
        end
    end.

  (** 1 / support_size_estimate / self.min_ratio_to_uniform, .2 if above 1 (data.py:358-361) *)
  Definition min_prob (support : nat) (ratio : N) : res N :=
    do u <- py_div (nint o 1) (nnat o support);
    do m <- py_div u ratio;
    Ok (if nltb o (nint o 1) m then nlit o 2 10 else m).

  (** TabularCPD.fit (data.py:331-383); returns the new state also when raising *)
  Definition tab_fit (t : tab N) (xs zs : list key) : tab N * option exn :=
    if negb (length xs =? length zs) then (t, Some ValueError)
    else
      let us := combine xs zs in
      let t1 := mkTab (length xs) (fold_left count_unit us []) [] (fold_left remember xs (t_xs t))
                      (fold_left remember zs (t_zs t)) (t_ratio t) (t_min t) in
      match min_prob (length (t_zs t1)) (t_ratio t) with
      | Err e => (t1, Some e)
      | Ok m =>
          let t2 := mkTab (t_units t1) (t_table t1) (t_xmarg t1) (t_xs t1) (t_zs t1) (t_ratio t1) (Some m) in
          norm_rows t2 m (t_xs t2)
      end.

  (** x_support, z_support, support_size (data.py:385-392) *)
  Definition x_support (t : tab N) : list key := t_xs t.
  Definition z_support (t : tab N) : list key := t_zs t.
  Definition support_size (t : tab N) : nat := length (t_zs t).

  (** self.table[x][z] of the nested defaultdict (data.py:409): inserts missing entries *)
  Definition lookup (t : tab N) (x z : key) : tab N * N :=
    let row := row_of (t_table t) x in
    let v := cell row z in
    (mkTab (t_units t) (dset (t_table t) x (dset row z v)) (t_xmarg t) (t_xs t) (t_zs t) (t_ratio t) (t_min t), v).

  (** TabularCPD.predict (data.py:394-410): the pairs of zip(z, x) *)
  Fixpoint tab_predict (t : tab N) (xs zs : list key) : tab N * list N :=
    match xs, zs with
    | x :: xs', z :: zs' =>
        let '(t1, v) := lookup t x z in
        let '(t2, vs) := tab_predict t1 xs' zs' in (t2, v :: vs)
    | _, _ => (t, [])
    end.

  (** TabularCPD.__str__ (data.py:412-419): KeyError when a table key is not a remembered
      value. The text itself is not modelled: the result lists the (x, z, value) printed. *)
  Definition tab_str (t : tab N) : res (list (key * list (key * N))) :=
    mapM (fun xr =>
            if in_dec key_eq (fst xr) (t_xs t)
            then do cells <- mapM (fun zv => if in_dec key_eq (fst zv) (t_zs t) then Ok zv else Err KeyError) (snd xr);
                 Ok (fst xr, cells)
            else Err KeyError) (t_table t).
End Tab.
