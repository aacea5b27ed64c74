(** Model of the conditional distributions of /repo/causal_effect_bandits/scm.py and of the
    CPDs of Sections 5.1 and 5.2 in /repo/causal_effect_bandits/paper_utils.py. *)
From Coq Require Import String List Arith ZArith Bool.
From Verif Require Import PyBase NumOps DataModel ScmModel ParamModel PaperModel UtilModel ArmModel.
Import ListNotations.
Open Scope string_scope.
Open Scope nat_scope.

(** A numpy value: a number (0-d) or an array. Arguments mean, cov, betas, gammas and
    intermediate results of scm.py:164-308. *)
Inductive val (N : Type) : Type := VNum (x : N) | VArr (a : arr N).
Arguments VNum {N} x.
Arguments VArr {N} a.

(** np.ndim (scm.py:183, 204, 206, 240, 269) *)
Definition vndim {N} (v : val N) : nat :=
  match v with VNum _ => 0 | VArr a => S (List.length (atail a)) end.

(** the shape of a value (scm.py:182, 205) *)
Definition vshape {N} (v : val N) : list nat :=
  match v with VNum _ => [] | VArr a => alen a :: atail a end.

(** numpy's global generator as used by the CPDs: np.random.normal with one mean and one scale
    per draw (scm.py:184, 208, 241, 270), np.random.multivariate_normal with a mean vector, a
    covariance matrix and the number of draws (scm.py:186, 212, 244, 272, paper_utils.py:107),
    np.random.binomial(1, ps) (scm.py:289, paper_utils.py:293), np.random.choice(len(p), n, p=p)
    (paper_utils.py:149, 154), np.random.uniform(lo, hi) (line 200), np.random.randint(10000)
    (nonlinear_utils.py:86). *)
Record cpd_world (N G : Type) : Type := mkCW {
  cw_normal : list N -> list N -> G -> res (list N) * G;
  cw_mvnormal : list N -> list (list N) -> nat -> G -> res (list (list N)) * G;
  cw_binom : list N -> G -> res (list N) * G;
  cw_choice : list N -> nat -> G -> res (list nat) * G;
  cw_uniform : N -> N -> G -> N * G;
  cw_randint : G -> Z * G }.
Arguments mkCW {N G} cw_normal cw_mvnormal cw_binom cw_choice cw_uniform cw_randint.
Arguments cw_normal {N G} c.
Arguments cw_mvnormal {N G} c.
Arguments cw_binom {N G} c.
Arguments cw_choice {N G} c.
Arguments cw_uniform {N G} c.
Arguments cw_randint {N G} c.

Section Arith.
  Context {N : Type} (o : numops N).

  (** a function of every entry: np.sqrt(cov) (scm.py:184), np.exp(-params) (line 288) *)
  Definition amap (f : N -> N) (a : arr N) : arr N := mkArr (atail a) (map (map f) (arows a)).
  Definition vmap (f : N -> N) (v : val N) : val N :=
    match v with VNum x => VNum (f x) | VArr a => VArr (amap f a) end.

  (** the entries of a 1-d array (scm.py:180) *)
  Definition entries (a : arr N) : list N := List.concat (arows a).

  (** one axis of length a against one of length b (scm.py:184, 186, 208, 212): equal, or one
      of them is 1 *)
  Definition baxis (a b : nat) : res nat :=
    if a =? b then Ok a else if b =? 1 then Ok a else if a =? 1 then Ok b else Err ValueError.
  (** a list along a broadcast axis of length k (scm.py:184, 186) *)
  Definition stretch {A} (k : nat) (l : list A) : list A :=
    match l with [x] => repeat x k | _ => l end.
  (** two rows (scm.py:186, 212) *)
  Definition row_op (f : N -> N -> N) (k : nat) (r s : list N) : list N :=
    map2 f (stretch k r) (stretch k s).
  (** (n, k) with (n', k') (scm.py:186, 212, 244, 272) *)
  Definition bcast2 (f : N -> N -> N) (n k : nat) (rs : list (list N)) (n' k' : nat) (ss : list (list N))
    : res (val N) :=
    do a <- baxis n n'; do b <- baxis k k';
    Ok (VArr (mkArr [b] (map2 (row_op f b) (stretch a rs) (stretch a ss)))).

  (** elementwise operations with numpy's broadcasting (scm.py:182, 184, 186, 208, 212, 305).
      Simplification: arrays with more than two axes are not modelled ([OracleError]). *)
  Definition vop (f : N -> N -> N) (x y : val N) : res (val N) :=
    match x, y with
    | VNum u, VNum v => Ok (VNum (f u v))
    | VNum u, VArr b => Ok (VArr (amap (f u) b))
    | VArr a, VNum v => Ok (VArr (amap (fun u => f u v) a))
    | VArr a, VArr b =>
        match atail a, atail b with
        | [], [] => do l <- bzip f (entries a) (entries b); Ok (VArr (vec l))
        | [], [k'] => bcast2 f 1 (alen a) [entries a] (alen b) k' (arows b)
        | [k], [] => bcast2 f (alen a) k (arows a) 1 (alen b) [entries b]
        | [k], [k'] => bcast2 f (alen a) k (arows a) (alen b) k' (arows b)
        | _, _ => Err OracleError
        end
    end.

  (** x += y (scm.py:182, 237, 305): an array is changed in place and keeps its shape
      ("non-broadcastable output operand" otherwise); a number is replaced by x + y.
      Simplification: dtypes are ignored (adding floats into an array of ints raises). *)
  Definition vadd_in (x y : val N) : res (val N) :=
    do s <- vop (nadd o) x y;
    match x with
    | VNum _ => Ok s
    | VArr _ => if list_eq_dec Nat.eq_dec (vshape s) (vshape x) then Ok s else Err ValueError
    end.

  (** the dot product of vectors of equal length (scm.py:180); vectors and columns of a matrix
      with [k] columns *)
  Definition cols_dot (k : nat) (r : list N) (b : list (list N)) : list N :=
    map (fun j => vdot o r (col o j b)) (seq 0 k).

  (** a.dot(b) (scm.py:180, 182, 235, 237, 305): sum over the last axis of a and the
      second-to-last axis of b; a number b scales. Simplifications: the sum is taken left to
      right; more than two axes are not modelled. *)
  Definition adot (a : arr N) (b : val N) : res (val N) :=
    match b with
    | VNum x => Ok (VArr (amap (fun u => nmul o u x) a))
    | VArr b =>
        match atail a, atail b with
        | [], [] => if alen a =? alen b then Ok (VNum (vdot o (entries a) (entries b))) else Err ValueError
        | [], [k] => if alen a =? alen b then Ok (VArr (vec (cols_dot k (entries a) (arows b)))) else Err ValueError
        | [k], [] => if k =? alen b then Ok (VArr (vec (map (fun r => vdot o r (entries b)) (arows a))))
                     else Err ValueError
        | [k], [k'] => if k =? alen b then Ok (VArr (mkArr [k'] (map (fun r => cols_dot k' r (arows b)) (arows a))))
                       else Err ValueError
        | _, _ => Err OracleError
        end
    end.

  (** x.flatten() (scm.py:208, 241, 270; paper_utils.py:298) *)
  Definition vflatten (v : val N) : val N :=
    match v with VNum x => VArr (vec [x]) | VArr a => VArr (vec (entries a)) end.

  (** len(x) (scm.py:203, 210): TypeError for numbers *)
  Definition vlen (v : val N) : res nat :=
    match v with VNum _ => Err TypeError | VArr a => Ok (alen a) end.

  (** 1 / (1 + np.exp(-x)) (scm.py:288, paper_utils.py:290) *)
  Definition sigmoid (x : N) : N :=
    ndiv o (nint o 1) (nadd o (nint o 1) (nexp o (nsub o (nint o 0) x))).
End Arith.

Section Cpds.
  Context {N G : Type} (o : numops N) (w : cpd_world N G).

  (** an argument of np.random.normal(mean, scale, size=n) (scm.py:184): one value per draw;
      a number or a 1-d array of length 1 or n, otherwise ValueError *)
  Definition per_draw (n : nat) (v : val N) : res (list N) :=
    match v with
    | VNum x => Ok (repeat x n)
    | VArr a =>
        match atail a with
        | [] => if alen a =? n then Ok (entries a)
                else match entries a with [x] => Ok (repeat x n) | _ => Err ValueError end
        | _ => Err ValueError
        end
    end.

  (** np.random.normal(mean, np.sqrt(cov), size=n) (scm.py:184, 208, 241, 270) *)
  Definition normal_noise (mean cov : val N) (n : nat) (g : G) : res (val N) * G :=
    match (do m <- per_draw n mean; do s <- per_draw n (vmap (nsqrt o) cov); Ok (m, s)) with
    | Err e => (Err e, g)
    | Ok (m, s) =>
        match cw_normal w m s g with
        | (Ok l, g1) => (Ok (VArr (vec l)), g1)
        | (Err e, g1) => (Err e, g1)
        end
    end.

  (** np.random.multivariate_normal(mean, cov, size=n) (scm.py:186, 212, 244, 272,
      paper_utils.py:107): the mean must be 1-d, the covariance a square matrix of the same
      size, otherwise ValueError *)
  Definition mv_noise (mean cov : val N) (n : nat) (g : G) : res (val N) * G :=
    match mean, cov with
    | VArr m, VArr c =>
        match atail m, atail c with
        | [], [k] =>
            if (alen c =? k) && (alen m =? k) then
              match cw_mvnormal w (entries m) (arows c) n g with
              | (Ok rs, g1) => (Ok (VArr (mkArr [k] rs)), g1)
              | (Err e, g1) => (Err e, g1)
              end
            else (Err ValueError, g)
        | _, _ => (Err ValueError, g)
        end
    | _, _ => (Err ValueError, g)
    end.

  (** x + noise (scm.py:184, 186, 208, 212, 241, 244, 270, 272): the noise is drawn before the
      addition *)
  Definition plus_noise (x : res (val N)) (draw : G -> res (val N) * G) (g : G) : res (val N) * G :=
    match x with
    | Err e => (Err e, g)
    | Ok x => let '(r, g1) := draw g in (do e <- r; vop (nadd o) x e, g1)
    end.

  (** total_mean += f(parents[i].dot(betas[i])) for the indices from i on (scm.py:181-182,
      236-237) *)
  Fixpoint add_parents (f : nat -> val N -> res (val N)) (betas : list (val N)) (ps : list (arr N)) (i : nat)
      (t : val N) : res (val N) :=
    match ps with
    | [] => Ok t
    | p :: ps' =>
        do b <- at_ betas i; do x <- adot o p b; do y <- f i x;
        do t' <- vadd_in o t y; add_parents f betas ps' (S i) t'
    end.

  (** normal_cpd (scm.py:164-186) *)
  Definition normal_cpd (parents : list (arr N)) (betas : list (val N)) (mean cov : val N) (g : G)
    : res (val N) * G :=
    match parents with
    | [] => (Err IndexError, g)
    | p0 :: ps =>
        match (do b <- at_ betas 0; do t <- adot o p0 b; add_parents (fun _ x => Ok x) betas ps 1 t) with
        | Err e => (Err e, g)
        | Ok t =>
            if vndim t =? 1 then plus_noise (Ok t) (normal_noise mean cov (alen p0)) g
            else plus_noise (Ok t) (mv_noise mean cov (alen p0)) g
        end
    end.

  (** x.shape[1] (scm.py:205, 210) *)
  Definition shape1 (v : val N) : option nat :=
    match v with VArr a => nth_error (atail a) 0 | VNum _ => None end.

  (** add_gaussian_noise (scm.py:189-212) *)
  Definition add_gaussian_noise (x mean cov : val N) (g : G) : res (val N) * G :=
    match vlen x with
    | Err e => (Err e, g)
    | Ok n =>
        if (vndim x <? 2) || ((vndim x =? 2) && match shape1 x with Some k => k =? 1 | None => false end) then
          if 1 <? vndim mean then (Err ValueError, g)
          else plus_noise (Ok (vflatten x)) (normal_noise mean cov n) g
        else
          match vlen mean with
          | Err e => (Err e, g)
          | Ok l =>
              if match shape1 x with Some k => negb (k =? l) | None => true end then (Err ValueError, g)
              else plus_noise (Ok x) (mv_noise mean cov n) g
          end
    end.

  (** transformed_normal_cpd (scm.py:215-244); [fns] are functions of arrays *)
  Definition transformed_normal_cpd (parents : list (arr N)) (betas : list (val N))
      (fns : list (val N -> res (val N))) (mean cov : val N) (g : G) : res (val N) * G :=
    match parents with
    | [] => (Err IndexError, g)
    | p0 :: ps =>
        if negb (List.length parents =? List.length fns) then (Err ValueError, g)
        else
          let fn i x := do f <- at_ fns i; f x in
          match (do b <- at_ betas 0; do x <- adot o p0 b; do t <- fn 0 x; add_parents fn betas ps 1 t) with
          | Err e => (Err e, g)
          | Ok t =>
              if vndim mean =? 0 then plus_noise (Ok (vflatten t)) (normal_noise mean cov (alen p0)) g
              else plus_noise (Ok t) (mv_noise mean cov (alen p0)) g
          end
    end.

  (** structural_equation_with_noise (scm.py:247-272) *)
  Definition structural_equation_with_noise (parents : list (arr N)) (f : arr N -> res (val N))
      (mean cov : val N) (g : G) : res (val N) * G :=
    match parents with
    | [] => (Err IndexError, g)
    | p0 :: _ =>
        match (do x <- column_stack parents; f x) with
        | Err e => (Err e, g)
        | Ok y =>
            if vndim mean <? 1 then plus_noise (Ok (vflatten y)) (normal_noise mean cov (alen p0)) g
            else plus_noise (Ok y) (mv_noise mean cov (alen p0)) g
        end
    end.

  (** cut a flat list into rows of the given lengths (scm.py:289: the array that np.random.binomial returns has the
      shape of its argument) *)
  Fixpoint rows_like {A} (shape : list (list A)) (l : list A) : list (list A) :=
    match shape with
    | [] => []
    | r :: shape' => firstn (List.length r) l :: rows_like shape' (skipn (List.length r) l)
    end.

  (** np.random.binomial(1, ps) (scm.py:289, paper_utils.py:293) *)
  Definition vbinomial (ps : val N) (g : G) : res (val N) * G :=
    match ps with
    | VNum p =>
        match cw_binom w [p] g with
        | (Ok [x], g1) => (Ok (VNum x), g1)
        | (Ok _, g1) => (Err OracleError, g1)
        | (Err e, g1) => (Err e, g1)
        end
    | VArr a =>
        match cw_binom w (entries a) g with
        | (Ok l, g1) => (Ok (VArr (mkArr (atail a) (rows_like (arows a) l))), g1)
        | (Err e, g1) => (Err e, g1)
        end
    end.

  (** logistic_bernoulli_cpd (scm.py:275-289) *)
  Definition logistic_bernoulli_cpd (parents : list (arr N)) (f : list (arr N) -> res (val N)) (g : G)
    : res (val N) * G :=
    match f parents with
    | Err e => (Err e, g)
    | Ok params => vbinomial (vmap (sigmoid o) params) g
    end.

  (** logistic_linear_bernoulli_cpd (scm.py:292-308) *)
  Definition logistic_linear_bernoulli_cpd (parents : list (arr N)) (gammas : list (val N)) (g : G)
    : res (val N) * G :=
    logistic_bernoulli_cpd parents
      (fun ps => add_parents (fun _ x => Ok x) gammas ps 0 (VNum (nint o 0))) g.

  (** the value returned by a CPD as a sample (scm.py:93). Simplification: numbers are not
      samples of the model ([OracleError]). *)
  Definition as_sample (r : res (val N) * G) : res (arr N) * G :=
    (match fst r with
     | Ok (VArr a) => Ok a
     | Ok (VNum _) => Err OracleError
     | Err e => Err e
     end, snd r).
End Cpds.

(** ** Sections 5.1 and 5.2 (paper_utils.py:40-332) *)

(** np.random.default_rng(seed) (paper_utils.py:58, 185), a generator of its own with state Q:
    uniform(lo, hi) (line 73), standard_normal(size=k) (lines 64-87, 133-142), normal with one
    mean per cell and scale 1 (line 125) *)
Record rng_world (N Q : Type) : Type := mkRW {
  rw_seed : Z -> Q;
  rw_uniform : N -> N -> Q -> N * Q;
  rw_std : nat -> Q -> list N * Q;
  rw_normal1 : list N -> Q -> list N * Q }.
Arguments mkRW {N Q} rw_seed rw_uniform rw_std rw_normal1.
Arguments rw_seed {N Q} r.
Arguments rw_uniform {N Q} r.
Arguments rw_std {N Q} r.
Arguments rw_normal1 {N Q} r.

(** the state of default_rng(seed); without a seed it comes from the operating system
    (paper_utils.py:58, 185) *)
Definition start_rng {N Q} (r : rng_world N Q) (entropy : Q) (seed : option Z) : Q :=
  match seed with Some s => rw_seed r s | None => entropy end.

(** the lists of lines paper_utils.py:62-71 and 189-198, and the loop variables strength and i,
    unbound before the first pass *)
Record coefs (N : Type) : Type := mkCoefs {
  k_muv : list (val N); k_covv : list (val N); k_muz : list (val N); k_covz : list (val N);
  k_alpha : list (val N); k_gamma : list (val N); k_beta : list (val N);
  k_last : option (N * nat) }.
Arguments mkCoefs {N} k_muv k_covv k_muz k_covz k_alpha k_gamma k_beta k_last.
Arguments k_muv {N} c.
Arguments k_covv {N} c.
Arguments k_muz {N} c.
Arguments k_covz {N} c.
Arguments k_alpha {N} c.
Arguments k_gamma {N} c.
Arguments k_beta {N} c.
Arguments k_last {N} c.

Section Section5.
  Context {N G Q : Type} (o : numops N) (w : cpd_world N G) (r : rng_world N Q).

  (** c * np.identity(k) (paper_utils.py:65, 76, 79) *)
  Definition identity (c : N) (k : nat) : val N :=
    VArr (mkArr [k] (map (fun i => map (fun j => nmul o c (nint o (if i =? j then 1%Z else 0%Z))) (seq 0 k)) (seq 0 k))).

  (** c * rng.standard_normal(size=k) (paper_utils.py:64, 71, 75, 78, 81, 85, 87) *)
  Definition scaled (c : N) (k : nat) (q : Q) : val N * Q :=
    let '(l, q1) := rw_std r k q in (VArr (vec (map (nmul o c) l)), q1).

  (** a list of a*b entries as an array of shape (a, b) (paper_utils.py:83, 125) *)
  Definition reshape {A} (a b : nat) (l : list A) : list (list A) :=
    map (fun i => firstn b (skipn (i * b) l)) (seq 0 a).

  (** c * rng.standard_normal(size=(a, b)) (paper_utils.py:83) *)
  Definition scaled2 (c : N) (a b : nat) (q : Q) : val N * Q :=
    let '(l, q1) := rw_std r (a * b) q in (VArr (mkArr [b] (reshape a b (map (nmul o c) l))), q1).

  (** paper_utils.py:62-71 and 189-198 *)
  Definition coefs_start (zd : list nat) (q : Q) : res (coefs N * Q) :=
    do d0 <- at_ zd 0;
    let '(mz, q1) := scaled (nlit o 2 10) d0 q in
    let '(b0, q2) := scaled (nlit o 2 10) d0 q1 in
    let zero := VNum (nint o 0) in
    Ok (mkCoefs [zero] [zero] [mz] [identity (nlit o 5 10) d0] [zero] [] [b0] None, q2).

  (** the body of the loop after the strength is drawn (paper_utils.py:75-85, 202-212) *)
  Definition coefs_step (zd vd : list nat) (strength : N) (i : nat) (k : coefs N) (q : Q) : res (coefs N * Q) :=
    do vi <- at_ vd i;
    let '(mv, q1) := scaled (nint o 0) vi q in
    do zi <- at_ zd i;
    let '(mz, q2) := scaled (nint o 0) zi q1 in
    let '(gm, q3) := scaled strength vi q2 in
    let '(al, q4) := scaled2 (nmul o (nlit o 5 10) strength) vi zi q3 in
    let '(bt, q5) := scaled (nsub o (nint o 2) strength) zi q4 in
    Ok (mkCoefs (k_muv k ++ [mv]) (k_covv k ++ [identity (nint o 1) vi]) (k_muz k ++ [mz])
          (k_covz k ++ [identity (nlit o 1 10) zi]) (k_alpha k ++ [al]) (k_gamma k ++ [gm]) (k_beta k ++ [bt])
          (Some (strength, i)), q5)%list.

  (** the additional coefficient after the loop (paper_utils.py:87, 214): strength and i are
      unbound when the loop did not run *)
  Definition coefs_end (zd : list nat) (k : coefs N) (q : Q) : res (coefs N * Q) :=
    match k_last k with
    | None => Err NameError
    | Some (strength, i) =>
        do zi <- at_ zd i;
        let '(bt, q1) := scaled (nsub o (nint o 1) strength) zi q in
        Ok (mkCoefs (k_muv k) (k_covv k) (k_muz k) (k_covz k) (k_alpha k) (k_gamma k) (k_beta k ++ [bt])%list
              (k_last k), q1)
    end.

  (** the bounds .1 and 1.9 of the strength (paper_utils.py:73, 200) *)
  Definition s_lo : N := nlit o 1 10.
  Definition s_hi : N := nlit o 19 10.

  (** the loop of Section 5.1 (paper_utils.py:72-85): strength from the seeded generator *)
  Fixpoint coefs_loop1 (zd vd : list nat) (l : list nat) (k : coefs N) (q : Q) : res (coefs N * Q) :=
    match l with
    | [] => Ok (k, q)
    | i :: l' =>
        let '(s, q1) := rw_uniform r s_lo s_hi q in
        do kq <- coefs_step zd vd s i k q1; coefs_loop1 zd vd l' (fst kq) (snd kq)
    end.

  (** paper_utils.py:58-87 *)
  Definition coefs1 (zd vd : list nat) (m : nat) (q : Q) : res (coefs N * Q) :=
    do kq <- coefs_start zd q;
    do kq1 <- coefs_loop1 zd vd (seq 1 m) (fst kq) (snd kq);
    coefs_end zd (fst kq1) (snd kq1).

  (** the loop of Section 5.2 (paper_utils.py:199-212): strength from numpy's global generator *)
  Fixpoint coefs_loop2 (zd vd : list nat) (l : list nat) (k : coefs N) (q : Q) (g : G) : res (coefs N * Q) * G :=
    match l with
    | [] => (Ok (k, q), g)
    | i :: l' =>
        let '(s, g1) := cw_uniform w s_lo s_hi g in
        match coefs_step zd vd s i k q with
        | Err e => (Err e, g1)
        | Ok (k1, q1) => coefs_loop2 zd vd l' k1 q1 g1
        end
    end.

  (** paper_utils.py:185-214 *)
  Definition coefs2 (zd vd : list nat) (m : nat) (q : Q) (g : G) : res (coefs N * Q) * G :=
    match coefs_start zd q with
    | Err e => (Err e, g)
    | Ok (k, q0) =>
        match coefs_loop2 zd vd (seq 1 m) k q0 g with
        | (Err e, g1) => (Err e, g1)
        | (Ok (k1, q1), g1) => (coefs_end zd k1 q1, g1)
        end
    end.

  (** the array behind a coefficient list entry (paper_utils.py:125, 137): mu_z[0] and beta[0] are 1-d *)
  Definition val_entries (v : val N) : list N := match v with VNum x => [x] | VArr a => entries a end.

  (** support_size (paper_utils.py:124, 217) *)
  Definition support_size : nat := 10.

  (** z0_support (paper_utils.py:125, 218): every row has the mean mu_z[0] *)
  Definition z0_support (mu0 : list N) (q : Q) : list (list N) * Q :=
    let '(l, q1) := rw_normal1 r (List.concat (repeat mu0 support_size)) q in
    (reshape support_size (List.length mu0) l, q1).

  (** softmax(.4 * rng.standard_normal(size=support_size)) (paper_utils.py:133-134, 141-142);
      softmax raises only on empty arrays *)
  Definition draw_dist (q : Q) : list N * Q :=
    let '(l, q1) := rw_std r support_size q in
    (match softmax o (map (nmul o (nlit o 4 10)) l) with Ok p => p | Err _ => [] end, q1).
  Definition draw_dists (q : Q) : (list N * list N) * Q :=
    let '(p0, q1) := draw_dist q in let '(p1, q2) := draw_dist q1 in ((p0, p1), q2).

  (** int(x) (scm.py:159): towards zero *)
  Definition trunc (x : N) : res Z := if nltb o x (nint o 0) then nceil o x else nfloor o x.

  (** z0x0_cpd and z0x1_cpd (paper_utils.py:147-155, 240-248) *)
  Definition z0x_cpd (support : list (list N)) (d0 : nat) (p : list N) : dist N G := fun n _ g =>
    match cw_choice w p n g with
    | (Err e, g1) => (Err e, g1)
    | (Ok idx, g1) => (do rows <- mapM (at_ support) idx; np_array (map (mkItem [d0]) rows), g1)
    end.

  (** z0_cpd (paper_utils.py:157-160, 250-253) *)
  Definition z0_cpd (support : list (list N)) (d0 : nat) (p : list N * list N) : cpd N G := fun _ parents g =>
    let '((_, a), g1) := categorical_conditioning trunc parents 0%Z
                           [z0x_cpd support d0 (fst p); z0x_cpd support d0 (snd p)] g in (a, g1).

  (** make_v_cpd (paper_utils.py:103-109, 303-309) *)
  Definition v_cpd (mean cov : val N) : cpd N G := fun n _ g => as_sample (mv_noise w mean cov n g).

  (** make_z_cpd of Section 5.1 (paper_utils.py:111-117) *)
  Definition z_cpd1 (alpha mean cov : val N) : cpd N G := fun _ parents g =>
    as_sample (normal_cpd o w parents [alpha] mean cov g).

  (** x_cpd and y_cpd of Section 5.1 (paper_utils.py:90-96), with mu_y = 0 and cov_y = .1 *)
  Definition x_cpd1 (gamma : list (val N)) : cpd N G := fun _ parents g =>
    as_sample (logistic_linear_bernoulli_cpd o w parents gamma g).
  Definition y_cpd1 (beta : list (val N)) : cpd N G := fun _ parents g =>
    as_sample (normal_cpd o w parents beta (VNum (nint o 0)) (VNum (nlit o 1 10)) g).

  (** the loop of paper_utils.py:119-121 *)
  Fixpoint path_cpds1 (k : coefs N) (l : list nat) (d : sdict (cpd N G)) : res (sdict (cpd N G)) :=
    match l with
    | [] => Ok d
    | i :: l' =>
        do mv <- at_ (k_muv k) i; do cv <- at_ (k_covv k) i;
        do al <- at_ (k_alpha k) i; do mz <- at_ (k_muz k) i; do cz <- at_ (k_covz k) i;
        path_cpds1 k l' (sset (sset d ("V" ++ str i) (v_cpd mv cv)) ("Z" ++ str i) (z_cpd1 al mz cz))
    end.

  (** what lines paper_utils.py:124-144 and 217-237 choose: the support and the two
      distributions of Z0, and the generator afterwards *)
  Definition z0_choice (fuel : nat) (k : coefs N) (q : Q) : outcome Q (list (list N) * (list N * list N)) :=
    match k_muz k, k_beta k with
    | mz :: _, b0 :: _ =>
        let '(support, q1) := z0_support (val_entries mz) q in
        match tau_selection o draw_dists (z0_effect o support (val_entries b0)) fuel q1 with
        | Returned (Some p) s => Returned (support, p) (snd s)
        | Returned None s => Raised NameError (snd s)
        | Raised e s => Raised e (snd s)
        | OutOfFuel s => OutOfFuel (snd s)
        end
    | _, _ => Raised IndexError q
    end.

  (** get_section_5_1_cpds (paper_utils.py:40-164); the state is that of the seeded generator.
      Simplification: dimensions and the number of paths are ints >= 0. *)
  Definition section_5_1_cpds (zd vd : list nat) (m : nat) (entropy : Q) (seed : option Z) (fuel : nat)
    : outcome Q (sdict (cpd N G)) :=
    let q := start_rng r entropy seed in
    match coefs1 zd vd m q with
    | Err e => Raised e q
    | Ok (k, q1) =>
        match path_cpds1 k (seq 1 m) [("X", x_cpd1 (k_gamma k)); ("Y", y_cpd1 (k_beta k))] with
        | Err e => Raised e q1
        | Ok d =>
            match z0_choice fuel k q1, at_ zd 0 with
            | Returned (support, p) q2, Ok d0 => Returned (sset d "Z0" (z0_cpd support d0 p)) q2
            | Returned _ q2, Err e => Raised e q2
            | Raised e q2, _ => Raised e q2
            | OutOfFuel q2, _ => OutOfFuel q2
            end
        end
    end.

  (** get_section_5_1_example (paper_utils.py:335-382). [big]: as in [generate_example]. *)
  Definition section_5_1_example (big : nat) (zd vd : list nat) (seed : Z) (zc vc z0c : N) (m : nat)
      (limit : Z) (units : nat) (latex : bool) (entropy : Q) (fuel : nat) (g : G)
    : outcome G (@example N G) :=
    match section_5_1_cpds zd vd m entropy (Some seed) fuel with
    | OutOfFuel _ => OutOfFuel g
    | Raised e _ => Raised e g
    | Returned cpds _ =>
        match generate_example o big zd vd zc vc z0c m cpds limit units latex FINITE_SAMPLE g with
        | (Ok e, g1) => Returned e g1
        | (Err e, g1) => Raised e g1
        end
    end.

  (** ** Section 5.2 (paper_utils.py:167-332) *)
  Context {M : Type} (gpr : gp N M).

  (** a random function with the closure's number of outputs (paper_utils.py:261-269, 276-284,
      321-328) *)
  Definition rfun : Type := (nat * list M)%type.
  (** calling it (paper_utils.py:272, 287, 316) *)
  Definition rcall (f : rfun) (x : arr N) : res (arr N) := out_f gpr (fst f) (snd f) x.

  (** generate_random_nd_function(dim, out_dim, ..., min_x=-b, max_x=b, n_points=10) without seed
      (paper_utils.py:262-269, 277-284, 321-328) *)
  Definition make_rfun (b : Z) (dim out_dim : nat) (g : G) : res rfun * G :=
    match random_nd_function o gpr (cw_randint w) dim out_dim 10 (nint o (- b)) (nint o b) None g with
    | (Ok ms, g1) => (Ok (out_dim, ms), g1)
    | (Err e, g1) => (Err e, g1)
    end.

  (** f_ys and f_xs (paper_utils.py:259-269, 274-284) *)
  Fixpoint make_rfuns (dims : list nat) (g : G) : res (list rfun) * G :=
    match dims with
    | [] => (Ok [], g)
    | d :: dims' =>
        match make_rfun 2 d 1 g with
        | (Err e, g1) => (Err e, g1)
        | (Ok f, g1) =>
            match make_rfuns dims' g1 with
            | (Err e, g2) => (Err e, g2)
            | (Ok fs, g2) => (Ok (f :: fs), g2)
            end
        end
    end.

  (** np.sum(list of arrays, axis=0) (paper_utils.py:272, 287): the arrays must have one shape
      (ValueError in numpy >= 1.24); 0.0 for an empty list *)
  Definition sum_arrays (l : list (arr N)) : res (val N) :=
    match l with
    | [] => Ok (VNum (nint o 0))
    | a :: l' =>
        if forallb (fun b => if list_eq_dec Nat.eq_dec (vshape (VArr b)) (vshape (VArr a)) then true else false) l'
        then Ok (VArr (mkArr (atail a) (fold_left (fun acc b => map2 (map2 (nadd o)) acc (arows b)) l' (arows a))))
        else Err ValueError
    end.

  (** f_y and f_x (paper_utils.py:272, 287) *)
  Definition sum_rfuns (fs : list rfun) (x : list (arr N)) : res (val N) :=
    do ys <- mapM (fun jf => do p <- at_ x (fst jf); rcall (snd jf) p) (combine (seq 0 (List.length fs)) fs);
    sum_arrays ys.

  (** the CPD of X (paper_utils.py:289-293, 298); a Python int has no flatten *)
  Definition x_cpd2 (fs : list rfun) : cpd N G := fun _ parents g =>
    match sum_rfuns fs parents with
    | Err e => (Err e, g)
    | Ok t =>
        match vbinomial w (vmap (sigmoid o) t) g with
        | (Err e, g1) => (Err e, g1)
        | (Ok (VNum _), g1) => (Err AttributeError, g1)
        | (Ok v, g1) => as_sample (Ok (vflatten v), g1)
        end
    end.

  (** the CPD of Y (paper_utils.py:299) *)
  Definition y_cpd2 (fs : list rfun) : cpd N G := fun _ parents g =>
    match sum_rfuns fs parents with
    | Err e => (Err e, g)
    | Ok t => as_sample (add_gaussian_noise o w t (VNum (nint o 0)) (VNum (nlit o 1 10)) g)
    end.

  (** make_z_cpd of Section 5.2 (paper_utils.py:311-318) *)
  Definition z_cpd2 (f : rfun) (mean cov : val N) : cpd N G := fun _ parents g =>
    as_sample (structural_equation_with_noise o w parents (fun x => do y <- rcall f x; Ok (VArr y)) mean cov g).

  (** the loop of paper_utils.py:320-330 *)
  Fixpoint path_cpds2 (zd vd : list nat) (k : coefs N) (l : list nat) (d : sdict (cpd N G)) (g : G)
    : res (sdict (cpd N G)) * G :=
    match l with
    | [] => (Ok d, g)
    | i :: l' =>
        match (do vi <- at_ vd i; do zi <- at_ zd i; Ok (vi, zi)) with
        | Err e => (Err e, g)
        | Ok (vi, zi) =>
            match make_rfun 1 vi zi g with
            | (Err e, g1) => (Err e, g1)
            | (Ok f, g1) =>
                match (do mv <- at_ (k_muv k) i; do cv <- at_ (k_covv k) i;
                       do mz <- at_ (k_muz k) i; do cz <- at_ (k_covz k) i; Ok (mv, cv, mz, cz)) with
                | Err e => (Err e, g1)
                | Ok (mv, cv, mz, cz) =>
                    path_cpds2 zd vd k l'
                      (sset (sset d ("V" ++ str i) (v_cpd mv cv)) ("Z" ++ str i) (z_cpd2 f mz cz)) g1
                end
            end
        end
    end.

  (** get_section_5_2_cpds (paper_utils.py:167-332); the state is that of numpy's global
      generator *)
  Definition section_5_2_cpds (zd vd : list nat) (m : nat) (entropy : Q) (seed : option Z) (fuel : nat) (g : G)
    : outcome G (sdict (cpd N G)) :=
    match coefs2 zd vd m (start_rng r entropy seed) g with
    | (Err e, g1) => Raised e g1
    | (Ok (k, q1), g1) =>
        match z0_choice fuel k q1 with
        | OutOfFuel _ => OutOfFuel g1
        | Raised e _ => Raised e g1
        | Returned (support, p) _ =>
            match make_rfuns zd g1 with
            | (Err e, g2) => Raised e g2
            | (Ok f_ys, g2) =>
                match make_rfuns (tl vd) g2 with
                | (Err e, g3) => Raised e g3
                | (Ok f_xs, g3) =>
                    match at_ zd 0 with
                    | Err e => Raised e g3
                    | Ok d0 =>
                        match path_cpds2 zd vd k (seq 1 m)
                                [("X", x_cpd2 f_xs); ("Y", y_cpd2 f_ys); ("Z0", z0_cpd support d0 p)] g3 with
                        | (Err e, g4) => Raised e g4
                        | (Ok d, g4) => Returned d g4
                        end
                    end
                end
            end
        end
    end.

  (** get_section_5_2_example (paper_utils.py:385-432) *)
  Definition section_5_2_example (big : nat) (zd vd : list nat) (seed : Z) (zc vc z0c : N) (m : nat)
      (limit : Z) (units : nat) (latex : bool) (entropy : Q) (fuel : nat) (g : G)
    : outcome G (@example N G) :=
    match section_5_2_cpds zd vd m entropy (Some seed) fuel g with
    | OutOfFuel g1 => OutOfFuel g1
    | Raised e g1 => Raised e g1
    | Returned cpds g1 =>
        match generate_example o big zd vd zc vc z0c m cpds limit units latex CLT g1 with
        | (Ok e, g2) => Returned e g2
        | (Err e, g2) => Raised e g2
        end
    end.
End Section5.
