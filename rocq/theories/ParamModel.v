(** Model of the nuisance parameters of /repo/causal_effect_bandits/parameters.py, generic in
    the number type. Arrays of numbers only: [V := N]. *)
From Coq Require Import List Arith ZArith Bool.
From Verif Require Import PyBase NumOps DataModel ScmModel TabModel ArmModel.
Import ListNotations.
Open Scope nat_scope.

(** A scikit-learn estimator (Ridge, KernelRidge, LogisticRegression, GradientBoosting...;
    parameters.py:158-159, 278-293, 331-332, 493-494, 519-520, 532-534, 584-585): [M] its state. [pr_predict] is
    predict for regressors and predict_proba(...)[:, 1] for classifiers. [pr_clone] is
    sklearn.clone (unfitted copy); [pr_coef], [pr_icept] assign coef_ and intercept_. *)
Record predictor (N M : Type) : Type := mkPred {
  pr_fit : M -> arr N -> list N -> M * option exn;
  pr_predict : M -> arr N -> res (list N);
  pr_clone : M -> M;
  pr_coef : M -> list N -> M;
  pr_icept : M -> N -> M }.
Arguments mkPred {N M} pr_fit pr_predict pr_clone pr_coef pr_icept.
Arguments pr_fit {N M} p.
Arguments pr_predict {N M} p.
Arguments pr_clone {N M} p.
Arguments pr_coef {N M} p.
Arguments pr_icept {N M} p.

(** np.linalg.det, inv, the eigenvalues of np.linalg.eig, and ** with an int exponent
    (parameters.py:382-390, 648-656, 891). Simplification: real eigenvalues. *)
Record linalg (N : Type) : Type := mkLA {
  la_det : list (list N) -> N;
  la_inv : list (list N) -> res (list (list N));
  la_eig : list (list N) -> res (list N);
  la_pow : N -> nat -> N }.
Arguments la_det {N} l.
Arguments la_inv {N} l.
Arguments la_eig {N} l.
Arguments la_pow {N} l.

Section Helpers.
  Context {N : Type} (o : numops N).

  (** an optional field used as a 1-d array of numbers (d.exp, d.rsp; parameters.py:352, 358,
      445-446, 615, 620, 758, 815): TypeError for None, as in sum(None) and None - x.
      Simplification: arrays with more axes are not modelled here (OracleError). *)
  Definition vec_of (a : option (arr N)) : res (list N) :=
    match a with
    | None => Err TypeError
    | Some a =>
        match atail a with
        | [] => mapM (fun r => match r with [v] => Ok v | _ => Err OracleError end) (arows a)
        | _ => Err OracleError
        end
    end.
  (** a field that must be an array (d.cov handed to scikit-learn or np.c_;
      parameters.py:230, 358-359, 417, 889). Simplification: None gives OracleError. *)
  Definition arr_of (a : option (arr N)) : res (arr N) :=
    match a with Some a => Ok a | None => Err OracleError end.

  (** sum(l) of Python (parameters.py:352, 615), and the sums inside dot products.
      Simplification: left to right. *)
  Definition nsum (l : list N) : N := fold_left (nadd o) l (nint o 0).

  (** elementwise operation of two 1-d arrays with broadcasting of length 1
      (parameters.py:444-447, 740, 749-756, 815-817) *)
  Definition bzip (f : N -> N -> N) (a b : list N) : res (list N) :=
    if length a =? length b then Ok (map2 f a b)
    else match a, b with
         | _, [y] => Ok (map (fun x => f x y) a)
         | [x], _ => Ok (map (f x) b)
         | _, _ => Err ValueError
         end.
  (** acc += v: the shape of acc is kept (parameters.py:749, 753) *)
  Definition baccum (acc v : list N) : res (list N) :=
    if length acc =? length v then Ok (map2 (nadd o) acc v)
    else match v with [y] => Ok (map (fun x => nadd o x y) acc) | _ => Err ValueError end.

  (** np.clip(x, lo, hi) = minimum(maximum(x, lo), hi), NaN stays NaN
      (parameters.py:418-419, 621-622, 729-731) *)
  Definition nclip (lo hi x : N) : N :=
    let y := if nltb o x lo then lo else x in if nltb o hi y then hi else y.

  (** an (n, k) array full of NaN (parameters.py:221-223, 408-410, 719-721) *)
  Definition nan_rows (n k : nat) : list (list N) := repeat (repeat (nnan o) k) n.

  (** np.array([c1, ..., ck]).transpose() for 1-d arrays ci of one length, as rows
      (parameters.py:229-231, 420-424, 760-769). Different lengths: ValueError
      (simplification: numpy before 1.24 builds an array of objects and fails later). *)
  Definition stack_columns (cs : list (list N)) : res (list (list N)) :=
    match cs with
    | [] => Ok []
    | c :: _ =>
        if forallb (fun c' => length c' =? length c) cs
        then Ok (map (fun i => map (fun c' => nth i c' (nnan o)) cs) (seq 0 (length c)))
        else Err ValueError
    end.
  (** eta[:, k] (parameters.py:250, 442-446, 815-817) *)
  Definition col (k : nat) (rows : list (list N)) : list N := map (fun r => nth k r (nnan o)) rows.
  (** eta.shape[1] != k (parameters.py:246, 439, 811) *)
  Definition wrong_width (k : nat) (rows : list (list N)) : bool :=
    negb (forallb (fun r => length r =? k) rows).

  (** matrices as lists of rows, [k] the number of columns: transpose, dot, scaling, sum
      (parameters.py:380-389, 645-655, 889-893, 911-912) *)
  Definition mT (k : nat) (m : list (list N)) : list (list N) :=
    map (fun j => map (fun r => nth j r (nint o 0)) m) (seq 0 k).
  Definition mdot (k : nat) (a b : list (list N)) : list (list N) :=
    map (fun r => map (fun c => nsum (map2 (nmul o) r c)) (mT k b)) a.
  Definition mscale (c : N) (m : list (list N)) : list (list N) := map (map (nmul o c)) m.
  Definition madd (a b : list (list N)) : list (list N) := map2 (map2 (nadd o)) a b.
  (** np.identity(d) (parameters.py:382, 389, 648, 655, 893) *)
  Definition identity (d : nat) : list (list N) :=
    map (fun i => map (fun j => if i =? j then nint o 1 else nint o 0) (seq 0 d)) (seq 0 d).
  (** np.diag(v) (parameters.py:911) *)
  Definition diag (v : list N) : list (list N) :=
    map (fun i => map (fun j => if i =? j then nth i v (nint o 0) else nint o 0) (seq 0 (length v)))
        (seq 0 (length v)).

  (** the rows of a 2-d array with k columns; another number of columns makes the matrix
      operations raise ValueError (parameters.py:380-389, 645-655, 889-893). Simplification: 1-d and 3-d arrays give OracleError. *)
  Definition matrix_of (k : nat) (a : arr N) : res (list (list N)) :=
    match atail a with
    | [f] => if f =? k then Ok (arows a) else Err ValueError
    | _ => Err OracleError
    end.

  (** the mu_radius common to both calculate_cs_width (parameters.py:382-391, 648-657): [v] the
      Gram matrix, [d] its size; None when there are "not enough samples" *)
  Definition mu_radius (la : linalg N) (d : nat) (v : list (list N)) (delta sub_g rho : N)
    : res (option N) :=
    let numer := nmul o sub_g (nlog o (la_det la (madd (mscale sub_g v) (mscale rho (identity d))))) in
    let denom := nmul o sub_g (nlog o (nmul o (la_pow la rho d) (nsq o delta))) in
    if nleb o numer denom then Ok None
    else
      let radius := nsqrt o (nsub o numer denom) in
      do q <- py_div o rho sub_g;
      do inv <- la_inv la (madd v (mscale q (identity d)));
      do w <- la_eig la (mdot d (mdot d v inv) v);
      do lo <- py_min (nltb o) w;
      Ok (Some (ndiv o radius (nsqrt o lo))).
End Helpers.

(** ** LinearParameterBinaryTreatment (parameters.py:144-275) *)
(** the attributes that change (parameters.py:154-164) *)
Record lpbt (N M : Type) : Type := mkLpbt {
  lp_treat : M; lp_cont : M; lp_fit : bool; lp_data : option (expdata N) }.
Arguments mkLpbt {N M} lp_treat lp_cont lp_fit lp_data.
Arguments lp_treat {N M} l.
Arguments lp_cont {N M} l.
Arguments lp_fit {N M} l.
Arguments lp_data {N M} l.

Section Lpbt.
  Context {N M G : Type} (o : numops N) (pr : predictor N M).
  (** a new linear_model.Ridge(alpha=1.0) (parameters.py:158-159), and n_features *)
  Variable (ridge : M) (dim : nat).

  (** __init__ (parameters.py:154-164) *)
  Definition lpbt_new : lpbt N M := mkLpbt ridge ridge false None.
  (** reset (parameters.py:166-167) *)
  Definition lpbt_reset (s : lpbt N M) : lpbt N M := lpbt_new.

  (** the loop of parameters.py:188-194 over the rows from number i on: treated rows and labels,
      control rows and labels *)
  Fixpoint split_groups (rows : list (list N)) (x y : arr N) (i : nat)
    : res ((list (list N) * list N) * (list (list N) * list N)) :=
    match rows with
    | [] => Ok (([], []), ([], []))
    | r :: rows' =>
        do xi <- aitem x i;
        do v <- match i_data xi with [v] => Ok v | _ => Err ValueError end;
        do yi <- aitem y i;
        do l <- match i_data yi with [l] => Ok l | _ => Err OracleError end;
        do rest <- split_groups rows' x y (S i);
        let '((t, tl), (c, cl)) := rest in
        if neqb o v (nint o 1) then Ok ((r :: t, l :: tl), (c, cl))
        else Ok ((t, tl), (r :: c, l :: cl))
    end.

  (** fit (parameters.py:169-208). The guard of line 198 compares lists with 0 and is never
      true, so it is absent. *)
  Definition lpbt_fit (s : lpbt N M) (d : expdata N) : lpbt N M * option exn :=
    if negb (n_features d =? dim) then (s, Some ValueError)
    else
      match dcov d with
      | None => (s, Some TypeError)
      | Some c =>
          match (match arows c, dexp d, drsp d with
                 | [], _, _ => Ok (([], []), ([], []))
                 | _, Some x, Some y => split_groups (arows c) x y 0
                 | _, _, _ => Err TypeError
                 end) with
          | Err e => (s, Some e)
          | Ok ((t, tl), (cc, cl)) =>
              let s1 := mkLpbt (lp_treat s) (lp_cont s) (lp_fit s) (Some d) in
              match pr_fit pr (lp_treat s1) (mkArr (atail c) t) tl with
              | (m, Some e) => (mkLpbt m (lp_cont s1) (lp_fit s1) (lp_data s1), Some e)
              | (m, None) =>
                  match pr_fit pr (lp_cont s1) (mkArr (atail c) cc) cl with
                  | (m', Some e) => (mkLpbt m m' (lp_fit s1) (lp_data s1), Some e)
                  | (m', None) => (mkLpbt m m' true (lp_data s1), None)
                  end
              end
          end
      end.

  (** transform (parameters.py:210-233) *)
  Definition lpbt_transform (s : lpbt N M) (d : expdata N) : res (list (list N)) :=
    if negb (lp_fit s) then Ok (nan_rows o (n_units d) 2)
    else if negb (n_features d =? dim) then Err ValueError
    else
      do c <- arr_of (dcov d);
      do m0 <- pr_predict pr (lp_cont s) c;
      do m1 <- pr_predict pr (lp_treat s) c;
      stack_columns o [m0; m1].

  (** _phi and calculate_score (parameters.py:235-262) *)
  Definition lpbt_phi (eta : list (list N)) : res (list N) :=
    if wrong_width 2 eta then Err ValueError else Ok (map2 (nsub o) (col o 1 eta) (col o 0 eta)).
  Definition lpbt_score (s : lpbt N M) (d : expdata N) : res (list N) :=
    do eta <- lpbt_transform s d; lpbt_phi eta.

  (** set_to_truth (parameters.py:264-275) *)
  Definition lpbt_truth (s : lpbt N M) (beta : list N) (tau : N) : lpbt N M :=
    mkLpbt (pr_coef pr (pr_icept pr (lp_treat s) tau) beta)
           (pr_icept pr (pr_coef pr (lp_cont s) beta) (nint o 0)) (lp_fit s) (lp_data s).

  (** the parameter as seen by an arm: has_enough_samples and calculate_cs_width are the
      protocol's, whose bodies are "..." and return None (parameters.py:102-120) *)
  Definition lpbt_ops : eta_ops N N (lpbt N M) G :=
    mkEta N N (lpbt N M) G
      (fun s d g => let '(s', e) := lpbt_fit s d in ((s', g), e))
      (fun _ => false)
      (fun s d => (s, lpbt_score s d))
      (fun _ _ _ _ => Ok None)
      lpbt_reset.
End Lpbt.

(** ** AIPW (parameters.py:296-477) *)
(** the configuration (parameters.py:309-328) *)
Record aipw_conf (N : Type) : Type := mkAC { ac_dim : nat; ac_min : Z; ac_overlap : N }.
Arguments mkAC {N} ac_dim ac_min ac_overlap.
Arguments ac_dim {N} a.
Arguments ac_min {N} a.
Arguments ac_overlap {N} a.
(** default min_units and min_overlap (parameters.py:314-315) *)
Definition aipw_default {N} (o : numops N) (dim : nat) : aipw_conf N := mkAC dim 5 (nlit o 5 100).

(** the attributes that change (parameters.py:318-323) *)
Record aipw (N M P : Type) : Type := mkAipw {
  ap_resp : M; ap_prop : P; ap_fit : bool; ap_data : option (expdata N) }.
Arguments mkAipw {N M P} ap_resp ap_prop ap_fit ap_data.
Arguments ap_resp {N M P} a.
Arguments ap_prop {N M P} a.
Arguments ap_fit {N M P} a.
Arguments ap_data {N M P} a.

Section Aipw.
  Context {N M P G : Type} (o : numops N) (pr : predictor N M) (pp : predictor N P).
  Variables (la : linalg N) (cf : aipw_conf N).

  (** __init__ (parameters.py:309-328) *)
  Definition aipw_new (resp : M) (prop : P) : aipw N M P := mkAipw resp prop false None.
  (** reset (parameters.py:330-334) *)
  Definition aipw_reset (s : aipw N M P) : aipw N M P :=
    mkAipw (pr_clone pr (ap_resp s)) (pr_clone pp (ap_prop s)) false None.

  (** sum(d.exp) < min_units or sum(d.exp) > n_units - min_units (parameters.py:352, 615) *)
  Definition too_few (min : Z) (n : nat) (x : list N) : bool :=
    nltb o (nsum o x) (nint o min) || nltb o (nint o (Z.of_nat n - min)) (nsum o x).

  (** np.c_[x, d.cov] for a 1-d array x (parameters.py:358, 421-423, 620, 643, 724, 735-738) *)
  Definition with_cov (x : list N) (d : expdata N) : res (arr N) :=
    do c <- arr_of (dcov d); column_stack [vec x; c].

  (** fit (parameters.py:336-361) *)
  Definition aipw_fit (s : aipw N M P) (d : expdata N) : aipw N M P * option exn :=
    if negb (n_features d =? ac_dim cf) then (s, Some ValueError)
    else
      let s1 := mkAipw (ap_resp s) (ap_prop s) (ap_fit s) (Some d) in
      match vec_of (dexp d) with
      | Err e => (s1, Some e)
      | Ok x =>
          if too_few (ac_min cf) (n_units d) x then (s1, None)
          else
            match (do a <- with_cov x d; do y <- vec_of (drsp d); do c <- arr_of (dcov d); Ok (a, y, c)) with
            | Err e => (s1, Some e)
            | Ok (a, y, c) =>
                match pr_fit pr (ap_resp s1) a y with
                | (m, Some e) => (mkAipw m (ap_prop s1) (ap_fit s1) (ap_data s1), Some e)
                | (m, None) =>
                    match pr_fit pp (ap_prop s1) c x with
                    | (p, Some e) => (mkAipw m p (ap_fit s1) (ap_data s1), Some e)
                    | (p, None) => (mkAipw m p true (ap_data s1), None)
                    end
                end
            end
      end.

  (** calculate_cs_width (parameters.py:363-395) *)
  Definition aipw_width (s : aipw N M P) (delta sub_g rho : N) : res N :=
    match ap_data s with
    | None => Err AttributeError
    | Some d =>
        do c <- arr_of (dcov d);
        do x <- matrix_of (ac_dim cf) c;
        let v := mdot o (ac_dim cf) (mT o (ac_dim cf) x) x in
        do r <- mu_radius o la (ac_dim cf) v delta sub_g rho;
        match r with
        | None => Ok (ninf o)
        | Some mu =>
            do q <- py_div o (nint o 1) (ac_overlap cf);
            Ok (nadd o mu (nmul o mu (nsub o q (nint o 2))))
        end
    end.

  (** transform (parameters.py:397-426) *)
  Definition aipw_transform (s : aipw N M P) (d : expdata N) : res (list (list N)) :=
    if negb (ap_fit s) then Ok (nan_rows o (n_units d) 4)
    else if negb (n_features d =? ac_dim cf) then Err ValueError
    else
      do c <- arr_of (dcov d);
      do p <- pr_predict pp (ap_prop s) c;
      let p' := map (nclip o (ac_overlap cf) (nsub o (nint o 1) (ac_overlap cf))) p in
      do a0 <- with_cov (repeat (nint o 0) (n_units d)) d;
      do m0 <- pr_predict pr (ap_resp s) a0;
      do a1 <- with_cov (repeat (nint o 1) (n_units d)) d;
      do m1 <- pr_predict pr (ap_resp s) a1;
      do x <- vec_of (dexp d);
      do ax <- with_cov x d;
      do mx <- pr_predict pr (ap_resp s) ax;
      stack_columns o [m0; m1; mx; p'].

  (** 1e-15 (parameters.py:442) *)
  Definition tiny : N := nlit o 1 (10 ^ 15).

  (** _phi (parameters.py:428-447) *)
  Definition aipw_phi (eta : list (list N)) (d : expdata N) : res (list N) :=
    if wrong_width 4 eta then Err ValueError
    else
      let e := col o 3 eta in
      if existsb (fun p => nltb o p tiny) e || existsb (fun p => nltb o (nsub o (nint o 1) tiny) p) e
      then Err ValueError
      else
        do diff <- bzip (nsub o) (col o 1 eta) (col o 0 eta);
        do y <- vec_of (drsp d);
        do r <- bzip (nsub o) y (col o 2 eta);
        do x <- vec_of (dexp d);
        do a <- bzip (ndiv o) x e;
        do b <- bzip (ndiv o) (map (nsub o (nint o 1)) x) (map (nsub o (nint o 1)) e);
        do c <- bzip (nsub o) a b;
        do ipw <- bzip (nmul o) r c;
        bzip (nadd o) diff ipw.

  (** calculate_score (parameters.py:449-459) *)
  Definition aipw_score (s : aipw N M P) (d : expdata N) : res (list N) :=
    do eta <- aipw_transform s d; aipw_phi eta d.

  (** set_to_truth (parameters.py:461-474) for a LinearDataGenerator ([None]: any other
      generator). gamma.reshape(1, cov_dim) raises ValueError on another length. *)
  Definition aipw_truth (s : aipw N M P) (gen : option (lin_gen N)) : aipw N M P * option exn :=
    match gen with
    | None => (s, Some ValueError)
    | Some g =>
        let m := pr_coef pr (ap_resp s) (lg_tau g :: lg_beta g) in
        if length (lg_gamma g) =? ac_dim cf
        then (mkAipw m (pr_icept pp (pr_coef pp (ap_prop s) (lg_gamma g)) (nint o 0)) (ap_fit s) (ap_data s), None)
        else (mkAipw m (ap_prop s) (ap_fit s) (ap_data s), Some ValueError)
    end.

  (** has_enough_samples (parameters.py:476-477) *)
  Definition aipw_enough (s : aipw N M P) : bool := ap_fit s.

  (** the parameter as seen by an arm (parameters.py:32-141, 296-477) *)
  Definition aipw_ops : eta_ops N N (aipw N M P) G :=
    mkEta N N (aipw N M P) G
      (fun s d g => let '(s', e) := aipw_fit s d in ((s', g), e))
      aipw_enough
      (fun s d => (s, aipw_score s d))
      (fun s delta sub_g rho => do x <- aipw_width s delta sub_g rho; Ok (Some x))
      aipw_reset.
End Aipw.

(** ** FrontDoorLinearFiniteZ (parameters.py:540-834) *)
(** the configuration (parameters.py:564-582) *)
Record fd_conf (N : Type) : Type := mkFC {
  fc_dim : nat; fc_min : Z; fc_overlap : N; fc_ratio : N }.
Arguments mkFC {N} fc_dim fc_min fc_overlap fc_ratio.
Arguments fc_dim {N} f.
Arguments fc_min {N} f.
Arguments fc_overlap {N} f.
Arguments fc_ratio {N} f.

(** the attributes that change (parameters.py:571-588) *)
Record fdoor (N M : Type) : Type := mkFd {
  fd_y : M; fd_tab : tab N; fd_prob : N; fd_fitted : bool; fd_data : option (expdata N) }.
Arguments mkFd {N M} fd_y fd_tab fd_prob fd_fitted fd_data.
Arguments fd_y {N M} f.
Arguments fd_tab {N M} f.
Arguments fd_prob {N M} f.
Arguments fd_fitted {N M} f.
Arguments fd_data {N M} f.

(** The bytes of numpy values, used as dict keys by TabularCPD (data.py:350-353, 408-409): [kx] of
    an entry of d.exp (its dtype is the data's), [ki] of the entries of np.ones(n, dtype=int)
    and np.array([1]) ([true]) and of np.zeros(n, dtype=int) and np.array([0]) ([false]), [kz]
    of a row of d.cov or of one of its entries; [zk] the value of which a key are the bytes. *)
Record coding (N : Type) : Type := mkCoding {
  kx : N -> key; ki : bool -> key; kz : list N -> key; zk : key -> list N }.
Arguments kx {N} c.
Arguments ki {N} c.
Arguments kz {N} c.
Arguments zk {N} c.

Section FrontDoor.
  Context {N M G : Type} (o : numops N) (pr : predictor N M) (cd : coding N).
  Variables (la : linalg N) (ridge : M) (cf : fd_conf N).

  (** __init__ (parameters.py:564-588) *)
  Definition fd_new : fdoor N M := mkFd ridge (tab_new (fc_ratio cf)) (nlit o 1 2) false None.
  (** reset (parameters.py:590-598) *)
  Definition fd_reset (s : fdoor N M) : fdoor N M := fd_new.

  (** fit (parameters.py:600-625). Simplification: d.cov 2-d *)
  Definition fd_fit (s : fdoor N M) (d : expdata N) : fdoor N M * option exn :=
    if negb (n_features d =? fc_dim cf) then (s, Some ValueError)
    else
      let s1 := mkFd (fd_y s) (fd_tab s) (fd_prob s) (fd_fitted s) (Some d) in
      match vec_of (dexp d) with
      | Err e => (s1, Some e)
      | Ok x =>
          if too_few o (fc_min cf) (n_units d) x then (s1, None)
          else
            match (do a <- with_cov x d; do y <- vec_of (drsp d); do c <- arr_of (dcov d); Ok (a, y, c)) with
            | Err e => (s1, Some e)
            | Ok (a, y, c) =>
                match pr_fit pr (fd_y s1) a y with
                | (m, Some e) => (mkFd m (fd_tab s1) (fd_prob s1) (fd_fitted s1) (fd_data s1), Some e)
                | (m, None) =>
                    let p := nclip o (fc_overlap cf) (nsub o (nint o 1) (fc_overlap cf)) (nmean o x) in
                    match tab_fit o (fd_tab s1) (map (kx cd) x) (map (kz cd) (arows c)) with
                    | (t, Some e) => (mkFd m t p (fd_fitted s1) (fd_data s1), Some e)
                    | (t, None) => (mkFd m t p true (fd_data s1), None)
                    end
                end
            end
      end.

  (** uniform_boundary (parameters.py:659-665) *)
  Definition uniform_boundary (rho : N) (n : nat) (delta : N) : res N :=
    do q <- py_div o (ndiv o (nsq o delta) (nint o 4)) rho;
    if nleb o (nnat o n) q then Ok (ninf o)
    else
      do i <- py_div o (nint o 1) (nnat o n);
      do r <- py_div o rho (nnat o n);
      do a <- py_div o (nadd o (ndiv o (nnat o n) (nint o 4)) rho) (nmul o (nsq o delta) rho);
      Ok (nsqrt o (nmul o (nmul o i (nadd o (nlit o 1 4) r)) (nlog o a))).

  (** calculate_cs_width (parameters.py:627-675). [cov_given_exp_radius] (line 669) is computed
      but not used, except for a warning. *)
  Definition fd_width (s : fdoor N M) (delta sub_g rho : N) : res N :=
    match fd_data s with
    | None => Err AttributeError
    | Some d =>
        do e <- vec_of (dexp d);
        do a <- with_cov e d;
        let k := S (fc_dim cf) in
        do x <- matrix_of k a;
        let v := mdot o k (mT o k x) x in
        let delta3 := ndiv o delta (nint o 3) in
        do r <- mu_radius o la k v delta3 sub_g rho;
        match r with
        | None => Ok (ninf o)
        | Some mu =>
            do t <- uniform_boundary rho (length x) (ndiv o delta3 (nint o 3));
            do q <- py_div o (nint o 1) (fc_overlap cf);
            let q1 := nsub o q (nint o 1) in
            Ok (nadd o (nadd o mu (nmul o t q1)) (nmul o (nmul o mu (nint o 2)) q1))
        end
    end.

  (** one value z of the support in the loop of parameters.py:744-756: f_1 and f_3 *)
  Definition support_step (m : M) (prob : N) (x : list N) (n : nat) (p1 p0 : list N) (z : list N)
      (t : tab N) (f1 f3 : list N) : tab N * res (list N * list N) :=
    match (do a <- column_stack [vec x; mkArr [length z] (repeat z n)]; pr_predict pr m a) with
    | Err e => (t, Err e)
    | Ok mu =>
        let '(t1, a1) := tab_predict o t [ki cd true] (map (fun v => kz cd [v]) z) in
        let '(t2, a0) := tab_predict o t1 [ki cd false] (map (fun v => kz cd [v]) z) in
        (t2,
         do dp <- bzip (nsub o) a1 a0;
         do u <- bzip (nmul o) mu dp;
         do f1' <- baccum o f1 u;
         do m1 <- pr_predict pr m (mkArr [S (length z)] [nint o 1 :: z]);
         do g1 <- bzip (nmul o) (map (fun v => nmul o v prob) m1) p1;
         do m0 <- pr_predict pr m (mkArr [S (length z)] [nint o 0 :: z]);
         do g0 <- bzip (nmul o) (map (fun v => nmul o v (nsub o (nint o 1) prob)) m0) p0;
         do g <- bzip (nadd o) g1 g0;
         do f3' <- baccum o f3 g;
         Ok (f1', f3'))
    end.
  (** the loop over the support (parameters.py:744-756) *)
  Fixpoint support_loop (m : M) (prob : N) (x : list N) (n : nat) (p1 p0 : list N)
      (zs : list key) (t : tab N) (f1 f3 : list N) : tab N * res (list N * list N) :=
    match zs with
    | [] => (t, Ok (f1, f3))
    | z :: zs' =>
        match support_step m prob x n p1 p0 (zk cd z) t f1 f3 with
        | (t', Err e) => (t', Err e)
        | (t', Ok (f1', f3')) => support_loop m prob x n p1 p0 zs' t' f1' f3'
        end
    end.

  (** x / exp_prob - (1 - x) / (1 - exp_prob) (parameters.py:758) *)
  Definition fd_weight (prob x : N) : N :=
    nsub o (ndiv o x prob) (ndiv o (nsub o (nint o 1) x) (nsub o (nint o 1) prob)).

  (** transform (parameters.py:677-771). TabularCPD.predict fills in missing table entries, so
      the state may change. *)
  Definition fd_transform (s : fdoor N M) (d : expdata N) : fdoor N M * res (list (list N)) :=
    if negb (n_features d =? fc_dim cf) then (s, Err ValueError)
    else if negb (fd_fitted s) then (s, Ok (nan_rows o (n_units d) 8))
    else
      let n := n_units d in
      let m := fd_y s in
      let prob := fd_prob s in
      match (do x <- vec_of (dexp d); do a <- with_cov x d; do mu <- pr_predict pr m a;
             do c <- arr_of (dcov d); Ok (x, mu, c)) with
      | Err e => (s, Err e)
      | Ok (x, mu, c) =>
          let zs := map (kz cd) (arows c) in
          let clip := nclip o (fc_overlap cf) (nsub o (nint o 1) (fc_overlap cf)) in
          let '(t1, q1) := tab_predict o (fd_tab s) (repeat (ki cd true) n) zs in
          let '(t2, q0) := tab_predict o t1 (repeat (ki cd false) n) zs in
          let '(t3, q) := tab_predict o t2 (map (kx cd) x) zs in
          let p1 := map clip q1 in
          let p0 := map clip q0 in
          let p := map clip q in
          let set t := mkFd m t prob (fd_fitted s) (fd_data s) in
          match (do a1 <- with_cov (repeat (nint o 1) n) d; do m1 <- pr_predict pr m a1;
                 do a0 <- with_cov (repeat (nint o 0) n) d; do m0 <- pr_predict pr m a0;
                 bzip (nadd o) (map (nmul o prob) m1) (map (nmul o (nsub o (nint o 1) prob)) m0)) with
          | Err e => (set t3, Err e)
          | Ok f2 =>
              match support_loop m prob x n p1 p0 (z_support t3) t3
                      (repeat (nint o 0) n) (repeat (nint o 0) n) with
              | (t4, Err e) => (set t4, Err e)
              | (t4, Ok (f1, f3)) =>
                  (set t4, stack_columns o [mu; p1; p0; p; map (fd_weight prob) x; f1; f2; f3])
              end
          end
      end.

  (** _phi (parameters.py:773-819) *)
  Definition fd_phi (eta : list (list N)) (d : expdata N) : res (list N) :=
    if wrong_width 8 eta then Err ValueError
    else
      do y <- vec_of (drsp d);
      do r <- bzip (nsub o) y (col o 0 eta);
      do a <- bzip (ndiv o) (col o 1 eta) (col o 3 eta);
      do b <- bzip (ndiv o) (col o 2 eta) (col o 3 eta);
      do c <- bzip (nsub o) a b;
      do u <- bzip (nmul o) r c;
      do v <- bzip (nadd o) u (col o 5 eta);
      do g <- bzip (nsub o) (col o 6 eta) (col o 7 eta);
      do h <- bzip (nmul o) (col o 4 eta) g;
      bzip (nadd o) v h.

  (** calculate_score (parameters.py:821-831) *)
  Definition fd_score (s : fdoor N M) (d : expdata N) : fdoor N M * res (list N) :=
    match fd_transform s d with
    | (s', Err e) => (s', Err e)
    | (s', Ok eta) => (s', fd_phi eta d)
    end.

  (** the parameter as seen by an arm; has_enough_samples (parameters.py:833-834) *)
  Definition fd_ops : eta_ops N N (fdoor N M) G :=
    mkEta N N (fdoor N M) G
      (fun s d g => let '(s', e) := fd_fit s d in ((s', g), e))
      (@fd_fitted N M)
      fd_score
      (fun s delta sub_g rho => do x <- fd_width s delta sub_g rho; Ok (Some x))
      fd_reset.
End FrontDoor.

(** ** LinearRegressionParameter (parameters.py:837-927) *)
(** the attributes that change (parameters.py:861-876) *)
Record linreg (N : Type) : Type := mkLr {
  lr_model : list (list N); lr_fitted : bool; lr_data : option (expdata N) }.
Arguments mkLr {N} lr_model lr_fitted lr_data.
Arguments lr_model {N} l.
Arguments lr_fitted {N} l.
Arguments lr_data {N} l.

Section LinReg.
  Context {N G : Type} (o : numops N).
  Variables (la : linalg N) (dim : nat) (l_reg : N).

  (** __init__ (parameters.py:861-876) *)
  Definition lr_new : linreg N :=
    mkLr (repeat (repeat (nint o 0) (S dim)) (S dim)) false None.

  (** np.c_[d.exp, d.cov] as a matrix (parameters.py:889, 911) *)
  Definition design (d : expdata N) : res (arr N) := do x <- vec_of (dexp d); with_cov x d.

  (** fit (parameters.py:878-895). Simplification: broadcasting of a 1x1 identity is not
      modelled; another number of columns raises. *)
  Definition lr_fit (s : linreg N) (d : expdata N) : linreg N * option exn :=
    if n_units d <? 1 then (s, None)
    else
      let k := S dim in
      match (do a <- design d; do x <- matrix_of k a;
             la_inv la (madd o (mdot o k (mT o k x) x) (mscale o l_reg (identity o k)))) with
      | Err e => (s, Some e)
      | Ok inv => (mkLr (map (map (fun v => nmul o v (nnat o (n_units d)))) inv) true (Some d), None)
      end.

  (** transform, _phi, calculate_score (parameters.py:897-924) *)
  Definition lr_score (s : linreg N) (d : expdata N) : res (list N) :=
    do a <- design d;
    do y <- match drsp d with None => Err ValueError | r => vec_of r end;
    do x <- matrix_of (S dim) a;
    if negb (length y =? length x) then Err ValueError
    else
      let n := length y in
      let xzy := mdot o n (mT o (S dim) x) (diag o y) in
      match mdot o n (lr_model s) xzy with
      | r :: _ => Ok r
      | [] => Err IndexError
      end.

  (** reset is the protocol's, whose body is "..." (parameters.py:75-76): nothing changes *)
  Definition lr_reset (s : linreg N) : linreg N := s.

  (** the parameter as seen by an arm: calculate_cs_width is the protocol's and returns None
      (parameters.py:105-120); has_enough_samples (parameters.py:926-927) *)
  Definition lr_ops : eta_ops N N (linreg N) G :=
    mkEta N N (linreg N) G
      (fun s d g => let '(s', e) := lr_fit s d in ((s', g), e))
      (@lr_fitted N)
      (fun s d => (s, lr_score s d))
      (fun _ _ _ _ => Ok None)
      lr_reset.
End LinReg.
