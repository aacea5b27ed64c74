(** Model of /repo/causal_effect_bandits/nonlinear_utils.py and test_utils.py, and of softmax in
    paper_utils.py. *)
From Coq Require Import List Arith ZArith Bool String.
From Verif Require Import PyBase NumOps DataModel ScmModel ParamModel.
Import ListNotations.
Open Scope nat_scope.

(** ** softmax (paper_utils.py:35-37, nonlinear_utils.py:29-31, test_utils.py:113-115: the same
    two lines) *)
Section Softmax.
  Context {N : Type} (o : numops N).

  (** np.max of a 1-d array (paper_utils.py:36): NaN when an entry is NaN, ValueError when
      empty *)
  Definition np_max (l : list N) : res N :=
    match l with
    | [] => Err ValueError
    | x :: l' => Ok (if existsb (nisnan o) l then nnan o else fold_left (nmax o) l' x)
    end.

  (** softmax of a 1-d array (paper_utils.py:35-37). Simplification: e_x.sum adds left to right. *)
  Definition softmax (x : list N) : res (list N) :=
    do m <- np_max x;
    let e := map (fun v => nexp o (nsub o v m)) x in
    let s := nsum o e in
    Ok (map (fun v => ndiv o v s) e).
End Softmax.

(** ** generate_random_nd_function (nonlinear_utils.py:34-101) *)

(** gaussian_process.GaussianProcessRegressor (nonlinear_utils.py:84, 88, 90, 97): a new
    regressor with the kernel and alpha of the call; sample_y(x, 1, random_state=seed) for an
    int seed, which neither changes the regressor nor reads numpy's global generator; fit;
    predict. Simplification: the single column of y is a list. *)
Record gp (N M : Type) : Type := mkGp {
  gp_new : M;
  gp_sample : M -> list (list N) -> Z -> res (list N);
  gp_fit : M -> list (list N) -> list N -> M * option exn;
  gp_predict : M -> arr N -> res (list N) }.
Arguments mkGp {N M} gp_new gp_sample gp_fit gp_predict.
Arguments gp_new {N M} g.
Arguments gp_sample {N M} g.
Arguments gp_fit {N M} g.
Arguments gp_predict {N M} g.

Section RandomFunction.
  Context {N M G : Type} (o : numops N) (k : gp N M).
  (** np.random.randint(10000) (nonlinear_utils.py:86) *)
  Variable randint : G -> Z * G.

  (** np.linspace(0, 1, n_points) (nonlinear_utils.py:78), n_points >= 0: multiples of
      1/(n_points - 1), the last one set to 1 *)
  Definition linspace01 (n : nat) : list N :=
    match n with
    | 0 => []
    | 1 => [nint o 0]
    | S n' => map (fun i => nmul o (nnat o i) (ndiv o (nint o 1) (nnat o n'))) (seq 0 n') ++ [nint o 1]
    end.

  (** itertools.product( *[x1d] * dim) (nonlinear_utils.py:80): the last coordinate runs fastest *)
  Fixpoint product (x1d : list N) (dim : nat) : list (list N) :=
    match dim with
    | 0 => [[]]
    | S d => flat_map (fun v => map (cons v) (product x1d d)) x1d
    end.

  (** nonlinear_utils.py:78-80 *)
  Definition grid (dim n_points : nat) (min_x max_x : N) : list (list N) :=
    map (map (fun v => nadd o (nmul o v (nsub o max_x min_x)) min_x)) (product (linspace01 n_points) dim).

  (** the loop of nonlinear_utils.py:82-90, [todo] rounds left: the regressors made, or the
      exception; the variable seed is assigned by the first round that finds it None *)
  Fixpoint fn_loop (todo : nat) (x : list (list N)) (seed : option Z) (fns : list M) (g : G)
    : res (list M) * G :=
    match todo with
    | 0 => (Ok fns, g)
    | S t =>
        let m := gp_new k in
        let '(sd, g1) := match seed with None => randint g | Some s => (s, g) end in
        match gp_sample k m x sd with
        | Err e => (Err e, g1)
        | Ok y =>
            match gp_fit k m x y with
            | (_, Some e) => (Err e, g1)
            | (m', None) => fn_loop t x (Some sd) (fns ++ [m']) g1
            end
        end
    end.

  (** generate_random_nd_function up to the returned closure (nonlinear_utils.py:67-90); the
      closure is [out_f out_dim fns]. Simplification: the warning of lines 73-75 is omitted. *)
  Definition random_nd_function (dim out_dim n_points : nat) (min_x max_x : N) (seed : option Z) (g : G)
    : res (list M) * G :=
    fn_loop out_dim (grid dim n_points min_x max_x) seed [] g.

  (** x.reshape(x.shape[0], -1) (nonlinear_utils.py:97): without rows the second length is not
      determined, ValueError *)
  Definition flatten_rows (a : arr N) : res (arr N) :=
    if alen a =? 0 then Err ValueError else Ok (mkArr [fold_right Nat.mul 1 (atail a)] (arows a)).

  (** out_f (nonlinear_utils.py:94-99) *)
  Definition out_f (out_dim : nat) (fns : list M) (x : arr N) : res (arr N) :=
    do output <- mapM (fun d =>
        match nth_error fns d with
        | None => Err IndexError
        | Some m => do x' <- flatten_rows x; gp_predict k m x'
        end) (seq 0 out_dim);
    column_stack (map vec output).
End RandomFunction.

(** ** run_single_arm (test_utils.py:27-84) *)

(** An arm and a data generator as used there (test_utils.py:68-74): generate(increment),
    update(new_data, delta=total_delta), and the attributes ci, var_est and ate. *)
Record bench (N V A G : Type) : Type := mkBench {
  bn_generate : Z -> G -> res (expdata V) * G;
  bn_update : A -> expdata V -> N -> G -> (A * G) * option exn;
  bn_ci : A -> option N * option N;
  bn_var : A -> option N;
  bn_ate : A -> option N }.
Arguments mkBench {N V A G} bn_generate bn_update bn_ci bn_var bn_ate.
Arguments bn_generate {N V A G} b.
Arguments bn_update {N V A G} b.
Arguments bn_ci {N V A G} b.
Arguments bn_var {N V A G} b.
Arguments bn_ate {N V A G} b.

(** the entries of the returned lists (test_utils.py:67, 71-74): attributes of the arm, or sample counts *)
Inductive entry (N : Type) : Type := Attr (x : option N) | Count (z : Z).
Arguments Attr {N} x.
Arguments Count {N} z.

(** the local variables (test_utils.py:57-63) and the objects that change *)
Record single (N A G : Type) : Type := mkSingle {
  sg_lcbs : list (entry N); sg_ucbs : list (entry N); sg_vars : list (entry N);
  sg_ates : list (entry N); sg_counts : list (entry N); sg_current : Z; sg_arm : A; sg_gen : G }.
Arguments mkSingle {N A G} sg_lcbs sg_ucbs sg_vars sg_ates sg_counts sg_current sg_arm sg_gen.
Arguments sg_lcbs {N A G} s.
Arguments sg_ucbs {N A G} s.
Arguments sg_vars {N A G} s.
Arguments sg_ates {N A G} s.
Arguments sg_counts {N A G} s.
Arguments sg_current {N A G} s.
Arguments sg_arm {N A G} s.
Arguments sg_gen {N A G} s.

Section SingleArm.
  Context {N V A G : Type} (b : bench N V A G).
  Variables (max_samples increment : Z) (total_delta : N).

  (** one pass of the loop (test_utils.py:65-74, 78-84); arm_pulled (lines 64, 76) is never used *)
  Definition single_body (s : single N A G) : step (single N A G) (sdict (list (entry N))) :=
    if (sg_current s <? max_samples)%Z then
      let current := (sg_current s + increment)%Z in
      let counts := sg_counts s ++ [Count current] in
      match bn_generate b increment (sg_gen s) with
      | (Err e, g1) =>
          Fail e (mkSingle (sg_lcbs s) (sg_ucbs s) (sg_vars s) (sg_ates s) counts current (sg_arm s) g1)
      | (Ok d, g1) =>
          match bn_update b (sg_arm s) d total_delta g1 with
          | ((a, g2), Some e) =>
              Fail e (mkSingle (sg_lcbs s) (sg_ucbs s) (sg_vars s) (sg_ates s) counts current a g2)
          | ((a, g2), None) =>
              Continue (mkSingle (sg_lcbs s ++ [Attr (fst (bn_ci b a))])
                          (sg_ucbs s ++ [Attr (snd (bn_ci b a))])
                          (sg_vars s ++ [Attr (bn_var b a)]) (sg_ates s ++ [Attr (bn_ate b a)])
                          counts current a g2)
          end
      end
    else
      Finish [("LCBs", sg_lcbs s); ("UCBs", sg_ucbs s); ("var_estimates", sg_vars s);
              ("ATE_estmitates", sg_ates s); ("n_samples", sg_counts s)]%string s.

  (** run_single_arm (test_utils.py:27-84) *)
  Definition run_single_arm (fuel : nat) (a : A) (g : G) : outcome (single N A G) (sdict (list (entry N))) :=
    loop fuel single_body (mkSingle [] [] [] [] [] 0%Z a g).
End SingleArm.

(** ** estimate_true_variance (test_utils.py:87-110). [truth]: arm.eta.set_to_truth(data_gen),
    the body of which is "..." in the protocol (parameters.py:122-130); [score]:
    arm.eta.calculate_score. The parameter and the generator change. *)
Definition estimate_true_variance {N V H G} (o : numops N) (gen : nat -> G -> res (expdata V) * G)
    (truth : H -> H * option exn) (score : H -> expdata V -> H * res (list N))
    (n_samples : nat) (eta : H) (g : G) : (H * res N) * G :=
  match gen n_samples g with
  | (Err e, g1) => ((eta, Err e), g1)
  | (Ok d, g1) =>
      match truth eta with
      | (h, Some e) => ((h, Err e), g1)
      | (h, None) =>
          let '(h', r) := score h d in ((h', do l <- r; Ok (nvar o l)), g1)
      end
  end.

(** default number of samples (test_utils.py:90) *)
Definition default_samples : Z := 10000.

(** set_to_truth of the protocol (parameters.py:122-130), inherited by
    FrontDoorLinearFiniteZ and LinearRegressionParameter *)
Definition protocol_truth {H} (h : H) : H * option exn := (h, None).
