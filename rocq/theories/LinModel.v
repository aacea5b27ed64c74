(** Model of the subclasses of AIPW in /repo/causal_effect_bandits/parameters.py:480-538 with the scikit-learn
    estimators they construct. The estimators are modelled as documented by scikit-learn (requirements.txt asks
    for >= 1.0.2): which attributes their methods read and write; what their solvers compute is an oracle. *)
From Coq Require Import List Arith ZArith Bool.
From Verif Require Import PyBase NumOps DataModel ArmModel ParamModel.
Import ListNotations.
Open Scope nat_scope.

(** reading an attribute that may not exist (parameters.py:501, 417-423) *)
Definition attr {A} (x : option A) : res A := match x with Some a => Ok a | None => Err AttributeError end.

Section Estimators.
  Context {N : Type} (o : numops N).

  (** X @ coef_ + intercept_ for a 2-d array (predict of linear_model.Ridge and decision_function of
      LogisticRegression; parameters.py:417, 421-423): ValueError on another number of columns *)
  Definition linear_values (a : arr N) (c : list N) (b : N) : res (list N) :=
    match atail a with
    | [k] => if k =? length c then Ok (map (fun r => nadd o (nsum o (map2 (nmul o) c r)) b) (arows a)) else Err ValueError
    | _ => Err OracleError
    end.

  (** linear_model.Ridge(alpha=1.0, fit_intercept=False) (parameters.py:493): the attributes coef_ and
      intercept_, missing before the first fit *)
  Record ridge : Type := mkRidge { rg_coef : option (list N); rg_icept : option N }.
  Definition ridge_new : ridge := mkRidge None None.
  (** fit (parameters.py:358) stores the solution and intercept_ = 0.0, predict (parameters.py:421-423) reads
      both, clone (parameters.py:331) keeps only the constructor's arguments, and set_to_truth assigns coef_
      (parameters.py:472) *)
  Definition ridge_ops (solve : arr N -> list N -> res (list N)) : predictor N ridge :=
    mkPred
      (fun m a y => match solve a y with
                    | Err e => (m, Some e)
                    | Ok c => (mkRidge (Some c) (Some (nint o 0)), None)
                    end)
      (fun m a => do c <- attr (rg_coef m); do b <- attr (rg_icept m); linear_values a c b)
      (fun _ => ridge_new)
      (fun m c => mkRidge (Some c) (rg_icept m))
      (fun m b => mkRidge (rg_coef m) (Some b)).

  (** linear_model.LogisticRegression(warm_start=True) (parameters.py:494, 520). intercept_ is an array of one
      number after fit; set_to_truth assigns a Python number (parameters.py:474) *)
  Inductive intercept : Type := InArray (b : N) | Number (b : N).
  Record logit : Type := mkLogit { lo_coef : option (list N); lo_icept : option intercept; lo_classes : bool }.
  Definition logit_new : logit := mkLogit None None false.
  Definition icept_value (b : intercept) : N := match b with InArray x | Number x => x end.
  (** scipy.special.expit (predict_proba, parameters.py:417) *)
  Definition expit (x : N) : N := ndiv o (nint o 1) (nadd o (nint o 1) (nexp o (nsub o (nint o 0) x))).
  (** at most one class among the labels (parameters.py:359) *)
  Definition one_class (x : list N) : bool :=
    match x with [] => true | v :: rest => forallb (neqb o v) rest end.
  (** the start of a warm fit: np.append(coef_, intercept_[:, np.newaxis], axis=1) if coef_ exists
      (parameters.py:359). A Python number has no index: TypeError *)
  Definition warm_start (m : logit) : res (option (list N * N)) :=
    match lo_coef m with
    | None => Ok None
    | Some c => do b <- attr (lo_icept m);
                match b with Number _ => Err TypeError | InArray x => Ok (Some (c, x)) end
    end.
  (** fit (parameters.py:359), predict_proba(...)[:, 1] (parameters.py:417), clone (parameters.py:332), the
      assignments of coef_ and intercept_ (parameters.py:473-474) *)
  Definition logit_ops (solve : option (list N * N) -> arr N -> list N -> res (list N * N)) : predictor N logit :=
    mkPred
      (fun m a x =>
         if one_class x then (m, Some ValueError)
         else match (do s <- warm_start m; solve s a x) with
              | Err e => (m, Some e)
              | Ok (c, b) => (mkLogit (Some c) (Some (InArray b)) true, None)
              end)
      (fun m a => do c <- attr (lo_coef m); do b <- attr (lo_icept m);
                  do l <- linear_values a c (icept_value b);
                  if lo_classes m then Ok (map expit l) else Err AttributeError)
      (fun _ => logit_new)
      (fun m c => mkLogit (Some c) (lo_icept m) (lo_classes m))
      (fun m b => mkLogit (lo_coef m) (Some (Number b)) (lo_classes m)).

  (** kernel_ridge.KernelRidge and ensemble.GradientBoostingClassifier (parameters.py:519, 531-534): [T] what
      fit stores and predict reads. coef_ and intercept_ are attributes that no method reads, so assigning them
      (parameters.py:472-474) creates them without effect *)
  Record blackbox (T : Type) : Type := mkBox { bb_trained : option T; bb_coef : option (list N); bb_icept : option N }.
  Arguments mkBox {T} bb_trained bb_coef bb_icept.
  Arguments bb_trained {T} b.
  Arguments bb_coef {T} b.
  Arguments bb_icept {T} b.
  Definition box_new {T} : blackbox T := mkBox None None None.
  Definition box_ops {T} (train : arr N -> list N -> res T) (eval : T -> arr N -> res (list N)) : predictor N (blackbox T) :=
    mkPred
      (fun m a y => match train a y with
                    | Err e => (m, Some e)
                    | Ok t => (mkBox (Some t) (bb_coef m) (bb_icept m), None)
                    end)
      (fun m a => do t <- attr (bb_trained m); eval t a)
      (fun _ => box_new)
      (fun m c => mkBox (bb_trained m) (Some c) (bb_icept m))
      (fun m b => mkBox (bb_trained m) (bb_coef m) (Some b)).

  (** AIPWLinearLogistic.__init__ (parameters.py:490-497), AIPWKernelRidgeLogistic.__init__
      (parameters.py:516-523), AIPWKernelGradientBoosting.__init__ (parameters.py:529-538); the defaults of
      min_units and min_overlap are the ones of AIPW ([aipw_default]) *)
  Definition linear_logistic_new : aipw N ridge logit := aipw_new ridge_new logit_new.
  Definition kernel_logistic_new {T} : aipw N (blackbox T) logit := aipw_new box_new logit_new.
  Definition kernel_boosting_new {T B} : aipw N (blackbox T) (blackbox B) := aipw_new box_new box_new.

  (** the attribute response, which is public: a Ridge or something else (parameters.py:322, 500) *)
  Inductive response_model (M : Type) : Type := IsRidge (m : ridge) | IsOther (m : M).
  Arguments IsRidge {M} m.
  Arguments IsOther {M} m.
  (** get_response_parameters (parameters.py:499-503); [None] is (nan, nan) *)
  Definition get_response_parameters {M} (r : response_model M) : res (option (list N * N)) :=
    match r with
    | IsRidge m => do c <- attr (rg_coef m); do b <- attr (rg_icept m); Ok (Some (c, b))
    | IsOther _ => Ok None
    end.
End Estimators.
Arguments ridge : clear implicits.
Arguments logit : clear implicits.
Arguments intercept : clear implicits.
Arguments blackbox : clear implicits.
Arguments mkBox {N T} bb_trained bb_coef bb_icept.
Arguments bb_trained {N T} b.
Arguments bb_coef {N T} b.
Arguments bb_icept {N T} b.
Arguments IsRidge {N M} m.
Arguments IsOther {N M} m.
