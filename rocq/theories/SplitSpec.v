(** Vocabulary for the estimates of a sample-splitting arm on generated batches. *)
From Coq Require Import List Arith ZArith Bool String Reals.
From Verif Require Import PyBase Num NumOps DataModel ScmModel ScmSpec TabModel BanditModel ArmModel ArmSpec ParamModel ParamSpec PaperModel PaperSpec LawSpec ScoreSpec.
Import ListNotations.
Open Scope nat_scope.
Open Scope list_scope.

(** a generated batch *)
Definition batch {G} (s : scm X G) (n : nat) (g : G) : expdata X :=
  match fst (generate s n g) with Ok d => d | Err _ => ed_init None None None end.

(** the arm after one call of SampleSplittingArm.update (arms.py:187-281) per entry of [deltas], each on a batch of [n]
    units: the tapes of the batches are [gs] *)
Definition after_updates {M P G Q} (vnone : X) (la : linalg X) (pr : predictor X M) (pp : predictor X P) (cf : aipw_conf X)
    (w : arm_world X Q) (opts : ss_opts X) (k : mask) (a : arm X X (aipw X M P)) (q : Q) (s : scm X G) (n : nat) (deltas : list X) (gs : list G)
    : arm X X (aipw X M P) :=
  fst (fst (feed (ss_update xreal vnone (aipw_ops xreal pr pp la cf) w (select_fn k) opts) a q (combine (map (batch s n) gs) deltas))).

(** the reported estimates, where they are numbers *)
Definition as_real (v : option X) : option R := match v with Some (Fin r) => Some r | _ => None end.
Definition reported {M P} (a : arm X X (aipw X M P)) : bool :=
  match as_real (ar_ate a), as_real (ar_var a) with Some _, Some _ => true | _, _ => false end.
Definition or_zero (v : option R) : R := match v with Some r => r | None => 0%R end.

(** the dataset of the units [us]: covariates [z], treatment [x] and response [y] *)
Definition unit_data {U} (k : nat) (x : U -> bool) (z : U -> list R) (y : U -> R) (us : list U) : expdata X :=
  mkED (Some (mkArr [k] (map (fun u => map Fin (z u)) us))) (Some (vec (bits xreal (map x us))))
       (Some (vec (map (fun u => Fin (y u)) us))) (List.length us) k.

(** units that can be drawn *)
Definition possible {U} (T : law U) (us : list U) : Prop := Forall (fun u => exists p, In (u, p) T) us.

(** the states the parameter can reach by fits on units that can be drawn *)
Inductive trained {U M P} (T : law U) (x : U -> bool) (z : U -> list R) (y : U -> R) (pr : predictor X M) (pp : predictor X P) (cf : aipw_conf X)
    (h0 : aipw X M P) : aipw X M P -> Prop :=
| trained_0 : trained T x z y pr pp cf h0 h0
| trained_fit st us : trained T x z y pr pp cf h0 st -> possible T us ->
    trained T x z y pr pp cf h0 (fst (aipw_fit xreal pr pp cf st (unit_data (ac_dim cf) x z y us))).

(** fits do not raise, and once the parameter calls itself fitted its response function or its propensity is right *)
Definition learns {U M P} (T : law U) (x : U -> bool) (z : U -> list R) (y : U -> R) (pr : predictor X M) (pp : predictor X P) (cf : aipw_conf X)
    (h0 : aipw X M P) : Prop :=
  forall st, trained T x z y pr pp cf h0 st ->
    (forall us, possible T us -> snd (aipw_fit xreal pr pp cf st (unit_data (ac_dim cf) x z y us)) = None) /\
    (aipw_enough st = true -> exists mu e, fitted pr pp cf st mu e /\ (right_response T x z y mu \/ right_propensity T x z (1/4) e)).

(** the score of one unit, and its variance *)
Definition unit_score_of {G M P} (pr : predictor X M) (pp : predictor X P) (cf : aipw_conf X) (s : scm X G) (k : mask) (st : aipw X M P) (g : G) : R :=
  match arm_scores pr pp cf st s 1 k g with Ok [Fin r] => r | _ => 0%R end.
Definition variance {A} (T : law A) (f : A -> R) : R := mean T (fun a => ((f a - mean T f) ^ 2)%R).

(** what adjusting for [z] gives: the difference between treated and untreated units with equal [z], averaged over [z] *)
Definition contrast {A} (T : law A) (x : A -> bool) (z : A -> list R) (y : A -> R) : R :=
  (mean T (fun o => mean_given T (arm_of x z true o) y) - mean T (fun o => mean_given T (arm_of x z false o) y))%R.
