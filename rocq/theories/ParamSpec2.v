(** Further vocabulary for the statements about nuisance parameters: C83 to C85. *)
From Coq Require Import List Arith ZArith Reals Bool.
From Verif Require Import PyBase Num NumOps DataModel TabModel TabSpec ArmModel ParamModel ParamSpec.
Import ListNotations.

Open Scope R_scope.
(** the radius of a confidence sequence for a mean of n values in [0, 1] *)
Definition boundary_spec (rho : R) (n : nat) (delta : R) : R :=
  sqrt ((1 / 4 + rho / INR n) / INR n * ln ((INR n / 4 + rho) / (delta ^ 2 * rho))).
(** the boundary is not defined below this number of units *)
Definition boundary_from (rho delta : R) : R := delta ^ 2 / (4 * rho).
(** the front-door width: the error probability is divided by 3 for the regression and by 9 for
    the boundary *)
Definition fd_width_spec (sub_g rho : R) (d : nat) (det lam ov : R) (n : nat) (delta : R) : R :=
  radius_spec sub_g rho d det lam (delta / 3) * (1 + 2 * (1 / ov - 1))
  + boundary_spec rho n (delta / 9) * (1 / ov - 1).
(** a linear function *)
Definition affine (c : list R) (b : R) (z : list R) : R := rsum (map2 Rmult c z) + b.
Close Scope R_scope.

(** what a program does with a parameter, and what it observes *)
Inductive action (N : Type) : Type :=
| Fit (d : expdata N) | Score (d : expdata N) | Width (delta sub_g rho : N) | Enough | Truth (gen : option (lin_gen N)) | Reset.
Arguments Fit {N} d.
Arguments Score {N} d.
Arguments Width {N} delta sub_g rho.
Arguments Enough {N}.
Arguments Truth {N} gen.
Arguments Reset {N}.
Inductive seen (N : Type) : Type :=
| SawExn (e : option exn) | SawScore (r : res (list N)) | SawWidth (r : res N) | SawBool (b : bool).
Arguments SawExn {N} e.
Arguments SawScore {N} r.
Arguments SawWidth {N} r.
Arguments SawBool {N} b.

(** one action and a sequence of actions, for a parameter given by its methods *)
Record methods (N S : Type) : Type := mkMethods {
  m_fit : S -> expdata N -> S * option exn; m_score : S -> expdata N -> S * res (list N);
  m_width : S -> N -> N -> N -> res N; m_enough : S -> bool;
  m_truth : S -> option (lin_gen N) -> S * option exn; m_reset : S -> S }.
Arguments mkMethods {N S}.
Arguments m_fit {N S} m.
Arguments m_score {N S} m.
Arguments m_width {N S} m.
Arguments m_enough {N S} m.
Arguments m_truth {N S} m.
Arguments m_reset {N S} m.
Definition act {N S} (m : methods N S) (s : S) (a : action N) : S * seen N :=
  match a with
  | Fit d => let '(s', e) := m_fit m s d in (s', SawExn e)
  | Score d => let '(s', r) := m_score m s d in (s', SawScore r)
  | Width delta sub_g rho => (s, SawWidth (m_width m s delta sub_g rho))
  | Enough => (s, SawBool (m_enough m s))
  | Truth gen => let '(s', e) := m_truth m s gen in (s', SawExn e)
  | Reset => (m_reset m s, SawExn None)
  end.
Fixpoint acts {N S} (m : methods N S) (s : S) (l : list (action N)) : S * list (seen N) :=
  match l with
  | [] => (s, [])
  | a :: l' => let '(s1, x) := act m s a in let '(s2, xs) := acts m s1 l' in (s2, x :: xs)
  end.

(** the methods of AIPW and of the front-door parameter; the latter has no set_to_truth of its own *)
Definition aipw_methods {N M P} (o : numops N) (pr : predictor N M) (pp : predictor N P) la cf : methods N (aipw N M P) :=
  mkMethods (aipw_fit o pr pp cf) (fun s d => (s, aipw_score o pr pp cf s d)) (aipw_width o la cf) aipw_enough
    (aipw_truth o pr pp cf) (aipw_reset pr pp).
Definition fd_methods {N M} (o : numops N) (pr : predictor N M) cd la ridge cf : methods N (fdoor N M) :=
  mkMethods (fd_fit o pr cd cf) (fd_score o pr cd cf) (fd_width o la cf) (@fd_fitted N M)
    (fun s _ => (s, None)) (fd_reset o ridge cf).

(** cloning an estimator keeps its hyper-parameters and forgets everything it has learnt *)
Definition clones {N M} (pr : predictor N M) : Prop :=
  (forall m a y, pr_clone pr (fst (pr_fit pr m a y)) = pr_clone pr m) /\
  (forall m, pr_clone pr (pr_clone pr m) = pr_clone pr m) /\
  (forall m c, pr_clone pr (pr_coef pr m c) = pr_clone pr m) /\
  (forall m b, pr_clone pr (pr_icept pr m b) = pr_clone pr m).
