(** Vocabulary for the scores of an arm on generated data. *)
From Coq Require Import List Arith ZArith Bool String Reals.
From Verif Require Import PyBase Num NumOps DataModel ScmModel ScmSpec TabModel BanditModel ArmModel ParamModel ParamSpec PaperModel PaperSpec LawSpec.
Import ListNotations.
Open Scope nat_scope.
Open Scope list_scope.

(** the scores AIPW gives the units of a generated dataset after an arm's mask *)
Definition arm_scores {G M P} (pr : predictor X M) (pp : predictor X P) (cf : aipw_conf X) (st : aipw X M P)
    (s : scm X G) (n : nat) (k : mask) (g : G) : res (list X) :=
  do d <- fst (generate s n g); do r <- select_fn k d; aipw_score xreal pr pp cf st r.

(** the number in an array with one entry *)
Definition entry_real (a : option (arr X)) : R :=
  match a with Some a => match arows a with [[Fin r]] => r | _ => 0%R end | None => 0%R end.

(** datasets of one unit: a binary treatment [x], a real response [y], and the arm gets the real numbers [z] *)
Definition one_unit {W} (T : law (list W)) (s : scm X (list W)) (k : mask)
    (x : list W -> bool) (z : list W -> list R) (y : list W -> R) : Prop :=
  forall g p, In (g, p) T ->
    drawn s 1 g "X" = Some (vec [bit xreal (x g)]) /\ drawn s 1 g "Y" = Some (vec [Fin (y g)]) /\
    seen s 1 k g = Some (mkArr [List.length (z g)] [map Fin (z g)]).

(** the event that the covariates are those of [o] *)
Definition like {A} (z : A -> list R) (o o' : A) : bool := if z_eq (z o') (z o) then true else false.
(** ... and that the unit is treated ([b] = true) or not *)
Definition arm_of {A} (x : A -> bool) (z : A -> list R) (b : bool) (o o' : A) : bool := Bool.eqb (x o') b && like z o o'.

(** among units with the same covariates some are treated and some are not *)
Definition positive {A} (T : law A) (x : A -> bool) (z : A -> list R) : Prop :=
  forall o p b, In (o, p) T -> (0 < p)%R -> (0 < prob T (arm_of x z b o))%R.

(** a response function that is E[Y | X, Z], and a propensity that is P(X = 1 | Z) and is not clipped *)
Definition right_response {A} (T : law A) (x : A -> bool) (z : A -> list R) (y : A -> R) (mu : list R -> R) : Prop :=
  forall o p b, In (o, p) T -> (0 < p)%R -> mu (b2r b :: z o) = mean_given T (arm_of x z b o) y.
Definition right_propensity {A} (T : law A) (x : A -> bool) (z : A -> list R) (lo : R) (e : list R -> R) : Prop :=
  forall o p, In (o, p) T -> (0 < p)%R ->
    e (z o) = (prob T (arm_of x z true o) / prob T (like z o))%R /\ (lo <= e (z o) <= 1 - lo)%R.

(** a CPD that draws the units independently: it takes one list of random values from the tape, and
    the row of unit [u] is a function of the [u]-th of them and of the parents' rows [u] *)
Definition unitwise {W V} (w0 : W) (f : cpd V (list (list W))) : Prop :=
  exists t (phi : list (list V) -> W -> list V), forall n args ws g,
    f n args (ws :: g) =
    (Ok (mkArr t (map (fun u => phi (map (fun a => nth u (arows a) []) args) (nth u ws w0)) (seq 0 n))), g).

(** the tapes for [n] units with independent random values *)
Definition unit_tapes {W} (seeds : law W) (n k : nat) : law (list (list W)) := tapes (tapes seeds n) k.

(** AIPW after a fit, with the response function [mu] and the propensity [e] *)
Definition fitted {M P} (pr : predictor X M) (pp : predictor X P) (cf : aipw_conf X) (st : aipw X M P) (mu e : list R -> R) : Prop :=
  aipw_enough st = true /\ evaluates pr (ap_resp st) (S (ac_dim cf)) mu /\ evaluates pp (ap_prop st) (ac_dim cf) e.

(** the difference of the mean responses of one unit with the treatment set to 1 and to 0 by the CPDs of [s1] and [s0] *)
Definition effect {W} (T : law (list W)) (s1 s0 : scm X (list W)) : R :=
  (mean T (fun g => entry_real (drawn s1 1 g "Y")) - mean T (fun g => entry_real (drawn s0 1 g "Y")))%R.

(** [s'] is [s] with the treatment set to [b] for one unit *)
Definition sets_treatment {W} (s s' : scm X (list W)) (b : bool) : Prop :=
  exists f, (forall args g, f 1 args g = (Ok (vec [bit xreal b]), g)) /\ replaces s "X" f s'.

Definition average (l : list R) : R := (TabSpec.rsum l / INR (List.length l))%R.
