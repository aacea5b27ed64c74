(** Vocabulary for the statements about bandit runs. *)
From Coq Require Import List Arith ZArith Reals Bool.
From Flocq Require Import Core BinarySingleNaN.
From Verif Require Import PyBase Num NumLemmas BanditModel.
Import ListNotations.
Open Scope nat_scope.

(** what was recorded for arm [j] in round [t] *)
Definition recorded {A G} (s : bstate (A := A) (G := G)) (j t : nat) : option reading :=
  match nth_error (b_hist s) j with Some h => nth_error h t | None => None end.
Definition recorded_last {A G} (s : bstate (A := A) (G := G)) (j : nat) : option reading :=
  recorded s j (length (b_cum s) - 1).
Definition recorded_samples {A G} (s : bstate (A := A) (G := G)) (j t : nat) : option nat :=
  match nth_error (b_smp s) j with Some h => nth_error h t | None => None end.

(** the samples recorded for all arms up to and including round [t] *)
Definition samples_upto {A G} (s : bstate (A := A) (G := G)) (t : nat) : nat :=
  list_sum (map (fun h => list_sum (firstn (S t) h)) (b_smp s)).

(** [r] is what an arm currently reports: cost times its interval and estimate *)
Definition reports {A D G} (ops : arm_ops A D G) (a : A) (r : reading) : Prop :=
  exists l u v, a_ci ops a = (Some l, Some u) /\ a_var ops a = Some v /\
    r_lcb r = fmul (a_cost ops a) l /\ r_ucb r = fmul (a_cost ops a) u /\
    r_var r = fmul (a_cost ops a) v.

(** positions whose variance estimate equals the smallest one, in increasing order;
    [m] is a smallest non-NaN estimate *)
Definition argmins (vs : list F) (best : list nat) : Prop :=
  exists m, In m vs /\ num m /\ (forall v, In v vs -> num v -> (fkey m <= fkey v)%R) /\
    best = filter (fun i => feqb (nth i vs fnan) m) (seq 0 (length vs)).

(** a real value lies in a recorded interval (an infinite end does not constrain) *)
Definition in_interval (r : reading) (v : R) : Prop :=
  (r_lcb r = fninf \/ (is_finite (r_lcb r) = true /\ (B2R (r_lcb r) <= v)%R)) /\
  (r_ucb r = finf \/ (is_finite (r_ucb r) = true /\ (v <= B2R (r_ucb r))%R)).

Definition exceeds (total : nat) (l : limit) : Prop :=
  match l with LInt z => (z < Z.of_nat total)%Z | _ => False end.

(** the same arms, instrumented with the list of all (data, delta) they were updated with *)
Definition logged {A D G} (ops : arm_ops A D G) : arm_ops (A * list (D * F)) D G :=
  mkArmOps (A * list (D * F)) D G
    (fun x => a_cost ops (fst x))
    (fun x => a_ci ops (fst x))
    (fun x => a_var ops (fst x))
    (fun x => a_units ops (fst x))
    (fun x d delta g =>
       match a_update ops (fst x) d delta g with
       | ((a', g'), e) => (((a', snd x ++ [(d, delta)]), g'), e)
       end)
    (fun x => (a_reset ops (fst x), [])).

Definition with_log {A D} (arms : list A) : list (A * list (D * F)) := map (fun a => (a, [])) arms.

Definition final_state {S R} (o : outcome S R) : S :=
  match o with Returned _ s => s | Raised _ s => s | OutOfFuel s => s end.
Definition terminated {S R} (o : outcome S R) : Prop :=
  match o with OutOfFuel _ => False | _ => True end.

(** random choices return one of the offered positions *)
Definition fair_choice {D G} (w : world D G) : Prop :=
  (forall g l, l <> [] -> In (fst (w_choice w g l)) l) /\
  (forall g (n : nat), (2 <= n)%nat -> fst (fst (w_choice2 w g n)) < n /\ snd (fst (w_choice2 w g n)) < n /\
                         fst (fst (w_choice2 w g n)) <> snd (fst (w_choice2 w g n))).

Inductive algorithm : Type := Uniform | LUCB | SE.
Definition run {A D G} (alg : algorithm) (ops : arm_ops A D G) (w : world D G) (cfg : config)
  (fuel : nat) (all_data : option D) (arms : list A) (g : G) : outcome (bstate (A := A) (G := G)) (list nat) :=
  match alg with
  | Uniform => run_uniform ops w cfg fuel all_data arms g
  | LUCB => run_lucb ops w cfg fuel all_data arms g
  | SE => run_se ops w cfg fuel all_data arms g
  end.

(** a float strictly between 0 and 1 *)
Definition proper_prob (x : F) : Prop := is_finite x = true /\ (0 < B2R x < 1)%R.
(** not a negative number (NaN and infinity pass) *)
Definition not_negative (x : F) : Prop := fisnan x = true \/ x = finf \/ (is_finite x = true /\ (0 <= B2R x)%R).

(** the readings of all arms at the end *)
Definition reported {A D G} (ops : arm_ops A D G) (s : bstate (A := A) (G := G)) (rs : list reading) : Prop :=
  Forall2 (reports ops) (b_arms s) rs.

(** arm [i] is separated from all others: its upper bound plus the tolerance lies strictly
    (in exact real arithmetic) below every other arm's lower bound; a lower bound that is
    +infinity or NaN does not constrain *)
Definition separated (tol : F) (rs : list reading) (i : nat) : Prop :=
  is_finite tol = true /\
  exists ri, nth_error rs i = Some ri /\ is_finite (r_ucb ri) = true /\
  forall j rj, nth_error rs j = Some rj -> j <> i ->
    fisnan (r_lcb rj) = true \/ r_lcb rj = finf \/
    (is_finite (r_lcb rj) = true /\ (B2R (r_ucb ri) + B2R tol < B2R (r_lcb rj))%R).

(** what the sample-limit exit returns: the arms with the smallest variance estimate, or
    nothing if the first estimate is NaN *)
Definition smallest_variance (vs : list F) (best : list nat) : Prop :=
  (exists v vs', vs = v :: vs' /\ fisnan v = true /\ best = []) \/ (vs = [] /\ best = []) \/ argmins vs best.

(** confidence and sample_limit arguments the constructor accepts *)
Definition limits_ok (c : option F) (lim : limit) : Prop :=
  match c with Some x => proper_prob x | None => exists z, lim = LInt z end.

(** reading number [i] *)
Definition rd (rs : list reading) (i : nat) : reading := nth i rs (mkReading fnan fnan fnan).
(** an arm whose variance estimate is smallest *)
Definition incumbent (rs : list reading) (i : nat) : Prop :=
  i < length rs /\ forall k, k < length rs -> (fkey (r_var (rd rs i)) <= fkey (r_var (rd rs k)))%R.
(** no NaN *)
Definition numeric (r : reading) : Prop := num (r_lcb r) /\ num (r_ucb r) /\ num (r_var r).
(** lower bound strictly below upper bound *)
Definition good_interval (r : reading) : Prop := fltb (r_lcb r) (r_ucb r) = true.
(** infinite upper bound or NaN estimate *)
Definition undecided (r : reading) : Prop := fisinf (r_ucb r) = true \/ fisnan (r_var r) = true.
(** a property of everything recorded in a run *)
Definition all_recorded {A G} (P : nat -> reading -> Prop) (s : bstate (A := A) (G := G)) : Prop :=
  forall j t r, recorded s j t = Some r -> P j r.

(** dropping the logs *)
Definition erase {A D G} (s : bstate (A := A * list (D * F)) (G := G)) : bstate (A := A) (G := G) :=
  mkB (map fst (b_arms s)) (b_g s) (b_hist s) (b_smp s) (b_cum s) (b_total s) (b_cand s).
Definition erase_outcome {A D G R} (x : outcome (bstate (A := A * list (D * F)) (G := G)) R) : outcome (bstate (A := A) (G := G)) R :=
  match x with Returned r s => Returned r (erase s) | Raised e s => Raised e (erase s) | OutOfFuel s => OutOfFuel (erase s) end.
