(** Vocabulary for the statements about arms. *)
From Coq Require Import List Arith ZArith Bool Permutation.
From Verif Require Import PyBase Num NumOps DataModel DataSpec ArmModel.
Import ListNotations.

Section Spec.
  Context {N V H G : Type}.

  (** a history: batches with their delta *)
  Definition history := list (expdata V * N).

  (** calling an update method on every entry of a history, carrying on after exceptions;
      the results are collected *)
  Fixpoint feed (upd : arm N V H -> expdata V -> N -> G -> (arm N V H * G) * res (N * N))
    (a : arm N V H) (g : G) (h : history) : (arm N V H * G) * list (res (N * N)) :=
    match h with
    | [] => ((a, g), [])
    | (d, delta) :: h' =>
        let '((a1, g1), r) := upd a d delta g in
        let '((a2, g2), rs) := feed upd a1 g1 h' in
        ((a2, g2), r :: rs)
    end.

  (** permutations drawn are permutations *)
  Definition fair_perm (w : arm_world N G) : Prop := forall g l, Permutation (fst (aw_perm w g l)) l.

  Definition valid_delta (o : numops N) (delta : N) : bool :=
    nltb o (nint o 0) delta && nltb o delta (nint o 1).

  (** the transformed batches of a history whose delta is valid *)
  Definition transformed (o : numops N) (tr : expdata V -> res (expdata V)) (h : history) : list (expdata V) :=
    flat_map (fun b => if valid_delta o (snd b) then match tr (fst b) with Ok t => [t] | Err _ => [] end else []) h.

  (** every transformed batch is aligned and has the shape of [t0] *)
  Definition well_shaped (o : numops N) (tr : expdata V -> res (expdata V)) (t0 : expdata V) (h : history) : Prop :=
    Forall (fun t => aligned t /\ same_shape t0 t) (transformed o tr h).

  (** [p] splits the units of [t] in two parts whose sizes differ by at most one *)
  Definition halves (t : expdata V) (p : list (option (list V) * option (option (list V)) * option (option (list V))) *
                                         list (option (list V) * option (option (list V)) * option (option (list V)))) : Prop :=
    Permutation (fst p ++ snd p) (units t) /\ length (fst p) <= S (length (snd p)) /\ length (snd p) <= S (length (fst p)).

  (** ** instrumented nuisance parameters: a log of all fit and score calls *)
  Inductive event : Type := EFit (d : expdata V) | EScore (d : expdata V).

  Definition logged_eta (eo : eta_ops N V H G) : eta_ops N V (H * list event) G :=
    mkEta N V (H * list event) G
      (fun x d g => match e_fit eo (fst x) d g with
                    | ((h, g'), e) => (((h, snd x ++ [EFit d]), g'), e) end)
      (fun x => e_enough eo (fst x))
      (fun x d => match e_score eo (fst x) d with (h, r) => ((h, snd x ++ [EScore d]), r) end)
      (fun x => e_width eo (fst x))
      (fun x => (e_reset eo (fst x), [])).

  (** dropping the log *)
  Definition erase_arm (a : arm N V (H * list event)) : arm N V H :=
    mkArm (ar_ci a) (fst (ar_eta a)) (ar_ate a) (ar_var a) (ar_pulled a) (ar_split a) (ar_delta a).
  Definition log_of (a : arm N V (H * list event)) : list event := snd (ar_eta a).

  (** equality of two arms up to the stored interval and delta *)
  Definition same_but_ci (a b : arm N V H) : Prop :=
    ar_eta a = ar_eta b /\ ar_ate a = ar_ate b /\ ar_var a = ar_var b /\ ar_pulled a = ar_pulled b /\ ar_split a = ar_split b.
End Spec.
Arguments history : clear implicits.
Arguments event : clear implicits.

(** ** the finite-sample half-width as a real number (section 3.5 of the paper, cited in the code) *)
From Coq Require Import Reals.
Open Scope R_scope.
Definition width_arg (sg burn delta : R) (n : nat) : R :=
  2 * ln (Rmax sg (8 * sg ^ 2) * INR n / burn) / INR n + 1 / 2 + ln (4 / delta).
Definition real_width (sg tau burn delta : R) (n : nat) (eta_w : R) : R :=
  5 / 8 * (sqrt (2 * sg) + tau) * (sqrt (width_arg sg burn delta n) / sqrt (INR n)) + eta_w ^ 2.
(** options with the given real parameters *)
Definition real_opts (sg esg tau burn rho : R) (stable : bool) : ss_opts X :=
  mkSS FINITE_SAMPLE stable (Fin sg) (Fin esg) (Fin tau) (Fin burn) (Fin rho).
Close Scope R_scope.
