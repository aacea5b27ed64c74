(** Vocabulary for the example SCMs: what they should sample and the moments they should have. *)
From Coq Require Import List Arith ZArith Reals Bool.
From Verif Require Import PyBase NumOps DataModel ScmModel TabSpec ExampleModel.
Import ListNotations.
Open Scope R_scope.

(** 0/1 values *)
Definition zo (b : bool) : R := if b then 1 else 0.
Definition zos (bs : list bool) : list X := map (fun b => Fin (zo b)) bs.

(** a well-behaved generator: uniform draws lie between the bounds, Bernoulli draws with
    probabilities in [0, 1] succeed, normal draws are real numbers *)
Definition fair {G} (w : ex_world X G) : Prop :=
  (forall lo hi g, lo <= hi -> exists r g', ew_uniform w (Fin lo) (Fin hi) g = (Fin r, g') /\ lo <= r <= hi)
  /\ (forall ps g, Forall (fun p => 0 <= p <= 1) ps ->
        exists bs g', ew_binom w (map Fin ps) g = (Ok (zos bs), g') /\ length bs = length ps)
  /\ (forall n g, exists es g', ew_normal w n g = (map Fin es, g') /\ length es = n).

(** a linear expectation of functions of the noise: mean 0 and variance 1, as for the standard
    normal distribution *)
Record noise (E : (R -> R) -> R) : Prop := mkNoise {
  ns_ext : forall f g, (forall e, f e = g e) -> E f = E g;
  ns_lin : forall a b f g, E (fun e => a * f e + b * g e) = a * E f + b * E g;
  ns_one : E (fun _ => 1) = 1;
  ns_mean : E (fun e => e) = 0;
  ns_var : E (fun e => e * e) = 1 }.

(** expectation over a Bernoulli variable *)
Definition bern (p : R) (f : R -> R) : R := p * f 1 + (1 - p) * f 0.

(** ** Z -> X -> Y <- Z: P(Z=1), P(X=1|Z), and Y as a function of the noise, Z and X *)
Record bd_law : Type := mkBdLaw { bl_p : R; bl_px : R -> R; bl_y : R -> R -> R -> R }.

Definition bd_mean (E : (R -> R) -> R) (L : bd_law) (f : R -> R -> R -> R) : R :=
  bern (bl_p L) (fun z => bern (bl_px L z) (fun x => E (fun e => f z x (bl_y L e z x)))).
Definition bd_variance E L (f : R -> R -> R -> R) : R :=
  bd_mean E L (fun z x y => (f z x y - bd_mean E L f) * (f z x y - bd_mean E L f)).
(** the intervention X := b *)
Definition bd_do (b : bool) (L : bd_law) : bd_law := mkBdLaw (bl_p L) (fun _ => zo b) (bl_y L).

(** n units drawn according to the law with the generator [w] *)
Definition bd_sample {G} (w : ex_world X G) (L : bd_law) (n : nat) (g : G) (d : expdata X) (g' : G) : Prop :=
  exists zs xs es g1 g2,
    ew_binom w (repeat (Fin (bl_p L)) n) g = (Ok (zos zs), g1) /\ length zs = n
    /\ ew_binom w (map (fun z => Fin (bl_px L (zo z))) zs) g1 = (Ok (zos xs), g2) /\ length xs = n
    /\ ew_normal w n g2 = (map Fin es, g') /\ length es = n
    /\ d = mkED (Some (mkArr [1%nat] (map (fun z => [Fin (zo z)]) zs))) (Some (vec (zos xs)))
             (Some (vec (map (fun t => Fin (bl_y L (fst t) (zo (fst (snd t))) (zo (snd (snd t))))) (combine es (combine zs xs))))) n 1.

(** ** U -> X -> Z -> Y <- U: P(U=1), P(X=1|U), P(Z=1|X), and Y from the noise, U and Z *)
Record fd_law : Type := mkFdLaw { fl_p : R; fl_px : R -> R; fl_pz : R -> R; fl_y : R -> R -> R -> R }.

Definition fd_mean (E : (R -> R) -> R) (L : fd_law) (f : R -> R -> R -> R -> R) : R :=
  bern (fl_p L) (fun u => bern (fl_px L u) (fun x => bern (fl_pz L x) (fun z => E (fun e => f u x z (fl_y L e u z))))).
Definition fd_variance E L (f : R -> R -> R -> R -> R) : R :=
  fd_mean E L (fun u x z y => (f u x z y - fd_mean E L f) * (f u x z y - fd_mean E L f)).
Definition fd_do (b : bool) (L : fd_law) : fd_law := mkFdLaw (fl_p L) (fun _ => zo b) (fl_pz L) (fl_y L).

Definition fd_sample {G} (w : ex_world X G) (L : fd_law) (n : nat) (g : G) (d : expdata X) (g' : G) : Prop :=
  exists us xs zs es g1 g2 g3,
    ew_binom w (repeat (Fin (fl_p L)) n) g = (Ok (zos us), g1) /\ length us = n
    /\ ew_binom w (map (fun u => Fin (fl_px L (zo u))) us) g1 = (Ok (zos xs), g2) /\ length xs = n
    /\ ew_binom w (map (fun x => Fin (fl_pz L (zo x))) xs) g2 = (Ok (zos zs), g3) /\ length zs = n
    /\ ew_normal w n g3 = (map Fin es, g') /\ length es = n
    /\ d = mkED (Some (mkArr [2%nat] (map (fun t => [Fin (zo (fst t)); Fin (zo (snd t))]) (combine us zs)))) (Some (vec (zos xs)))
             (Some (vec (map (fun t => Fin (fl_y L (fst t) (zo (fst (snd t))) (zo (snd (snd t))))) (combine es (combine us zs))))) n 2.

(** the logistic function *)
Definition sigm (x : R) : R := 1 / (1 + exp (- x)).

(** the laws of the two examples (example_scm.py:52-60, 129-144) *)
Definition bd_law_of (p alpha beta : R) : bd_law :=
  mkBdLaw p (fun z => 1/2 + alpha * z) (fun e z x => e + 10 * x + beta * z).
Definition fd_law_of (p beta gamma alpha_1 alpha_2 : R) : fd_law :=
  mkFdLaw p (fun u => sigm (alpha_1 * u)) (fun x => sigm (beta * x)) (fun e u z => e + gamma * z + alpha_2 * u).
