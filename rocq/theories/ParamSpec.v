(** Vocabulary for the statements about nuisance parameters. *)
From Coq Require Import List Arith ZArith Reals Bool.
From Verif Require Import PyBase Num NumOps DataModel TabModel TabSpec ArmModel ParamModel.
Import ListNotations.
Open Scope nat_scope.

Section Data.
  Context {N : Type}.
  (** covariate rows of length k, exposures and responses, one each per unit *)
  Definition dataset (d : expdata N) (k : nat) (rows : list (list N)) (x y : list N) : Prop :=
    dcov d = Some (mkArr [k] rows) /\ dexp d = Some (vec x) /\ drsp d = Some (vec y)
    /\ n_units d = length rows /\ n_features d = k
    /\ length x = length rows /\ length y = length rows /\ Forall (fun r => length r = k) rows.

  (** binary exposures: true is treated *)
  Definition bit (o : numops N) (b : bool) : N := nint o (if b then 1 else 0).
  Definition bits (o : numops N) (bs : list bool) : list N := map (bit o) bs.
  Definition treated (bs : list bool) : nat := count_occ bool_dec bs true.
  Definition control (bs : list bool) : nat := count_occ bool_dec bs false.

  (** the covariates with the exposures as a first column *)
  Definition with_exposure (x : list N) (k : nat) (rows : list (list N)) : arr N :=
    mkArr [S k] (map2 cons x rows).

  (** numbers in which whole numbers up to B add and compare exactly *)
  Record counting (o : numops N) (B : Z) : Prop := mkCounting {
    c_add : forall a b, (0 <= a)%Z -> (0 <= b)%Z -> (a + b <= B)%Z ->
      nadd o (nint o a) (nint o b) = nint o (a + b);
    c_ltb : forall a b, (Z.abs a <= B)%Z -> (Z.abs b <= B)%Z ->
      nltb o (nint o a) (nint o b) = (a <? b)%Z }.

  (** both groups have at least [m] units *)
  Definition large_enough (m : Z) (bs : list bool) : Prop :=
    (m <= Z.of_nat (treated bs))%Z /\ (m <= Z.of_nat (control bs))%Z.

  (** estimators that accept a dataset for training, whatever their state *)
  Definition trainable {M P} (pr : predictor N M) (pp : predictor N P) (k : nat) (rows : list (list N))
      (x y : list N) : Prop :=
    (forall m, snd (pr_fit pr m (with_exposure x k rows) y) = None)
    /\ (forall p, snd (pr_fit pp p (mkArr [k] rows) x) = None).

  (** a batch with binary exposures [bs], small enough for exact counting; the estimators accept
      it if both groups have [m] units *)
  Definition binary_batch {M P} (o : numops N) (pr : predictor N M) (pp : predictor N P) (k : nat) (m B : Z)
      (d : expdata N) (bs : list bool) : Prop :=
    exists rows y, dataset d k rows (bits o bs) y /\ (Z.of_nat (length bs) + Z.abs m <= B)%Z
      /\ (large_enough m bs -> trainable pr pp k rows (bits o bs) y).

  (** a sequence of fits of any state type; exceptions are ignored *)
  Definition fits {S} (fit : S -> expdata N -> S * option exn) (s : S) (ds : list (expdata N)) : S :=
    fold_left (fun s d => fst (fit s d)) ds s.
End Data.

(** the entries of a list at which a mask is true *)
Definition pick {A} (bs : list bool) (l : list A) : list A := map snd (filter fst (combine bs l)).

Open Scope R_scope.

(** ** finite populations: weighted atoms *)
Record atom : Type := mkAtom { a_w : R; a_z : list R; a_x : bool; a_y : R }.

Definition z_eq : forall a b : list R, {a = b} + {a <> b} := list_eq_dec Req_EM_T.
Definition has_z (z : list R) (a : atom) : bool := if z_eq (a_z a) z then true else false.
Definition has_x (x : bool) (a : atom) : bool := Bool.eqb (a_x a) x.
(** the probability of an event, and the integral of a function over it *)
Definition mass (pop : list atom) (ev : atom -> bool) : R := rsum (map a_w (filter ev pop)).
Definition integral (pop : list atom) (ev : atom -> bool) (f : atom -> R) : R :=
  rsum (map (fun a => a_w a * f a) (filter ev pop)).
(** the covariate values that occur *)
Definition z_values (pop : list atom) : list (list R) := nodup z_eq (map a_z pop).
(** P(Z = z), P(X = x), P(X = x, Z = z), P(Z = z | X = x), P(X = 1 | Z = z), E[Y | X = x, Z = z] *)
Definition p_z (pop : list atom) (z : list R) : R := mass pop (has_z z).
Definition p_x (pop : list atom) (x : bool) : R := mass pop (has_x x).
Definition p_xz (pop : list atom) (x : bool) (z : list R) : R := mass pop (fun a => has_x x a && has_z z a).
Definition p_z_given (pop : list atom) (x : bool) (z : list R) : R := p_xz pop x z / p_x pop x.
Definition propensity (pop : list atom) (z : list R) : R := p_xz pop true z / p_z pop z.
Definition e_y (pop : list atom) (x : bool) (z : list R) : R :=
  integral pop (fun a => has_x x a && has_z z a) a_y / p_xz pop x z.

(** weights are probabilities and every covariate value occurs with both exposures *)
Definition population (pop : list atom) : Prop :=
  (forall a, In a pop -> 0 <= a_w a) /\ rsum (map a_w pop) = 1
  /\ forall z x, In z (z_values pop) -> 0 < p_xz pop x z.

(** the effect by back-door adjustment and by the front-door formula *)
Definition ate_backdoor (pop : list atom) : R :=
  rsum (map (fun z => p_z pop z * (e_y pop true z - e_y pop false z)) (z_values pop)).
Definition ate_frontdoor (pop : list atom) : R :=
  rsum (map (fun z => (p_z_given pop true z - p_z_given pop false z)
                      * (p_x pop true * e_y pop true z + p_x pop false * e_y pop false z)) (z_values pop)).

(** the mean of one value per atom *)
Definition pop_mean (pop : list atom) (vs : list R) : R := rsum (map2 Rmult (map a_w pop) vs).

(** the atoms as units of a dataset *)
Definition of_population (pop : list atom) (k : nat) (d : expdata X) : Prop :=
  dataset d k (map (fun a => map Fin (a_z a)) pop) (bits xreal (map a_x pop)) (map (fun a => Fin (a_y a)) pop).

(** a predictor in a state in which it evaluates a real function of the row on every array
    with [k] columns *)
Definition evaluates {M} (pr : predictor X M) (m : M) (k : nat) (f : list R -> R) : Prop :=
  forall rows : list (list R), Forall (fun r => length r = k) rows ->
    pr_predict pr m (mkArr [k] (map (map Fin) rows)) = Ok (map (fun r => Fin (f r)) rows).

Definition b2r (b : bool) : R := if b then 1 else 0.

(** clipping to [lo, 1 - lo] *)
Definition rclip (lo p : R) : R := Rmin (1 - lo) (Rmax lo p).

(** the doubly robust score of one unit *)
Definition dr_score (mu : bool -> R) (e : R) (x : bool) (y : R) : R :=
  mu true - mu false + (if x then (y - mu true) / e else - (y - mu false) / (1 - e)).

(** ** the front-door score of one unit *)
Definition fd_score_spec (y mu p1 p0 p f1 f2 f3 : R) (x : bool) (px : R) : R :=
  (y - mu) * ((p1 - p0) / p) + f1 + (if x then 1 / px else - (1 / (1 - px))) * (f2 - f3).

(** an entry of a table of conditional probabilities, 0 when missing *)
Definition entry_of (t : tab X) (x z : key) : X :=
  match dget (t_table t) x with
  | Some r => match dget r z with Some v => v | None => Fin 0 end
  | None => Fin 0
  end.

Definition real_of (x : X) : R := match x with Fin r => r | _ => 0 end.

(** the functions f_2 and f_3 of the code's documentation, from a response function and the
    probability of treatment; [zs] is the support, [q x] the probability of the unit's own
    covariates given x *)
Definition f2_spec (mu : list R -> R) (px : R) (z : list R) : R :=
  px * mu (1 :: z) + (1 - px) * mu (0 :: z).
Definition f3_spec (mu : list R -> R) (px : R) (zs : list (list R)) (q : bool -> R) : R :=
  rsum (map (fun z' => mu (1 :: z') * px * q true + mu (0 :: z') * (1 - px) * q false) zs).
(** f_1, from the difference [dp] of the conditional probabilities of a support value *)
Definition f1_spec (mu : list R -> R) (zs : list (list R)) (dp : list R -> R) (x : bool) : R :=
  rsum (map (fun z' => mu (b2r x :: z') * dp z') zs).

(** ** matrices *)
(** the k by k array with the entries f i j *)
Definition mat (k : nat) (f : nat -> nat -> R) : list (list X) :=
  map (fun i => map (fun j => Fin (f i j)) (seq 0 k)) (seq 0 k).
Definition rprod (k : nat) (f g : nat -> nat -> R) (i j : nat) : R :=
  rsum (map (fun a => f i a * g a j) (seq 0 k)).
(** c A + r I *)
Definition shifted (c r : R) (f : nat -> nat -> R) (i j : nat) : R :=
  c * f i j + (if (i =? j)%nat then r else 0).
(** the Gram matrix of rows of numbers *)
Definition gram (rows : list (list R)) (i j : nat) : R :=
  rsum (map (fun r => nth i r 0 * nth j r 0) rows).

(** the width of the confidence sequence, from the determinant [det] of sub_g V + rho I and
    the smallest eigenvalue [lam] of V (V + rho / sub_g I)^-1 V *)
Definition radius_spec (sub_g rho : R) (d : nat) (det lam delta : R) : R :=
  sqrt (sub_g * ln (det / (rho ^ d * delta ^ 2))) / sqrt lam.
Definition width_spec (sub_g rho : R) (d : nat) (det lam ov delta : R) : R :=
  radius_spec sub_g rho d det lam delta * (1 / ov - 1).

Close Scope R_scope.

(** ** the states that a program can reach: a new front-door parameter, after fits (also those
    that raised), scores and resets; [k] columns everywhere *)
Inductive fd_reached {N M : Type} (o : numops N) (pr : predictor N M) (cd : coding N) (ridge : M)
    (cf : fd_conf N) : fdoor N M -> Prop :=
| fr_new : fd_reached o pr cd ridge cf (fd_new o ridge cf)
| fr_fit : forall s d rows x y, fd_reached o pr cd ridge cf s -> dataset d (fc_dim cf) rows x y ->
    fd_reached o pr cd ridge cf (fst (fd_fit o pr cd cf s d))
| fr_score : forall s d, fd_reached o pr cd ridge cf s ->
    fd_reached o pr cd ridge cf (fst (fd_score o pr cd cf s d))
| fr_reset : forall s, fd_reached o pr cd ridge cf s ->
    fd_reached o pr cd ridge cf (fd_reset o ridge cf s).
