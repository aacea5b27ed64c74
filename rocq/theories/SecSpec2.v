(** Vocabulary for the example of Section 5.2: Gaussian process regressors that behave as
    documented, additive structural equations. *)
From Coq Require Import String List Arith ZArith Reals Bool.
From Verif Require Import PyBase Num NumLemmas NumOps DataModel ScmModel UtilModel TabSpec ExampleSpec PaperSpec CpdModel CpdSpec SecSpec.
From Verif Require Import ScmSpec.
Import ListNotations.
Open Scope string_scope.
Open Scope nat_scope.
Open Scope R_scope.

(** a regressor class on real numbers: a prior sample has one value per point for seeds in
    [0, 2^32), fitting on at least one point of dimension >= 1 succeeds, and a fitted regressor
    evaluates one function at every row *)
Record real_gp {M} (gpr : gp X M) (fitted : nat -> M -> Prop) (value : M -> list R -> R) : Prop := mkRealGp {
  gr_sample : forall pts n d sd, (1 <= n)%nat -> (1 <= d)%nat -> matrix n d pts -> (0 <= sd < 2 ^ 32)%Z ->
    exists y, gp_sample gpr (gp_new gpr) (map (map Fin) pts) sd = Ok (map Fin y) /\ length y = n;
  gr_fit : forall pts n d y, (1 <= n)%nat -> (1 <= d)%nat -> matrix n d pts -> length y = n ->
    exists m, gp_fit gpr (gp_new gpr) (map (map Fin) pts) (map Fin y) = (m, None) /\ fitted d m;
  gr_predict : forall m n d rows, fitted d m -> (1 <= n)%nat -> matrix n d rows ->
    gp_predict gpr m (rmat d rows) = Ok (map Fin (map (value m) rows)) }.

(** np.random.uniform(lo, hi) and np.random.randint(10000) *)
Record sane_global {G} (w : cpd_world X G) : Prop := mkSane {
  sg_uniform : forall lo hi g, lo <= hi -> exists s g', cw_uniform w (Fin lo) (Fin hi) g = (Fin s, g') /\ lo <= s <= hi;
  sg_randint : forall g, (0 <= fst (cw_randint w g) < 10000)%Z }.

(** the functions of the example: V_i -> X, V_i -> Z_i, Z_i -> Y; the values of Z0 and their
    probabilities given X *)
Record nlaw : Type := mkNLaw {
  nl_x : nat -> list R -> R;
  nl_z : nat -> list R -> R;
  nl_y : nat -> list R -> R;
  nl_support : list (list R);
  nl_prob : bool -> list R }.
(** its part that concerns Z0, as a law of the linear example *)
Definition z0_part (L : nlaw) : law := mkLaw (fun _ => []) (fun _ => []) (fun _ => []) (nl_support L) (nl_prob L).

Record nlaw_fits (zd : list nat) (L : nlaw) : Prop := mkNLawFits {
  nf_support : matrix 10 (nth 0 zd 0%nat) (nl_support L);
  nf_prob : forall b, is_distribution 10 (nl_prob L b) }.

(** sum_i f_i(parents[i]) for unit j *)
Definition additive (j : nat) (ps : list sample) (fs : list (list R -> R)) : R :=
  rsum (map2 (fun p f => f (unit_of j p)) ps fs).

(** a dict of CPDs follows the structural equations of such a law *)
Record nfollows {G} (w : cpd_world X G) (zd vd : list nat) (m : nat) (L : nlaw) (d : sdict (cpd X G)) : Prop := mkNFollows {
  (** V_i ~ N(0, 1) *)
  no_V : forall i f, (1 <= i <= m)%nat -> entry d (Vn i) f -> forall n args g es g',
    cw_mvnormal w (map Fin (repeat 0 (nth i vd 0%nat))) (map (map Fin) (diagonal 1 (nth i vd 0%nat))) n g = (Ok (map (map Fin) es), g') ->
    f n args g = (Ok (rmat (nth i vd 0%nat) es), g');
  (** Z_i = (h_i(V_i), ..., h_i(V_i)) + N(0, 0.1): one function for all components *)
  no_Z : forall i f, (1 <= i <= m)%nat -> entry d (Zn i) f -> forall n n' p g es g', (1 <= n)%nat ->
    fst p = nth i vd 0%nat -> samples_of n [p] ->
    cw_mvnormal w (map Fin (repeat 0 (nth i zd 0%nat))) (map (map Fin) (diagonal (1/10) (nth i zd 0%nat))) n g = (Ok (map (map Fin) es), g') ->
    matrix n (nth i zd 0%nat) es ->
    exists ys, f n' [sarr p] g = (Ok (rmat (nth i zd 0%nat) ys), g') /\ matrix n (nth i zd 0%nat) ys
      /\ forall j c, (j < n)%nat -> (c < nth i zd 0%nat)%nat ->
           nth c (nth j ys []) 0 = nl_z L i (unit_of j p) + nth c (nth j es []) 0;
  (** X ~ Bernoulli(sigmoid(sum_i f_i(V_i))) *)
  no_X : forall f, entry d "X" f -> forall n n' ps g xs g', (1 <= n)%nat ->
    map fst ps = map (fun i => nth i vd 0%nat) (seq 1 m) -> samples_of n ps ->
    cw_binom w (map (fun j => Fin (sigm (additive j ps (map (nl_x L) (seq 1 m))))) (seq 0 n)) g = (Ok xs, g') -> length xs = n ->
    f n' (map sarr ps) g = (Ok (vec xs), g');
  (** Z0 is drawn from the distribution belonging to X *)
  no_Z0 : forall f, entry d "Z0" f -> forall n' bs g rows g', bs <> [] -> z0_draws w (z0_part L) bs g rows g' ->
    f n' [vec (zos bs)] g = (Ok (rmat (nth 0 zd 0%nat) rows), g');
  (** Y = sum_i g_i(Z_i) + N(0, 0.1) *)
  no_Y : forall f, entry d "Y" f -> forall n n' ps g es g', (1 <= n)%nat ->
    map fst ps = map (fun i => nth i zd 0%nat) (seq 0 (S m)) -> samples_of n ps ->
    cw_normal w (repeat (Fin 0) n) (repeat (Fin (sqrt (1/10))) n) g = (Ok (map Fin es), g') -> length es = n ->
    exists ys, f n' (map sarr ps) g = (Ok (rvec ys), g') /\ length ys = n
      /\ forall j, (j < n)%nat -> nth j ys 0 = additive j ps (map (nl_y L) (seq 0 (S m))) + nth j es 0 }.
