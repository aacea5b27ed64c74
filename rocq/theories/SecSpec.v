(** Vocabulary for the examples of Section 5: the structural equations that the generated CPDs
    should follow, the shapes of their samples, a seeded generator that behaves as documented. *)
From Coq Require Import String List Arith ZArith Reals Bool.
From Verif Require Import PyBase Num NumLemmas NumOps DataModel ScmModel ScmSpec TabSpec ExampleSpec PaperSpec CpdModel CpdSpec.
Import ListNotations.
Open Scope string_scope.
Open Scope nat_scope.
Open Scope R_scope.

(** np.random.default_rng(seed) on real numbers *)
Record real_rng {Q} (r : rng_world X Q) : Prop := mkRealRng {
  rr_uniform : forall lo hi q, lo <= hi ->
    exists s q', rw_uniform r (Fin lo) (Fin hi) q = (Fin s, q') /\ lo <= s <= hi;
  rr_std : forall k q, exists l q', rw_std r k q = (map Fin l, q') /\ length l = k;
  rr_normal : forall ms q, exists l q', rw_normal1 r (map Fin ms) q = (map Fin l, q') /\ length l = length ms }.

(** the identity matrix times c *)
Definition diagonal (c : R) (k : nat) : list (list R) :=
  map (fun i => map (fun j => if Nat.eqb i j then c else 0) (seq 0 k)) (seq 0 k).

(** the coefficients of the linear example: V_i -> X, V_i -> Z_i, Z_i -> Y; the values of Z0 and
    their probabilities given X *)
Record law : Type := mkLaw {
  lw_gamma : nat -> list R;
  lw_alpha : nat -> list (list R);
  lw_beta : nat -> list R;
  lw_support : list (list R);
  lw_prob : bool -> list R }.

Definition is_distribution (k : nat) (p : list R) : Prop :=
  length p = k /\ Forall (fun x => 0 < x <= 1) p /\ rsum p = 1.

(** the dimensions are the declared ones *)
Record law_fits (zd vd : list nat) (m : nat) (L : law) : Prop := mkLawFits {
  lf_gamma : forall i, (1 <= i <= m)%nat -> length (lw_gamma L i) = nth i vd 0%nat;
  lf_alpha : forall i, (1 <= i <= m)%nat -> matrix (nth i vd 0%nat) (nth i zd 0%nat) (lw_alpha L i);
  lf_beta : forall i, (i <= m)%nat -> length (lw_beta L i) = nth i zd 0%nat;
  lf_support : matrix 10 (nth 0 zd 0%nat) (lw_support L);
  lf_prob : forall b, is_distribution 10 (lw_prob L b) }.

(** the change of E[Y] when X is set to 1 instead of 0: only Z0 depends on X *)
Definition mean_z0 (L : law) (b : bool) : R :=
  rsum (map2 Rmult (lw_prob L b) (map (fun row => inner row (lw_beta L 0)) (lw_support L))).
Definition law_effect (L : law) : R := mean_z0 L true - mean_z0 L false.

(** the values of Z0 for given treatments: unit after unit, one choice from the distribution of
    its treatment *)
Inductive z0_draws {G} (w : cpd_world X G) (L : law) : list bool -> G -> list (list R) -> G -> Prop :=
| zd_nil g : z0_draws w L [] g [] g
| zd_cons b bs g i g1 rows g2 : cw_choice w (map Fin (lw_prob L b)) 1 g = (Ok [i], g1) ->
    (i < 10)%nat -> z0_draws w L bs g1 rows g2 ->
    z0_draws w L (b :: bs) g (nth i (lw_support L) [] :: rows) g2.

(** a dict of CPDs follows the structural equations of a law: with [w] the source of noise, for
    n units *)
Record follows {G} (w : cpd_world X G) (zd vd : list nat) (m : nat) (L : law) (d : sdict (cpd X G)) : Prop := mkFollows {
  (** V_i ~ N(0, 1) *)
  fo_V : forall i f, (1 <= i <= m)%nat -> entry d (Vn i) f -> forall n args g es g',
    cw_mvnormal w (map Fin (repeat 0 (nth i vd 0%nat))) (map (map Fin) (diagonal 1 (nth i vd 0%nat))) n g = (Ok (map (map Fin) es), g') ->
    f n args g = (Ok (rmat (nth i vd 0%nat) es), g');
  (** Z_i = alpha_i V_i + N(0, 0.1) *)
  fo_Z : forall i f, (1 <= i <= m)%nat -> entry d (Zn i) f -> forall n n' p g es g',
    fst p = nth i vd 0%nat -> samples_of n [p] ->
    cw_mvnormal w (map Fin (repeat 0 (nth i zd 0%nat))) (map (map Fin) (diagonal (1/10) (nth i zd 0%nat))) n g = (Ok (map (map Fin) es), g') ->
    matrix n (nth i zd 0%nat) es ->
    exists ys, f n' [sarr p] g = (Ok (rmat (nth i zd 0%nat) ys), g') /\ matrix n (nth i zd 0%nat) ys
      /\ forall j c, (j < n)%nat -> (c < nth i zd 0%nat)%nat ->
           nth c (nth j ys []) 0 = inner (unit_of j p) (rcol c (lw_alpha L i)) + nth c (nth j es []) 0;
  (** X ~ Bernoulli(sigmoid(sum_i gamma_i V_i)) *)
  fo_X : forall f, entry d "X" f -> forall n n' ps g xs g',
    map fst ps = map (fun i => nth i vd 0%nat) (seq 1 m) -> samples_of n ps ->
    cw_binom w (map (fun j => Fin (sigm (linear j ps (map (lw_gamma L) (seq 1 m))))) (seq 0 n)) g = (Ok xs, g') -> length xs = n ->
    f n' (map sarr ps) g = (Ok (vec xs), g');
  (** Z0 is drawn from the distribution belonging to X *)
  fo_Z0 : forall f, entry d "Z0" f -> forall n' bs g rows g', bs <> [] -> z0_draws w L bs g rows g' ->
    f n' [vec (zos bs)] g = (Ok (rmat (nth 0 zd 0%nat) rows), g');
  (** Y = sum_i beta_i Z_i + N(0, 0.1) *)
  fo_Y : forall f, entry d "Y" f -> forall n n' ps g es g',
    map fst ps = map (fun i => nth i zd 0%nat) (seq 0 (S m)) -> samples_of n ps ->
    cw_normal w (repeat (Fin 0) n) (repeat (Fin (sqrt (1/10))) n) g = (Ok (map Fin es), g') -> length es = n ->
    exists ys, f n' (map sarr ps) g = (Ok (rvec ys), g') /\ length ys = n
      /\ forall j, (j < n)%nat -> nth j ys 0 = linear j ps (map (lw_beta L) (seq 0 (S m))) + nth j es 0 }.

(** the samples of n units *)
Inductive sample_type (zd vd : list nat) (m n : nat) : string -> arr X -> Prop :=
| st_V i rows : (1 <= i <= m)%nat -> matrix n (nth i vd 0%nat) rows -> sample_type zd vd m n (Vn i) (rmat (nth i vd 0%nat) rows)
| st_Z i rows : (i <= m)%nat -> matrix n (nth i zd 0%nat) rows -> sample_type zd vd m n (Zn i) (rmat (nth i zd 0%nat) rows)
| st_X bs : length bs = n -> sample_type zd vd m n "X" (vec (zos bs))
| st_Y ys : length ys = n -> sample_type zd vd m n "Y" (rvec ys).
