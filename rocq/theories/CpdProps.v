(** Properties C89-C92: the conditional distributions of scm.py. *)
From Coq Require Import String List Arith ZArith Reals Bool Lia Lra.
From Flocq Require Import Core BinarySingleNaN.
From Verif Require Import PyBase PyLemmas Num NumLemmas FloatOps NumOps NumLaws DataModel ScmModel ScmSpec TabSpec TabReal ParamModel ParamProofs ParamProofs2 ParamProofs5 PaperModel PaperProofs4 UtilModel UtilProps ExampleSpec ExampleProps CpdModel CpdSpec CpdProofs.
Import ListNotations.
Open Scope R_scope.

(** ** C89: normal_cpd *)
Lemma total_vec n ps bs extra : fits ps bs -> samples_of n ps -> ps <> [] ->
  exists p0 t, hd_error (map sarr ps) = Some p0 /\ alen p0 = n
    /\ (do b <- at_ (map (fun b => VArr (rvec b)) bs ++ extra)%list 0;
        do x <- adot xreal p0 b;
        add_parents xreal (fun _ x => Ok x) (map (fun b => VArr (rvec b)) bs ++ extra)%list (tl (map sarr ps)) 1 x) = Ok (VArr (rvec t))
    /\ length t = n /\ forall j, (j < n)%nat -> nth j t 0 = linear j ps bs.
Proof.
  intros Hf Hs Hne. revert Hs Hne; destruct Hf as [|p b ps bs Hb Hf]; intros Hs Hne; [now destruct Hne|]. inversion Hs as [|? ? [Hn Hd] Hs']; subst.
  cbn [map hd_error tl app]. exists (sarr p).
  destruct (add_parents_vec (length (snd p)) ps bs Hf Hs' (VArr (rvec b) :: map (fun b => VArr (rvec b)) bs ++ extra)%list extra 1
              (map (fun r => inner r b) (snd p)) eq_refl) as (t & E & Ht & Hv).
  { now rewrite map_length. }
  exists t. split; [reflexivity|]. split; [apply alen_rmat|]. split; [|split; [exact Ht|]].
  - change (at_ _ 0) with (Ok (VArr (rvec b))). cbn [bind]. unfold sarr at 1. rewrite adot_vec by exact Hb. cbn [bind]. exact E.
  - intros j Hj. rewrite (Hv j Hj), linear_cons. rewrite (nth_map_in _ _ j []) by lia. reflexivity.
Qed.
Lemma total_mat n k ps bs extra : fits_at k ps bs -> samples_of n ps -> ps <> [] ->
  exists p0 t, hd_error (map sarr ps) = Some p0 /\ alen p0 = n
    /\ (do b <- at_ (map (fun b => VArr (rmat k b)) bs ++ extra)%list 0;
        do x <- adot xreal p0 b;
        add_parents xreal (fun _ x => Ok x) (map (fun b => VArr (rmat k b)) bs ++ extra)%list (tl (map sarr ps)) 1 x) = Ok (VArr (rmat k t))
    /\ matrix n k t /\ forall j c, (j < n)%nat -> (c < k)%nat -> nth c (nth j t []) 0 = linear_at j c ps bs.
Proof.
  intros Hf Hs Hne. revert Hs Hne; destruct Hf as [|p b ps bs Hb Hf]; intros Hs Hne; [now destruct Hne|]. inversion Hs as [|? ? [Hn Hd] Hs']; subst.
  cbn [map hd_error tl app]. exists (sarr p).
  set (M := map (fun r => map (fun c => inner r (rcol c b)) (seq 0 k)) (snd p)).
  destruct (add_parents_mat (length (snd p)) k ps bs Hf Hs' (VArr (rmat k b) :: map (fun b => VArr (rmat k b)) bs ++ extra)%list extra 1
              M eq_refl) as (t & E & Ht & Hv).
  { split; [apply map_length|]. apply Forall_forall. intros r Hr. apply in_map_iff in Hr as (x & <- & _). now rewrite map_length, seq_length. }
  exists t. split; [reflexivity|]. split; [apply alen_rmat|]. split; [|split; [exact Ht|]].
  - change (at_ _ 0) with (Ok (VArr (rmat k b))). cbn [bind]. unfold sarr at 1. rewrite adot_mat by exact Hb. cbn [bind]. exact E.
  - intros j c Hj Hc. rewrite (Hv j c Hj Hc), linear_at_cons. unfold M. rewrite (nth_map_in _ _ j []) by lia.
    rewrite (nth_map_in _ _ c 0%nat) by (rewrite seq_length; lia). rewrite seq_nth by lia. reflexivity.
Qed.

(** a univariate variable: unit j is the linear function of its parents' values plus noise number
    j; coefficients beyond the parents are ignored; the noise is drawn once *)
Theorem C89_univariate : forall (G : Type) (w : cpd_world X G) n ps bs extra mean cov g es g',
  ps <> [] -> samples_of n ps -> fits ps bs -> 0 <= cov ->
  cw_normal w (repeat (Fin mean) n) (repeat (Fin (sqrt cov)) n) g = (Ok (map Fin es), g') -> length es = n ->
  exists ys, normal_cpd xreal w (map sarr ps) (map (fun b => VArr (rvec b)) bs ++ extra)%list (VNum (Fin mean)) (VNum (Fin cov)) g
      = (Ok (VArr (rvec ys)), g') /\ length ys = n
    /\ forall j, (j < n)%nat -> nth j ys 0 = linear j ps bs + nth j es 0.
Proof.
  intros G w n ps bs extra mean cov g es g' Hne Hs Hf Hc E He.
  destruct (total_vec n ps bs extra Hf Hs Hne) as (p0 & t & Hp0 & Hl & Et & Ht & Hv).
  exists (map2 Rplus t es). destruct (map sarr ps) as [|q qs]; [discriminate|]. injection Hp0 as ->. cbn [tl] in Et.
  split; [|split; [now apply map2_len|]].
  - unfold normal_cpd. rewrite Et. cbn [vndim rvec vec atail List.length Nat.eqb]. unfold plus_noise.
    rewrite Hl, (normal_noise_x w mean cov n g es g' Hc E). cbn [bind]. rewrite vop_rvec by congruence. reflexivity.
  - intros j Hj. rewrite (nth_map2 _ _ _ _ 0 0) by lia. now rewrite Hv.
Qed.
Print Assumptions C89_univariate.

(** a multivariate variable: the same for every component *)
Theorem C89_multivariate : forall (G : Type) (w : cpd_world X G) n ps bs extra mean cov g es g',
  ps <> [] -> samples_of n ps -> fits_at (length mean) ps bs -> matrix (length mean) (length mean) cov ->
  cw_mvnormal w (map Fin mean) (map (map Fin) cov) n g = (Ok (map (map Fin) es), g') -> matrix n (length mean) es ->
  exists ys, normal_cpd xreal w (map sarr ps) (map (fun b => VArr (rmat (length mean) b)) bs ++ extra)%list
        (VArr (rvec mean)) (VArr (rmat (length mean) cov)) g = (Ok (VArr (rmat (length mean) ys)), g')
    /\ matrix n (length mean) ys
    /\ forall j c, (j < n)%nat -> (c < length mean)%nat ->
         nth c (nth j ys []) 0 = linear_at j c ps bs + nth c (nth j es []) 0.
Proof.
  intros G w n ps bs extra mean cov g es g' Hne Hs Hf Hc E He. set (k := length mean) in *.
  destruct (total_mat n k ps bs extra Hf Hs Hne) as (p0 & t & Hp0 & Hl & Et & Ht & Hv).
  exists (map2 (map2 Rplus) t es). destruct (map sarr ps) as [|q qs]; [discriminate|]. injection Hp0 as ->. cbn [tl] in Et.
  split; [|split; [now apply matrix_add|]].
  - unfold normal_cpd. rewrite Et. change (vndim (VArr (rmat k t)) =? 1)%nat with false. cbv iota. unfold plus_noise.
    rewrite Hl. pose proof (mv_noise_x w mean cov n g es g' Hc E) as En. fold k in En. rewrite En. cbn [bind].
    rewrite (vop_rmat n) by assumption. reflexivity.
  - intros j c Hj Hc'. destruct Ht as [T1 T2], He as [E1 E2]. rewrite Forall_forall in T2, E2.
    assert (length (nth j t []) = k) by (apply T2, nth_In; lia). assert (length (nth j es []) = k) by (apply E2, nth_In; lia).
    rewrite (nth_map2 _ _ _ j [] []) by lia. rewrite (nth_map2 _ _ _ c 0 0) by lia. now rewrite Hv.
Qed.
Print Assumptions C89_multivariate.

(** which kind of noise is added is decided by the coefficients: for vectors one number each for
    mean and covariance also does as an array of one element, for matrices numbers are refused
    before anything is drawn *)
Theorem C89_noise_kind : forall (G : Type) (w : cpd_world X G) n k ps mean cov g, ps <> [] -> samples_of n ps ->
  (forall bs, fits ps bs ->
     normal_cpd xreal w (map sarr ps) (map (fun b => VArr (rvec b)) bs) (VArr (rvec [mean])) (VArr (rvec [cov])) g =
     normal_cpd xreal w (map sarr ps) (map (fun b => VArr (rvec b)) bs) (VNum (Fin mean)) (VNum (Fin cov)) g) /\
  (forall bs, fits_at k ps bs ->
     normal_cpd xreal w (map sarr ps) (map (fun b => VArr (rmat k b)) bs) (VNum (Fin mean)) (VNum (Fin cov)) g = (Err ValueError, g)).
Proof.
  intros G w n k ps mean cov g Hne Hs. split; intros bs Hf.
  - destruct (total_vec n ps bs [] Hf Hs Hne) as (p0 & t & Hp0 & Hl & Et & Ht & _). rewrite app_nil_r in Et.
    destruct (map sarr ps) as [|q qs]; [discriminate|]. injection Hp0 as ->. cbn [tl] in Et.
    unfold normal_cpd. rewrite Et. cbn [vndim rvec vec atail List.length Nat.eqb]. unfold plus_noise. rewrite Hl.
    assert (P : forall x : X, per_draw n (VArr (vec [x])) = Ok (repeat x n)).
    { intros x. unfold per_draw. rewrite alen_vec, entries_vec. cbn [vec atail List.length]. destruct n as [|[|n']]; reflexivity. }
    unfold normal_noise. change (rvec [mean]) with (vec [Fin mean]). change (vmap (nsqrt xreal) (VArr (rvec [cov]))) with (VArr (vec [nsqrt xreal (Fin cov)])).
    rewrite !P. reflexivity.
  - destruct (total_mat n k ps bs [] Hf Hs Hne) as (p0 & t & Hp0 & Hl & Et & Ht & _). rewrite app_nil_r in Et.
    destruct (map sarr ps) as [|q qs]; [discriminate|]. injection Hp0 as ->. cbn [tl] in Et.
    unfold normal_cpd. rewrite Et. reflexivity.
Qed.
Print Assumptions C89_noise_kind.

(** parents of shape (n, d_i) with coefficient vectors, any numbers *)
Section Shapes.
  Context {N G : Type} (o : numops N) (w : cpd_world N G).
  Definition parent_shape (n : nat) (p : arr N) (d : nat) : Prop := atail p = [d] /\ length (arows p) = n.

  Lemma adot_shape n p d b : parent_shape n p d -> length b = d ->
    exists l, adot o p (VArr (vec b)) = Ok (VArr (vec l)) /\ length l = n.
  Proof.
    intros [Ht Hl] Hb. unfold adot. rewrite Ht. cbn [vec atail]. fold (vec b). rewrite alen_vec, Hb, Nat.eqb_refl.
    eexists. split; [reflexivity|]. now rewrite map_length.
  Qed.
  Lemma adot_mismatch n p d b : parent_shape n p d -> length b <> d -> adot o p (VArr (vec b)) = Err ValueError.
  Proof.
    intros [Ht Hl] Hb. unfold adot. rewrite Ht. cbn [vec atail]. fold (vec b). rewrite alen_vec.
    destruct (Nat.eqb_spec d (length b)); [congruence|reflexivity].
  Qed.
  Lemma vadd_in_vec (u v : list N) : length u = length v ->
    exists s, vadd_in o (VArr (vec u)) (VArr (vec v)) = Ok (VArr (vec s)) /\ length s = length u.
  Proof.
    intros H. unfold vadd_in, vop. cbn [vec atail]. fold (vec u) (vec v). rewrite !entries_vec, bzip_eq by exact H. cbn [bind].
    exists (map2 (nadd o) u v). assert (E : length (map2 (nadd o) u v) = length u) by (apply map2_len; congruence).
    split; [|exact E]. destruct (list_eq_dec Nat.eq_dec _ _) as [_|C]; [reflexivity|]. exfalso. apply C. unfold vshape. now rewrite !alen_vec, E.
  Qed.
  (** a walk over parents that stops at the first wrong or missing coefficient *)
  Lemma add_parents_stops n : forall ps ds, Forall2 (parent_shape n) ps ds ->
    forall bs betas i t, skipn i betas = map (fun b => VArr (vec b)) bs -> length t = n ->
    (forall k d b, nth_error ds k = Some d -> nth_error bs k = Some b -> length b = d) ->
    (length bs < length ps)%nat ->
    add_parents o (fun _ x => Ok x) betas ps i (VArr (vec t)) = Err IndexError.
  Proof.
    induction 1 as [|p d ps ds Hp Hps IH]; intros bs betas i t Hb Ht Hm Hl; [cbn in Hl; lia|].
    destruct bs as [|b bs].
    - cbn [add_parents]. now rewrite (at_past _ _ Hb).
    - cbn [map] in Hb. apply at_skipn in Hb as (Ea & Hk). cbn [add_parents]. rewrite Ea. cbn [bind].
      destruct (adot_shape n p d b Hp (Hm 0%nat d b eq_refl eq_refl)) as (l & E & Hll). rewrite E. cbn [bind].
      destruct (vadd_in_vec t l) as (s & Es & Hs); [congruence|]. rewrite Es. cbn [bind].
      apply (IH bs); [exact Hk|congruence| |cbn in Hl; lia]. intros k d' b' H1 H2. apply (Hm (S k)); assumption.
  Qed.
  Lemma add_parents_mismatch n : forall ps ds, Forall2 (parent_shape n) ps ds ->
    forall bs betas i t, skipn i betas = map (fun b => VArr (vec b)) bs -> length t = n ->
    (exists k d b, nth_error ds k = Some d /\ nth_error bs k = Some b /\ length b <> d) ->
    (length ps <= length bs)%nat ->
    add_parents o (fun _ x => Ok x) betas ps i (VArr (vec t)) = Err ValueError.
  Proof.
    induction 1 as [|p d ps ds Hp Hps IH]; intros bs betas i t Hb Ht (k & d' & b' & H1 & H2 & H3) Hl.
    - destruct k; discriminate.
    - destruct bs as [|b bs]; [cbn in Hl; lia|]. cbn [map] in Hb. apply at_skipn in Hb as (Ea & Hk). cbn [add_parents]. rewrite Ea. cbn [bind].
      destruct (Nat.eq_dec (length b) d) as [Hd|Hd].
      + destruct (adot_shape n p d b Hp Hd) as (l & E & Hll). rewrite E. cbn [bind].
        destruct (vadd_in_vec t l) as (s & Es & Hs); [congruence|]. rewrite Es. cbn [bind].
        destruct k as [|k]; [cbn in H1, H2; congruence|].
        apply (IH bs); [exact Hk|congruence| |cbn in Hl; lia]. exists k, d', b'. auto.
      + now rewrite (adot_mismatch n p d b Hp Hd).
  Qed.

  (** no parents, or fewer coefficients than parents: IndexError; a coefficient of the wrong
      length: ValueError; nothing is drawn *)
Theorem C89_errors : forall n (ps : list (arr N)) ds bs mean cov g,
    Forall2 (parent_shape n) ps ds ->
    (ps = [] \/ ((forall k d b, nth_error ds k = Some d -> nth_error bs k = Some b -> length b = d) /\ (length bs < length ps)%nat) ->
       normal_cpd o w ps (map (fun b => VArr (vec b)) bs) mean cov g = (Err IndexError, g))
    /\ ((exists k d b, nth_error ds k = Some d /\ nth_error bs k = Some b /\ length b <> d) -> (length ps <= length bs)%nat ->
       normal_cpd o w ps (map (fun b => VArr (vec b)) bs) mean cov g = (Err ValueError, g)).
  Proof.
    intros n ps ds bs mean cov g Hf. split.
    - intros [-> |[Hm Hl]]; [reflexivity|]. destruct Hf as [|p d ps ds Hp Hps]; [cbn in Hl; lia|]. unfold normal_cpd.
      destruct bs as [|b bs]; [reflexivity|]. cbn [map]. change (at_ _ 0) with (Ok (VArr (vec b))). cbn [bind].
      destruct (adot_shape n p d b Hp (Hm 0%nat d b eq_refl eq_refl)) as (l & E & Hll). rewrite E. cbn [bind].
      rewrite (add_parents_stops n ps ds Hps bs (VArr (vec b) :: map (fun b => VArr (vec b)) bs) 1 l eq_refl Hll); [reflexivity| |cbn in Hl; lia].
      intros k d' b' H1 H2. apply (Hm (S k)); assumption.
    - intros (k & d' & b' & H1 & H2 & H3) Hl. destruct Hf as [|p d ps ds Hp Hps]; [destruct k; discriminate|]. unfold normal_cpd.
      destruct bs as [|b bs]; [cbn in Hl; lia|]. cbn [map]. change (at_ _ 0) with (Ok (VArr (vec b))). cbn [bind].
      destruct (Nat.eq_dec (length b) d) as [Hd|Hd].
      + destruct (adot_shape n p d b Hp Hd) as (l & E & Hll). rewrite E. cbn [bind].
        destruct k as [|k]; [cbn in H1, H2; congruence|].
        rewrite (add_parents_mismatch n ps ds Hps bs (VArr (vec b) :: map (fun b => VArr (vec b)) bs) 1 l eq_refl Hll); [reflexivity| |cbn in Hl; lia]. exists k, d', b'. auto.
      + now rewrite (adot_mismatch n p d b Hp Hd).
  Qed.
End Shapes.
Print Assumptions C89_errors.

(** ** C90: logistic_linear_bernoulli_cpd *)
Theorem C90_linear : forall (G : Type) (w : cpd_world X G) n ps bs extra g xs g',
  ps <> [] -> samples_of n ps -> fits ps bs ->
  cw_binom w (map (fun j => Fin (sigm (linear j ps bs))) (seq 0 n)) g = (Ok xs, g') -> length xs = n ->
  logistic_linear_bernoulli_cpd xreal w (map sarr ps) (map (fun b => VArr (rvec b)) bs ++ extra)%list g = (Ok (VArr (vec xs)), g')
  /\ forall j, 0 < sigm (linear j ps bs) < 1.
Proof.
  intros G w n ps bs extra g xs g' Hne Hs Hf E Hx. split; [|intros; apply sigm_open].
  revert Hs Hne; destruct Hf as [|p b ps bs Hb Hf]; intros Hs Hne; [now destruct Hne|]. inversion Hs as [|? ? [Hn Hd] Hs']. symmetry in Hn. rewrite Hn in E, Hs', Hx.
  unfold logistic_linear_bernoulli_cpd, logistic_bernoulli_cpd. cbn [map app add_parents].
  change (at_ _ 0) with (Ok (VArr (rvec b))). cbn [bind]. unfold sarr at 1. rewrite adot_vec by exact Hb. cbn [bind].
  set (t0 := map (fun r => inner r b) (snd p)).
  assert (E0 : vadd_in xreal (VNum (nint xreal 0)) (VArr (rvec t0)) = Ok (VArr (rvec t0))).
  { unfold vadd_in, vop, amap, rvec, vec. rewrite nint_x. cbn [bind atail arows]. do 3 f_equal. rewrite !map_map. apply map_ext. intros r.
    cbn [map xreal nadd xadd]. do 2 f_equal. lra. }
  rewrite E0. cbn [bind].
  destruct (add_parents_vec (length (snd p)) ps bs Hf Hs' (VArr (rvec b) :: map (fun b => VArr (rvec b)) bs ++ extra)%list extra 1
              t0 eq_refl) as (t & Et & Ht & Hv).
  { unfold t0. now rewrite map_length. }
  rewrite Et. unfold vbinomial, vmap, amap, rvec, vec. cbn [atail arows]. rewrite !map_map.
  assert (Ep : map (fun x => map (sigmoid xreal) [Fin x]) t = map (fun v => [v]) (map (fun x => Fin (sigm x)) t)).
  { rewrite map_map. apply map_ext. intros z. cbn [map]. now rewrite sigmoid_x. }
  rewrite Ep. unfold entries. cbn [arows].
  change (List.concat (map (fun v => [v]) (map (fun x => Fin (sigm x)) t))) with (entries (vec (map (fun x => Fin (sigm x)) t))).
  rewrite entries_vec.
  assert (El : map (fun x => Fin (sigm x)) t = map (fun j => Fin (sigm (linear j (p :: ps) (b :: bs)))) (seq 0 (length (snd p)))).
  { rewrite (list_eta t 0) at 1. rewrite map_map, Ht. apply map_ext_in. intros j Hj. apply in_seq in Hj. do 2 f_equal.
    rewrite (Hv j) by lia. rewrite linear_cons. unfold t0. rewrite (nth_map_in _ _ j []) by lia. reflexivity. }
  rewrite El at 1. rewrite E. rewrite rows_like_singles by (rewrite map_length; congruence). reflexivity.
Qed.
Print Assumptions C90_linear.

(** with a generator that accepts probabilities it always succeeds and returns one 0/1 value per
    unit *)
Theorem C90_succeeds : forall (G : Type) (w : cpd_world X G) n ps bs extra g,
  regular w -> ps <> [] -> samples_of n ps -> fits ps bs ->
  exists xs g', logistic_linear_bernoulli_cpd xreal w (map sarr ps) (map (fun b => VArr (rvec b)) bs ++ extra)%list g
    = (Ok (VArr (vec (zos xs))), g') /\ length xs = n.
Proof.
  intros G w n ps bs extra g Hw Hne Hs Hf.
  destruct (rg_binom w Hw (map (fun j => sigm (linear j ps bs)) (seq 0 n)) g) as (xs & g' & E & Hx).
  { apply Forall_forall. intros r Hr. apply in_map_iff in Hr as (j & <- & _). pose proof (sigm_open (linear j ps bs)). lra. }
  rewrite map_length, seq_length in Hx. rewrite map_map in E. exists xs, g'. split; [|exact Hx].
  apply (C90_linear G w n ps bs extra g (zos xs) g' Hne Hs Hf E). unfold zos. now rewrite map_length.
Qed.
Print Assumptions C90_succeeds.

(** without parents it draws a single number with probability 1/2, however many samples are
    wanted *)
Theorem C90_no_parents : forall (G : Type) (w : cpd_world X G) gammas g x g',
  cw_binom w [Fin (1/2)] g = (Ok [x], g') ->
  logistic_linear_bernoulli_cpd xreal w [] gammas g = (Ok (VNum x), g').
Proof.
  intros G w gammas g x g' E. unfold logistic_linear_bernoulli_cpd, logistic_bernoulli_cpd. cbn [add_parents]. unfold vmap, vbinomial.
  rewrite nint_x, sigmoid_x. replace (sigm 0) with (1/2); [now rewrite E|]. unfold sigm. rewrite Ropp_0, exp_0. lra.
Qed.
Print Assumptions C90_no_parents.

(** in binary64 the probability lies in [0, 1] for every argument but NaN, also when exp
    overflows *)
Theorem C90_binary64 : forall lib (x : F), exp_nonneg lib -> num x ->
  num (sigmoid (f64 lib) x) /\ 0 <= fkey (sigmoid (f64 lib) x) <= 1.
Proof.
  intros lib x Hexp Hx. unfold sigmoid, nint. cbn [f64 nlit nsub nadd ndiv nexp]. rewrite nint0_f.
  assert (Hs : num (fsub f0 x)).
  { destruct (num_cases x Hx) as [Fx|[-> | ->]]; [apply (key_sub f0 x eq_refl Fx)|reflexivity|reflexivity]. }
  destruct (Hexp _ Hs) as [Ne Ke]. set (e := m_exp lib (fsub f0 x)) in *. clearbody e. clear Hs Hx x.
  destruct (flit1 1) as [F1 B1]; [cbn; lia|]. assert (N1 : num (flit 1 1)) by (destruct (flit 1 1); try discriminate; reflexivity).
  assert (K1 : fkey (flit 1 1) = 1) by (rewrite fkey_finite; assumption).
  apply unit_quotient; [exact N1|rewrite K1; lra| |].
  - destruct (num_cases e Ne) as [Fe|[-> | ->]]; [apply (key_add _ _ F1 Fe)|destruct (flit 1 1) as [| | |[]]; try discriminate; reflexivity|].
    exfalso. change (fkey fninf) with (- big) in Ke. pose proof big_pos. lra.
  - pose proof big_pos as Hb. destruct (num_cases e Ne) as [Fe|[-> | ->]].
    + rewrite (proj2 (key_add _ _ F1 Fe)). rewrite <- rs_1. apply rs_mono. rewrite B1. rewrite fkey_finite in Ke by assumption. lra.
    + assert (E : fadd (flit 1 1) finf = finf) by (destruct (flit 1 1) as [| | |[]]; try discriminate; reflexivity). rewrite E.
      change (fkey finf) with big. unfold big. pose proof (bpow_lt radix2 0 1024 ltac:(lia)) as Hb'. change (bpow radix2 0) with 1 in Hb'. lra.
    + exfalso. change (fkey fninf) with (- big) in Ke. lra.
Qed.
Print Assumptions C90_binary64.

(** ** C91: add_gaussian_noise *)
Theorem C91_one_dimensional : forall (G : Type) (w : cpd_world X G) x xs mean cov ms cs g es g',
  one_dim x xs -> per_unit (length xs) mean ms -> per_unit (length xs) cov cs -> Forall (fun c => 0 <= c) cs ->
  cw_normal w (map Fin ms) (map Fin (map sqrt cs)) g = (Ok (map Fin es), g') -> length es = length xs ->
  add_gaussian_noise xreal w x mean cov g = (Ok (VArr (rvec (map2 Rplus xs es))), g').
Proof.
  intros G w x xs mean cov ms cs g es g' Hx Hm Hc Hp E He.
  assert (Hl : vlen x = Ok (length xs)).
  { destruct Hx as [-> | ->]; unfold vlen; f_equal; [unfold rvec; rewrite alen_vec|rewrite alen_rmat]; apply map_length. }
  assert (Hb : ((vndim x <? 2) || ((vndim x =? 2) && match shape1 x with Some k => k =? 1 | None => false end))%nat%bool = true)
    by (destruct Hx as [-> | ->]; reflexivity).
  assert (Hd : (1 <? vndim mean)%nat = false) by (destruct Hm; reflexivity).
  unfold add_gaussian_noise. rewrite Hl, Hb, Hd. unfold plus_noise.
  rewrite (normal_noise_u w mean cov ms cs (length xs) g es g' Hm Hc Hp E), (flatten_one x xs Hx). cbn [bind].
  now rewrite vop_rvec by congruence.
Qed.
Print Assumptions C91_one_dimensional.

Theorem C91_multi_dimensional : forall (G : Type) (w : cpd_world X G) n rows mean cov g es g',
  length mean <> 1%nat -> matrix n (length mean) rows -> matrix (length mean) (length mean) cov ->
  cw_mvnormal w (map Fin mean) (map (map Fin) cov) n g = (Ok (map (map Fin) es), g') -> matrix n (length mean) es ->
  add_gaussian_noise xreal w (VArr (rmat (length mean) rows)) (VArr (rvec mean)) (VArr (rmat (length mean) cov)) g
  = (Ok (VArr (rmat (length mean) (map2 (map2 Rplus) rows es))), g').
Proof.
  intros G w n rows mean cov g es g' Hk Hr Hc E He. unfold add_gaussian_noise, vlen.
  change (vndim (VArr (rmat (length mean) rows))) with 2%nat. change (shape1 (VArr (rmat (length mean) rows))) with (Some (length mean)).
  cbv iota. rewrite (proj2 (Nat.eqb_neq _ _) Hk). cbn [Nat.ltb Nat.leb Nat.eqb orb andb].
  unfold rvec at 1. rewrite alen_vec, map_length, Nat.eqb_refl. cbn [negb]. unfold plus_noise. rewrite alen_rmat, (proj1 Hr).
  rewrite (mv_noise_x w mean cov n g es g' Hc E). cbn [bind]. now rewrite (vop_rmat n) by assumption.
Qed.
Print Assumptions C91_multi_dimensional.

(** what is refused, and how; the last two lines of each group are shapes the documentation
    allows: a mean of shape (x_dim, 1), and a covariance of shape (1, 1) for one-dimensional x *)
Theorem C91_errors : forall (N G : Type) (o : numops N) (w : cpd_world N G) (g : G),
  (forall x mean cov, add_gaussian_noise o w (VNum x) mean cov g = (Err TypeError, g))
  /\ (forall a k, atail a = [k] -> k <> 1%nat -> forall cov,
        (forall m, add_gaussian_noise o w (VArr a) (VNum m) cov g = (Err TypeError, g))
        /\ (forall b, alen b <> k -> add_gaussian_noise o w (VArr a) (VArr b) cov g = (Err ValueError, g))
        /\ (forall b, atail b = [1%nat] -> add_gaussian_noise o w (VArr a) (VArr b) cov g = (Err ValueError, g)))
  /\ (forall a, atail a = [] \/ atail a = [1%nat] -> forall mean cov,
        ((1 < vndim mean)%nat -> add_gaussian_noise o w (VArr a) mean cov g = (Err ValueError, g))
        /\ ((1 < vndim cov)%nat -> add_gaussian_noise o w (VArr a) mean cov g = (Err ValueError, g))).
Proof.
  intros N G o w g. split; [reflexivity|]. split.
  - intros a k Ha Hk cov.
    assert (E : forall mean, add_gaussian_noise o w (VArr a) mean cov g
                  = match vlen mean with Err e => (Err e, g)
                    | Ok l => if negb (k =? l)%nat then (Err ValueError, g) else plus_noise o (Ok (VArr a)) (mv_noise w mean cov (alen a)) g end).
    { intros mean. unfold add_gaussian_noise, vlen at 1. unfold vndim, shape1. rewrite Ha. cbn [List.length nth_error].
      rewrite (proj2 (Nat.eqb_neq _ _) Hk). reflexivity. }
    split; [|split].
    + intros m. now rewrite E.
    + intros b Hb. rewrite E. cbn [vlen]. destruct (Nat.eqb_spec k (alen b)); [congruence|reflexivity].
    + intros b Hb. rewrite E. cbn [vlen]. destruct (Nat.eqb_spec k (alen b)); [|reflexivity]. cbn [negb]. unfold plus_noise, mv_noise.
      rewrite Hb. destruct cov; reflexivity.
  - intros a Ha mean cov.
    assert (E : add_gaussian_noise o w (VArr a) mean cov g
                = if (1 <? vndim mean)%nat then (Err ValueError, g)
                  else plus_noise o (Ok (vflatten (VArr a))) (normal_noise o w mean cov (alen a)) g).
    { unfold add_gaussian_noise, vlen at 1. destruct Ha as [Ha|Ha]; unfold vndim at 1 2, shape1; rewrite Ha; reflexivity. }
    split; intros H; rewrite E.
    + now apply Nat.ltb_lt in H; rewrite H.
    + destruct (1 <? vndim mean)%nat; [reflexivity|]. unfold plus_noise, normal_noise.
      assert (Es : per_draw (alen a) (vmap (nsqrt o) cov) = Err ValueError).
      { destruct cov as [|c]; cbn in H; [lia|]. unfold per_draw, vmap, amap. cbn [atail]. destruct (atail c); [cbn in H; lia|reflexivity]. }
      rewrite Es. assert (Em : (exists m, per_draw (alen a) mean = Ok m) \/ per_draw (alen a) mean = Err ValueError).
      { destruct mean as [|m]; [left; eexists; reflexivity|]. unfold per_draw. destruct (atail m); [|now right].
        destruct (alen m =? alen a)%nat; [left; eexists; reflexivity|]. destruct (entries m) as [|? [|]]; [now right|left; eexists; reflexivity|now right]. }
      destruct Em as [(m & Em)|Em]; rewrite Em; reflexivity.
Qed.
Print Assumptions C91_errors.

(** ** C92: structural_equation_with_noise and transformed_normal_cpd *)
Theorem C92_structural_scalar : forall (G : Type) (w : cpd_world X G) n ps f v ys mean cov g es g',
  ps <> [] -> samples_of n ps -> f (features n ps) = Ok v -> one_dim v ys -> length ys = n -> 0 <= cov ->
  cw_normal w (repeat (Fin mean) n) (repeat (Fin (sqrt cov)) n) g = (Ok (map Fin es), g') -> length es = n ->
  structural_equation_with_noise xreal w (map sarr ps) f (VNum (Fin mean)) (VNum (Fin cov)) g
  = (Ok (VArr (rvec (map2 Rplus ys es))), g').
Proof.
  intros G w n ps f v ys mean cov g es g' Hne Hs Hf Hv Hy Hc E He.
  pose proof (column_stack_samples n ps Hne Hs) as Ec. destruct ps as [|p ps]; [now destruct Hne|].
  inversion Hs as [|? ? [Hn _] _]; subst x l. unfold structural_equation_with_noise. rewrite Ec. cbn [map bind]. rewrite Hf.
  replace (alen (sarr p)) with n by (unfold sarr; now rewrite alen_rmat). change (vndim (VNum (Fin mean)) <? 1)%nat with true. cbv iota. unfold plus_noise.
  rewrite (normal_noise_x w mean cov n g es g' Hc E), (flatten_one v ys Hv). cbn [bind]. now rewrite vop_rvec by congruence.
Qed.
Print Assumptions C92_structural_scalar.

Theorem C92_structural_vector : forall (G : Type) (w : cpd_world X G) n ps f ys mean cov g es g',
  ps <> [] -> samples_of n ps -> f (features n ps) = Ok (VArr (rmat (length mean) ys)) -> matrix n (length mean) ys ->
  matrix (length mean) (length mean) cov ->
  cw_mvnormal w (map Fin mean) (map (map Fin) cov) n g = (Ok (map (map Fin) es), g') -> matrix n (length mean) es ->
  structural_equation_with_noise xreal w (map sarr ps) f (VArr (rvec mean)) (VArr (rmat (length mean) cov)) g
  = (Ok (VArr (rmat (length mean) (map2 (map2 Rplus) ys es))), g').
Proof.
  intros G w n ps f ys mean cov g es g' Hne Hs Hf Hy Hc E He.
  pose proof (column_stack_samples n ps Hne Hs) as Ec. destruct ps as [|p ps]; [now destruct Hne|].
  inversion Hs as [|? ? [Hn _] _]; subst x l. unfold structural_equation_with_noise. rewrite Ec. cbn [map bind]. rewrite Hf.
  replace (alen (sarr p)) with n by (unfold sarr; now rewrite alen_rmat). change (vndim (VArr (rvec mean)) <? 1)%nat with false. cbv iota. unfold plus_noise.
  rewrite (mv_noise_x w mean cov n g es g' Hc E). cbn [bind]. now rewrite (vop_rmat n) by assumption.
Qed.
Print Assumptions C92_structural_vector.

(** the documentation also allows a mean of shape (d, 1): that always raises, as does having no
    parents *)
Theorem C92_errors : forall (N G : Type) (o : numops N) (w : cpd_world N G) f mean cov (g : G),
  structural_equation_with_noise o w [] f mean cov g = (Err IndexError, g)
  /\ forall p ps x v, column_stack (p :: ps) = Ok x -> f x = Ok v -> (1 < vndim mean)%nat ->
       structural_equation_with_noise o w (p :: ps) f mean cov g = (Err ValueError, g).
Proof.
  intros N G o w f mean cov g. split; [reflexivity|]. intros p ps x v Ex Ef Hm. unfold structural_equation_with_noise.
  rewrite Ex. cbn [bind]. rewrite Ef. destruct mean as [|m]; cbn in Hm; [lia|]. unfold plus_noise, mv_noise. cbn [vndim Nat.ltb Nat.leb].
  destruct (atail m); [cbn in Hm; lia|]. destruct cov; reflexivity.
Qed.
Print Assumptions C92_errors.

(** transformed_normal_cpd: hs are the functions; unit j gets the sum over the parents of entry j
    of h_i applied to the vector parents[i] . betas[i], plus noise number j *)
Definition projected (p : sample) (b : list R) : list R := map (fun r => inner r b) (snd p).
Definition maps_vectors (n : nat) (fn : val X -> res (val X)) (h : list R -> list R) : Prop :=
  forall l, length l = n -> fn (VArr (rvec l)) = Ok (VArr (rvec (h l))) /\ length (h l) = n.
Definition transformed (j : nat) (ps : list sample) (bs : list (list R)) (hs : list (list R -> list R)) : R :=
  rsum (map2 (fun pb h => nth j (h (projected (fst pb) (snd pb))) 0) (combine ps bs) hs).

Lemma add_parents_fns n fns : forall ps bs hs, fits ps bs -> samples_of n ps ->
  forall betas extra i t, skipn i betas = (map (fun b => VArr (rvec b)) bs ++ extra)%list ->
  Forall2 (maps_vectors n) (skipn i fns) hs -> length hs = length ps -> length t = n ->
  exists t', add_parents xreal (fun i x => do f <- at_ fns i; f x) betas (map sarr ps) i (VArr (rvec t)) = Ok (VArr (rvec t'))
    /\ length t' = n /\ forall j, (j < n)%nat -> nth j t' 0 = nth j t 0 + transformed j ps bs hs.
Proof.
  induction ps as [|p ps IH]; intros bs hs Hf Hs betas extra i t Hb Hh Hl Ht.
  - destruct hs; [|discriminate]. exists t. split; [reflexivity|]. split; [exact Ht|]. intros j _. unfold transformed. cbn. lra.
  - inversion Hf as [|? b ? bs' Hb1 Hf' E1 E2]; subst. inversion Hs as [|? ? [Hn Hd] Hs' E]; subst.
    destruct hs as [|h hs]; [discriminate|]. inversion Hh as [|fn h' fr hr Hfn Hr E1 E2]; subst. symmetry in E1.
    cbn [map app] in Hb. apply at_skipn in Hb as [Ea Hk]. apply at_skipn in E1 as [Ef Hkf]. cbn [map add_parents]. rewrite Ea, Ef. cbn [bind].
    unfold sarr at 1. rewrite adot_vec by exact Hb1. cbn [bind]. destruct (Hfn (projected p b)) as [Ep Lp]; [unfold projected; now rewrite map_length|].
    unfold projected at 1 in Ep. rewrite Ep. cbn [bind]. rewrite vadd_in_rvec by congruence. cbn [bind].
    rewrite <- Hkf in Hr. destruct (IH bs' hs Hf' Hs' betas extra (S i) (map2 Rplus t (h (projected p b))) Hk Hr) as (t' & Et & Lt & Hv).
    + cbn in Hl. lia.
    + now apply map2_len.
    + exists t'. split; [exact Et|]. split; [exact Lt|]. intros j Hj. rewrite (Hv j Hj), (nth_map2 _ _ _ j 0 0) by lia.
      unfold transformed. cbn [combine map2 fst snd rsum]. lra.
Qed.

Theorem C92_transformed : forall (G : Type) (w : cpd_world X G) n ps bs extra fns hs mean cov g es g',
  ps <> [] -> samples_of n ps -> fits ps bs -> length fns = length ps -> Forall2 (maps_vectors n) fns hs -> 0 <= cov ->
  cw_normal w (repeat (Fin mean) n) (repeat (Fin (sqrt cov)) n) g = (Ok (map Fin es), g') -> length es = n ->
  exists ys, transformed_normal_cpd xreal w (map sarr ps) (map (fun b => VArr (rvec b)) bs ++ extra)%list fns (VNum (Fin mean)) (VNum (Fin cov)) g
      = (Ok (VArr (rvec ys)), g') /\ length ys = n
    /\ forall j, (j < n)%nat -> nth j ys 0 = transformed j ps bs hs + nth j es 0.
Proof.
  intros G w n ps bs extra fns hs mean cov g es g' Hne Hs Hf Hl Hh Hc E He.
  destruct ps as [|p ps]; [now destruct Hne|]. inversion Hf as [|? b ? bs' Hb1 Hf' E1 E2]; subst x bs l.
  inversion Hs as [|? ? [Hn Hd] Hs']; subst x l. destruct Hh as [|fn h fns hs Hfn Hh]; [discriminate|].
  unfold transformed_normal_cpd. cbn [map app]. cbn [List.length] in Hl. cbn [List.length]. rewrite map_length, Hl, Nat.eqb_refl. cbn [negb].
  change (at_ (VArr (rvec b) :: _) 0) with (Ok (VArr (rvec b))). change (at_ (fn :: fns) 0) with (Ok fn). cbn [bind].
  unfold sarr at 1. rewrite adot_vec by exact Hb1. cbn [bind].
  destruct (Hfn (projected p b)) as [Ep Lp]; [unfold projected; now rewrite map_length|].
  unfold projected at 1 in Ep. rewrite Ep. cbn [bind].
  destruct (add_parents_fns n (fn :: fns) ps bs' hs Hf' Hs' (VArr (rvec b) :: map (fun b => VArr (rvec b)) bs' ++ extra)%list extra 1
              (h (projected p b)) eq_refl Hh) as (t & Et & Lt & Hv); [|exact Lp|].
  { assert (length fns = length hs) by (clear - Hh; induction Hh; cbn; congruence). lia. }
  rewrite Et. change (vndim (VNum (Fin mean)) =? 0)%nat with true. cbv iota. replace (alen (sarr p)) with n by (unfold sarr; now rewrite alen_rmat). unfold plus_noise.
  rewrite (normal_noise_x w mean cov n g es g' Hc E), flatten_rvec. cbn [bind]. rewrite vop_rvec by congruence.
  eexists. split; [reflexivity|]. split; [now apply map2_len|]. intros j Hj. rewrite (nth_map2 _ _ _ j 0 0) by lia. rewrite (Hv j Hj).
  unfold transformed. cbn [combine map2 fst snd]. cbn [rsum]. lra.
Qed.
Print Assumptions C92_transformed.

(** ** cases *)
(** a generator without noise: draws equal their means, Bernoulli draws are 1 *)
Definition quiet : cpd_world X unit := mkCW
  (fun ms _ g => (Ok ms, g)) (fun ms _ n g => (Ok (repeat ms n), g)) (fun ps g => (Ok (map (fun _ => Fin 1) ps), g))
  (fun _ n g => (Ok (repeat 0%nat n), g)) (fun lo _ g => (lo, g)) (fun g => (0%Z, g)).
Definition two_units : sample := (2%nat, [[1; 2]; [3; 4]]).
Lemma two_units_ok : samples_of 2 [two_units].
Proof. constructor; [|constructor]. split; [reflexivity|]. constructor; [reflexivity|]. constructor; [reflexivity|constructor]. Qed.

Example C89_case : exists ys,
  normal_cpd xreal quiet [sarr two_units] [VArr (rvec [10; 20]); VNum (Fin 5)] (VNum (Fin 1)) (VNum (Fin 4)) tt
    = (Ok (VArr (rvec ys)), tt) /\ nth 0 ys 0 = 51 /\ nth 1 ys 0 = 111.
Proof.
  destruct (C89_univariate unit quiet 2 [two_units] [[10; 20]] [VNum (Fin 5)] 1 4 tt [1; 1] tt) as (ys & E & Hl & Hv);
    try reflexivity; [discriminate|apply two_units_ok|repeat constructor|lra|].
  exists ys. split; [exact E|]. rewrite (Hv 0%nat), (Hv 1%nat) by lia.
  unfold linear, inner, unit_of, two_units. cbn [map2 snd nth]. cbn [rsum]. split; lra.
Qed.
Example C89_errors_case :
  normal_cpd xreal quiet [sarr two_units] [VArr (vec [Fin 1; Fin 2; Fin 3])] (VNum (Fin 1)) (VNum (Fin 4)) tt = (Err ValueError, tt)
  /\ normal_cpd xreal quiet [sarr two_units; sarr two_units] [VArr (vec [Fin 1; Fin 2])] (VNum (Fin 1)) (VNum (Fin 4)) tt = (Err IndexError, tt).
Proof.
  split.
  - apply (C89_errors xreal quiet 2 [sarr two_units] [2%nat] [[Fin 1; Fin 2; Fin 3]]); [repeat constructor| |cbn; lia].
    exists 0%nat, 2%nat, [Fin 1; Fin 2; Fin 3]. repeat split. cbn. lia.
  - apply (C89_errors xreal quiet 2 [sarr two_units; sarr two_units] [2%nat; 2%nat] [[Fin 1; Fin 2]]); [repeat constructor|].
    right. split; [|cbn; lia]. intros [|[|k]] d b H1 H2; cbn in H1, H2; try discriminate.
    injection H1 as <-; injection H2 as <-; reflexivity.
Qed.
Example C90_case :
  logistic_linear_bernoulli_cpd xreal quiet [sarr two_units] [VArr (rvec [10; 20])] tt = (Ok (VArr (vec [Fin 1; Fin 1])), tt).
Proof.
  apply (C90_linear unit quiet 2 [two_units] [[10; 20]] [] tt [Fin 1; Fin 1] tt); try reflexivity; [discriminate|apply two_units_ok|repeat constructor].
Qed.
Example C91_case :
  add_gaussian_noise xreal quiet (VArr (rmat 1 [[1]; [2]])) (VNum (Fin 5)) (VArr (rvec [4])) tt = (Ok (VArr (rvec [1 + 5; 2 + 5])), tt).
Proof.
  apply (C91_one_dimensional unit quiet _ [1; 2] _ _ [5; 5] [4; 4] tt [5; 5] tt); try reflexivity.
  - right. reflexivity.
  - apply (PU_num 2 5).
  - apply (PU_one 2 4).
  - constructor; [lra|]. constructor; [lra|constructor].
Qed.
Example C92_case :
  structural_equation_with_noise xreal quiet [sarr two_units] (fun x => Ok (VArr x)) (VArr (rvec [5; 6])) (VArr (rmat 2 [[1; 0]; [0; 1]])) tt
  = (Ok (VArr (rmat 2 [[1 + 5; 2 + 6]; [3 + 5; 4 + 6]])), tt).
Proof.
  apply (C92_structural_vector unit quiet 2 [two_units] _ [[1; 2]; [3; 4]] [5; 6] [[1; 0]; [0; 1]] tt [[5; 6]; [5; 6]] tt);
    try reflexivity; try discriminate; try apply two_units_ok.
  all: split; [reflexivity|]; constructor; [reflexivity|]; constructor; [reflexivity|constructor].
Qed.
