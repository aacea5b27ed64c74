(** Property C77: the example SCMs sample what they document, and their documented moments. *)
From Coq Require Import String List Arith ZArith Reals Bool Lia Lra.
From Verif Require Import PyBase PyLemmas Num NumOps NumLaws DataModel ScmModel TabSpec TabReal ParamModel ParamProofs ParamProofs2 ParamProofs5 ExampleModel ExampleSpec.
Import ListNotations.
Open Scope R_scope.

(** ** noise *)
Section Noise.
  Variables (E : (R -> R) -> R) (H : noise E).
  Lemma noise_quad a b c f : (forall e, f e = a + b * e + c * (e * e)) -> E f = a + c.
  Proof.
    intros Hf. rewrite (ns_ext E H f (fun e => 1 * (fun e => a * (fun _ => 1) e + b * (fun e => e) e) e + c * (fun e => e * e) e)).
    - rewrite (ns_lin E H 1 c (fun e => a * (fun _ => 1) e + b * (fun e => e) e) (fun e => e * e)).
      rewrite (ns_lin E H a b (fun _ => 1) (fun e => e)), (ns_one E H), (ns_mean E H), (ns_var E H). lra.
    - intros e. rewrite Hf. ring.
  Qed.
  Lemma noise_affine a b f : (forall e, f e = a + b * e) -> E f = a.
  Proof. intros Hf. rewrite (noise_quad a b 0); [lra|]. intros e. rewrite Hf. ring. Qed.
  Lemma noise_const a : E (fun _ => a) = a.
  Proof. apply (noise_affine a 0). intros e. ring. Qed.
End Noise.

(** a two-point noise *)
Definition coin (f : R -> R) : R := (f 1 + f (-1)) / 2.
Lemma coin_noise : noise coin.
Proof.
  split; unfold coin; intros; try lra. now rewrite !H.
Qed.

(** ** the back-door law *)

Section BdMoments.
  Variables (E : (R -> R) -> R) (HE : noise E) (p alpha beta : R).
  Let L := bd_law_of p alpha beta.
  Lemma bd_mean_y : bd_mean E L (fun _ _ y => y) = 10 * (1/2 + alpha * p) + beta * p.
  Proof.
    unfold bd_mean, bern, L, bd_law_of. cbn [bl_p bl_px bl_y].
    rewrite (noise_affine E HE (10 * 1 + beta * 1) 1) by (intros; ring). rewrite (noise_affine E HE (10 * 0 + beta * 1) 1) by (intros; ring).
    rewrite (noise_affine E HE (10 * 1 + beta * 0) 1) by (intros; ring). rewrite (noise_affine E HE (10 * 0 + beta * 0) 1) by (intros; ring). field.
  Qed.
  Lemma bd_mean_zx f : bd_mean E L (fun z x _ => f z x) = bern p (fun z => bern (1/2 + alpha * z) (fun x => f z x)).
  Proof. unfold bd_mean, bern, L, bd_law_of. cbn [bl_p bl_px bl_y]. now rewrite !(noise_const E HE). Qed.
  Lemma bd_var_y : bd_variance E L (fun _ _ y => y)
    = 1 + 10 * 10 * ((1/2 + alpha * p) * (1 - (1/2 + alpha * p))) + beta * beta * (p * (1 - p)) + 2 * 10 * beta * alpha * p * (1 - p).
  Proof.
    unfold bd_variance. rewrite bd_mean_y. unfold bd_mean, bern, L, bd_law_of. cbn [bl_p bl_px bl_y].
    set (m := 10 * (1/2 + alpha * p) + beta * p).
    rewrite (noise_quad E HE ((10 * 1 + beta * 1 - m) * (10 * 1 + beta * 1 - m)) (2 * (10 * 1 + beta * 1 - m)) 1) by (intros; ring).
    rewrite (noise_quad E HE ((10 * 0 + beta * 1 - m) * (10 * 0 + beta * 1 - m)) (2 * (10 * 0 + beta * 1 - m)) 1) by (intros; ring).
    rewrite (noise_quad E HE ((10 * 1 + beta * 0 - m) * (10 * 1 + beta * 0 - m)) (2 * (10 * 1 + beta * 0 - m)) 1) by (intros; ring).
    rewrite (noise_quad E HE ((10 * 0 + beta * 0 - m) * (10 * 0 + beta * 0 - m)) (2 * (10 * 0 + beta * 0 - m)) 1) by (intros; ring).
    unfold m. field.
  Qed.
  Lemma bd_effect : bd_mean E (bd_do true L) (fun _ _ y => y) - bd_mean E (bd_do false L) (fun _ _ y => y) = 10.
  Proof.
    unfold bd_mean, bern, L, bd_do, bd_law_of, zo. cbn [bl_p bl_px bl_y].
    rewrite (noise_affine E HE (10 * 1 + beta * 1) 1) by (intros; ring). rewrite (noise_affine E HE (10 * 0 + beta * 1) 1) by (intros; ring).
    rewrite (noise_affine E HE (10 * 1 + beta * 0) 1) by (intros; ring). rewrite (noise_affine E HE (10 * 0 + beta * 0) 1) by (intros; ring). field.
  Qed.
End BdMoments.

(** ** sampling *)
Lemma lit_x p q : nlit xreal p q = Fin (IZR p / IZR (Zpos q)). Proof. reflexivity. Qed.
Lemma vec_of_vec' {N} (l : list N) : vec_of (Some (vec l)) = Ok l.
Proof. unfold vec_of, vec. cbn [atail arows]. induction l as [|a l IH]; [reflexivity|]. cbn [map mapM bind]. rewrite IH. reflexivity. Qed.
Lemma repeat_fin p n : repeat (Fin p) n = map Fin (repeat p n).
Proof. induction n as [|n IH]; [reflexivity|]. cbn [repeat map]. now rewrite IH. Qed.
Lemma zos_map (f : R -> X) bs : map (fun v => f (match v with Fin r => r | _ => 0 end)) (zos bs) = map (fun b => f (zo b)) bs.
Proof. unfold zos. rewrite map_map. reflexivity. Qed.
Lemma bzip_eq {N} (f : N -> N -> N) a b : length a = length b -> bzip f a b = Ok (map2 f a b).
Proof. intros H. unfold bzip. now rewrite H, Nat.eqb_refl. Qed.
Lemma map2_length' {A B C} (f : A -> B -> C) a : forall b, length (map2 f a b) = Nat.min (length a) (length b).
Proof. induction a as [|x a IH]; intros [|y b]; cbn; auto. Qed.

(** Y = noise + a * P_i + b * P_j for 0/1 parents *)
Lemma y_cpd_x {G} (w : ex_world X G) a i b j n ps g us vs :
  (exists bs, nth_error ps 0 = Some (vec (zos bs)) /\ length bs = n) ->
  nth_error ps i = Some (vec (zos us)) -> nth_error ps j = Some (vec (zos vs)) -> length us = n -> length vs = n ->
  forall es g', ew_normal w n g = (map Fin es, g') -> length es = n -> forall k,
  y_cpd xreal w (Fin a) i (Fin b) j k ps g
  = (Ok (vec (map (fun t => Fin (fst t + a * zo (fst (snd t)) + b * zo (snd (snd t)))) (combine es (combine us vs)))), g').
Proof.
  intros (bs & H0 & L0) Hi Hj Lu Lv es g' En Le k. unfold y_cpd, parent. rewrite H0, vec_of_vec', Hi, Hj, !vec_of_vec'.
  unfold zos at 1. rewrite map_length, L0, En. cbn [bind].
  rewrite bzip_eq by (unfold zos; rewrite !map_length; congruence). cbn [bind].
  rewrite bzip_eq by (rewrite map2_length'; unfold zos; rewrite !map_length, Lu, Lv, Le; apply Nat.min_id). cbn [bind]. repeat f_equal.
  rewrite <- Le in Lu, Lv. clear - Lu Lv. revert us vs Lu Lv. induction es as [|e es IH]; intros [|u us] [|v vs] Lu Lv; try discriminate; [reflexivity|].
  cbn [zos map map2 combine fst snd]. f_equal. apply IH; cbn in *; lia.
Qed.

Lemma column_vec {N} (l : list N) : column_stack [vec l] = Ok (mkArr [1%nat] (map (fun v => [v]) l)).
Proof. reflexivity. Qed.
Lemma columns_vec {N} (l m : list N) : length l = length m ->
  column_stack [vec l; vec m] = Ok (mkArr [2%nat] (map (fun t => [fst t; snd t]) (combine l m))).
Proof.
  intros H. unfold column_stack, as_column, vec. cbn [map atail arows hcats]. unfold hcat. cbn [atail arows].
  destruct (list_eq_dec Nat.eq_dec [] []) as [_|C]; [|congruence]. unfold alen. cbn [arows]. rewrite !map_length, H, Nat.eqb_refl. cbn [andb bind Nat.add].
  do 2 f_equal. clear H. revert m. induction l as [|a l IH]; intros [|b m]; try reflexivity. cbn [map map2 combine fst snd app]. f_equal. apply IH.
Qed.

(** ** back_door_scm *)
Ltac dict_entry := lazy [sget String.eqb Ascii.eqb Bool.eqb]; f_equal.

Section BackDoor.
  Context {G : Type} (w : ex_world X G).
  Definition bd_scm (p alpha beta : R) : scm X G :=
    mkScm "back-door example" ["Z"; "X"; "Y"] [("Z", []); ("X", ["Z"]); ("Y", ["Z"; "X"])]
      (bd_cpds xreal w (Fin p) (Fin beta) (Fin alpha) (Fin 10)) ["Z"] "X" "Y".

  Lemma bd_generate p alpha beta n g : fair w -> 0 <= p <= 1 -> -1/2 <= alpha <= 1/2 ->
    exists d g', generate (bd_scm p alpha beta) n g = (Ok d, g') /\ bd_sample w (bd_law_of p alpha beta) n g d g'.
  Proof.
    intros (_ & Hb & Hn) Hp Ha.
    destruct (Hb (repeat p n) g) as (zs & g1 & E1 & L1).
    { apply Forall_forall. intros r Hr. apply repeat_spec in Hr. now subst. }
    rewrite repeat_length in L1.
    destruct (Hb (map (fun z => 1/2 + alpha * zo z) zs) g1) as (xs & g2 & E2 & L2).
    { apply Forall_forall. intros r Hr. apply in_map_iff in Hr as (z & <- & _). unfold zo. destruct z; lra. }
    rewrite map_length, L1 in L2.
    destruct (Hn n g2) as (es & g' & E3 & L3).
    exists (ed_init (Some (mkArr [1%nat] (map (fun v => [v]) (zos zs)))) (Some (vec (zos xs)))
      (Some (vec (map (fun t => Fin (fst t + 10 * zo (fst (snd t)) + beta * zo (snd (snd t)))) (combine es (combine xs zs)))))), g'. split.
    - unfold generate, bd_scm. cbn [s_vars]. cbn [gen_loop s_parents s_cpds sget String.eqb Ascii.eqb Bool.eqb forallb negb mapM bd_cpds].
      unfold binomial_n, binomial. rewrite repeat_fin, E1.
      cbn [sset shas sget String.eqb Ascii.eqb Bool.eqb forallb negb mapM sfind bind].
      cbn -[y_cpd generate column_stack vec_of nlit nint xreal zos ew_binom ew_normal vec IZR map].
      rewrite vec_of_vec'.
      replace (map (fun v => nadd xreal (half xreal) (nmul xreal (Fin alpha) v)) (zos zs)) with (map Fin (map (fun z => 1/2 + alpha * zo z) zs)).
      2: { unfold zos. rewrite !map_map. apply map_ext. intros z. unfold half. rewrite lit_x. reflexivity. }
      rewrite E2.
      cbn -[y_cpd column_stack zos ew_normal vec IZR map].
      rewrite (y_cpd_x w 10 1 beta 0 n _ g2 xs zs) with (es := es) (g' := g'); try reflexivity; try assumption. all: try (now exists zs).
    - exists zs, xs, es, g1, g2. rewrite repeat_fin. split; [exact E1|]. split; [exact L1|].
      split; [rewrite <- E2; rewrite map_map; reflexivity|]. split; [exact L2|]. split; [exact E3|]. split; [exact L3|].
      unfold ed_init, alen, afeatures. cbn [atail arows]. replace (length (map (fun v => [v]) (zos zs))) with n by (unfold zos; now rewrite !map_length).
      replace (map (fun v => [v]) (zos zs)) with (map (fun z => [Fin (zo z)]) zs) by (unfold zos; now rewrite map_map).
      f_equal. do 2 f_equal.
      rewrite <- L3 in L1, L2. clear - L1 L2. revert xs zs L1 L2. induction es as [|e es IH]; intros [|x xs] [|z zs] L1 L2; try discriminate; [reflexivity|].
      cbn [combine map fst snd]. f_equal. apply IH; cbn in *; lia.
  Qed.

  (** the construction: three uniform draws *)
  Lemma bd_built g : fair w -> exists p u alpha g',
    1/5 <= p <= 4/5 /\ -3/10 <= u <= 3/10 /\ -3/10 <= alpha <= 3/10
    /\ exists dict, back_door_scm xreal w g = (Ok (bd_scm p alpha (10 * u), dict), g')
      /\ let mx := 1/2 + alpha * p in let b := 10 * u in
         dict = [("tau", Fin 10); ("mu_z", Fin p); ("var_z", Fin (p * (1 - p))); ("mu_x", Fin mx); ("var_x", Fin (mx * (1 - mx)));
                 ("mu_y", Fin (10 * mx + b * p)); ("var_y", Fin (1 + 10 * 10 * (mx * (1 - mx)) + b * b * (p * (1 - p))));
                 ("beta", Fin b); ("alpha", Fin alpha)]%string.
  Proof.
    intros (Hu & _ & _). unfold back_door_scm.
    destruct (Hu (2/10) (8/10) g ltac:(lra)) as (p & g1 & E1 & B1).
    destruct (Hu (0 - 3/10) (3/10) g1 ltac:(lra)) as (u & g2 & E2 & B2).
    destruct (Hu (0 - 3/10) (3/10) g2 ltac:(lra)) as (alpha & g3 & E3 & B3).
    assert (N3 : neg xreal (c3 xreal) = Fin (0 - 3/10)) by (unfold neg, c3; rewrite nint_x, lit_x; reflexivity).
    change (c2 xreal) with (Fin (2/10)). change (c8 xreal) with (Fin (8/10)). rewrite N3. change (c3 xreal) with (Fin (3/10)).
    rewrite E1, E2, E3. exists p, u, alpha, g3. split; [lra|]. split; [lra|]. split; [lra|]. eexists. split.
    - unfold scm_init. cbn -[back_door_scm nint nlit nadd nmul nsub nsq half bd_cpds xreal IZR].
      unfold bd_scm. rewrite nint_x. change (nmul xreal (Fin 10) (Fin u)) with (Fin (10 * u)). reflexivity.
    - cbv zeta. unfold nsq, half. rewrite !nint_x, !lit_x. cbn [xreal nadd nmul nsub xadd xmul xsub xneg]. reflexivity.
  Qed.
End BackDoor.

(** back_door_scm succeeds; its SCM samples Z ~ Bernoulli(p), X ~ Bernoulli(1/2 + alpha Z),
    Y = noise + 10 X + beta Z; and tau, the means and the variances of Z and X in the dictionary are
    those of this law. The variance of Y is not: the covariance of X and Z is missing. *)
Theorem C77_back_door : forall (G : Type) (w : ex_world X G) g, fair w ->
  exists s dict g' p alpha beta, back_door_scm xreal w g = (Ok (s, dict), g')
    /\ 1/5 <= p <= 4/5 /\ -3/10 <= alpha <= 3/10 /\ -3 <= beta <= 3
    /\ let L := bd_law_of p alpha beta in
       (forall n g0, exists d g1, generate s n g0 = (Ok d, g1) /\ bd_sample w L n g0 d g1)
    /\ forall E, noise E ->
       sget dict "tau" = Some (Fin (bd_mean E (bd_do true L) (fun _ _ y => y) - bd_mean E (bd_do false L) (fun _ _ y => y)))
       /\ sget dict "mu_z" = Some (Fin (bd_mean E L (fun z _ _ => z))) /\ sget dict "var_z" = Some (Fin (bd_variance E L (fun z _ _ => z)))
       /\ sget dict "mu_x" = Some (Fin (bd_mean E L (fun _ x _ => x))) /\ sget dict "var_x" = Some (Fin (bd_variance E L (fun _ x _ => x)))
       /\ sget dict "mu_y" = Some (Fin (bd_mean E L (fun _ _ y => y)))
       /\ sget dict "var_y" = Some (Fin (bd_variance E L (fun _ _ y => y) - 2 * 10 * beta * alpha * p * (1 - p)))
       /\ sget dict "beta" = Some (Fin beta) /\ sget dict "alpha" = Some (Fin alpha).
Proof.
  intros G w g Hw. destruct (bd_built w g Hw) as (p & u & alpha & g' & Bp & Bu & Ba & dict & E & Hd). cbv zeta in Hd.
  exists (bd_scm w p alpha (10 * u)), dict, g', p, alpha, (10 * u). split; [exact E|]. split; [exact Bp|]. split; [exact Ba|]. split; [lra|].
  cbv zeta. split; [intros n g0; apply bd_generate; [exact Hw|lra|lra]|]. intros Ex HE.
  rewrite (bd_effect Ex HE), (bd_var_y Ex HE), (bd_mean_y Ex HE). unfold bd_variance.
  rewrite !(bd_mean_zx Ex HE p alpha (10 * u) (fun z _ => z)), !(bd_mean_zx Ex HE p alpha (10 * u) (fun _ x => x)).
  rewrite (bd_mean_zx Ex HE p alpha (10 * u) (fun z _ => (z - _) * (z - _))), (bd_mean_zx Ex HE p alpha (10 * u) (fun _ x => (x - _) * (x - _))).
  unfold bern. rewrite Hd. repeat split; dict_entry; f_equal; try reflexivity; try field.
Qed.
Print Assumptions C77_back_door.

(** ** the front-door law *)
Section FdMoments.
  Variables (E : (R -> R) -> R) (HE : noise E) (p beta gamma a1 a2 : R).
  Let L := fd_law_of p beta gamma a1 a2.
  Let gb := sigm beta.
  Let ga := sigm a1.
  Lemma sigm_0 : sigm 0 = 1/2.
  Proof. unfold sigm. rewrite Ropp_0, exp_0. lra. Qed.
  Ltac law := unfold fd_mean, bern, L, fd_do, fd_law_of, zo; cbn [fl_p fl_px fl_pz fl_y];
    rewrite ?Rmult_1_r, ?Rmult_0_r, ?sigm_0; fold gb ga.
  Lemma fd_mean_uxz f : fd_mean E L (fun u x z _ => f u x z)
    = bern p (fun u => bern (sigm (a1 * u)) (fun x => bern (sigm (beta * x)) (fun z => f u x z))).
  Proof. unfold fd_mean, bern, L, fd_law_of. cbn [fl_p fl_px fl_pz fl_y]. now rewrite !(noise_const E HE). Qed.
  Definition mux := p * ga + (1 - p) / 2.
  Definition muz := mux * gb + (1 - mux) / 2.
  (** P(Z=1, U=1) *)
  Definition pzu := (gb * ga + 1/2 * (1 - ga)) * p.
  Ltac affine_terms := repeat match goal with |- context [E (fun e => e + gamma * ?z + a2 * ?u)] =>
    rewrite (noise_affine E HE (gamma * z + a2 * u) 1 (fun e => e + gamma * z + a2 * u)) by (intros; ring) end.
  Lemma fd_mean_y : fd_mean E L (fun _ _ _ y => y) = gamma * muz + a2 * p.
  Proof.
    unfold fd_mean, bern, L, fd_law_of. cbn [fl_p fl_px fl_pz fl_y]. affine_terms.
    rewrite ?Rmult_1_r, ?Rmult_0_r, ?sigm_0. fold gb ga. unfold muz, mux. field.
  Qed.
  Lemma fd_var_y : fd_variance E L (fun _ _ _ y => y)
    = 1 + gamma * gamma * muz + a2 * a2 * p + 2 * gamma * a2 * pzu - (gamma * muz + a2 * p) * (gamma * muz + a2 * p).
  Proof.
    unfold fd_variance. rewrite fd_mean_y. set (m := gamma * muz + a2 * p).
    unfold fd_mean, bern, L, fd_law_of. cbn [fl_p fl_px fl_pz fl_y].
    repeat match goal with |- context [E (fun e => (e + gamma * ?z + a2 * ?u - m) * (e + gamma * ?z + a2 * ?u - m))] =>
      rewrite (noise_quad E HE ((gamma * z + a2 * u - m) * (gamma * z + a2 * u - m)) (2 * (gamma * z + a2 * u - m)) 1
        (fun e => (e + gamma * z + a2 * u - m) * (e + gamma * z + a2 * u - m))) by (intros; ring) end.
    rewrite ?Rmult_1_r, ?Rmult_0_r, ?sigm_0. fold gb ga. unfold m, pzu, muz, mux. field.
  Qed.
  Lemma fd_effect : fd_mean E (fd_do true L) (fun _ _ _ y => y) - fd_mean E (fd_do false L) (fun _ _ _ y => y) = gamma * (gb - 1/2).
  Proof.
    unfold fd_mean, bern, L, fd_do, fd_law_of, zo. cbn [fl_p fl_px fl_pz fl_y]. affine_terms.
    rewrite ?Rmult_1_r, ?Rmult_0_r, ?sigm_0. fold gb ga. field.
  Qed.
  Lemma fd_joint : fd_mean E L (fun u _ z _ => z * u) = pzu.
  Proof.
    rewrite (fd_mean_uxz (fun u _ z => z * u)). unfold bern. rewrite ?Rmult_1_r, ?Rmult_0_r, ?sigm_0. fold gb ga. unfold pzu. field.
  Qed.
End FdMoments.
Lemma sigm_range x : 0 < sigm x < 1.
Proof.
  unfold sigm. pose proof (exp_pos (- x)). split; [apply Rdiv_lt_0_compat; lra|].
  apply (Rmult_lt_reg_r (1 + exp (- x))); [lra|]. unfold Rdiv. rewrite Rmult_assoc, Rinv_l by lra. lra.
Qed.
Lemma logistic_x x : logistic xreal (Fin x) = Fin (sigm x).
Proof.
  unfold logistic, neg. rewrite !nint_x. cbn [xreal nadd nsub nexp ndiv xsub xneg xadd xexp]. pose proof (exp_pos (0 + - x)).
  rewrite xdiv_fin by lra. unfold sigm. now rewrite Rplus_0_l.
Qed.

Section FrontDoor.
  Context {G : Type} (w : ex_world X G).
  Definition fd_scm (p beta gamma a1 a2 : R) : scm X G :=
    mkScm "frontdoor example" ["U"; "X"; "Z"; "Y"] [("U", []); ("X", ["U"]); ("Z", ["X"]); ("Y", ["Z"; "U"])]
      (fd_cpds xreal w (Fin p) (Fin beta) (Fin gamma) (Fin a1) (Fin a2)) ["U"; "Z"] "X" "Y".

  Lemma binomial_sized_x n ps bs (g g1 : G) : ew_binom w (map Fin ps) g = (Ok (zos bs), g1) -> length ps = n ->
    binomial_sized w n (map Fin ps) g = (Ok (vec (zos bs)), g1).
  Proof. intros E L. unfold binomial_sized, binomial. rewrite map_length, L, Nat.eqb_refl, E. reflexivity. Qed.
  Lemma logistic_map a bs : map (fun v => logistic xreal (nmul xreal (Fin a) v)) (zos bs) = map Fin (map (fun b => sigm (a * zo b)) bs).
  Proof. unfold zos. rewrite !map_map. apply map_ext. intros b. change (nmul xreal (Fin a) (Fin (zo b))) with (Fin (a * zo b)). apply logistic_x. Qed.

  Lemma fd_generate p beta gamma a1 a2 n g : fair w -> 0 <= p <= 1 ->
    exists d g', generate (fd_scm p beta gamma a1 a2) n g = (Ok d, g') /\ fd_sample w (fd_law_of p beta gamma a1 a2) n g d g'.
  Proof.
    intros (_ & Hb & Hn) Hp.
    destruct (Hb (repeat p n) g) as (us & g1 & E1 & L1).
    { apply Forall_forall. intros r Hr. apply repeat_spec in Hr. now subst. }
    rewrite repeat_length in L1.
    destruct (Hb (map (fun u => sigm (a1 * zo u)) us) g1) as (xs & g2 & E2 & L2).
    { apply Forall_forall. intros r Hr. apply in_map_iff in Hr as (z & <- & _). pose proof (sigm_range (a1 * zo z)). lra. }
    rewrite map_length, L1 in L2.
    destruct (Hb (map (fun x => sigm (beta * zo x)) xs) g2) as (zs & g3 & E3 & L3).
    { apply Forall_forall. intros r Hr. apply in_map_iff in Hr as (z & <- & _). pose proof (sigm_range (beta * zo z)). lra. }
    rewrite map_length, L2 in L3.
    destruct (Hn n g3) as (es & g' & E4 & L4).
    exists (ed_init (Some (mkArr [2%nat] (map (fun t => [fst t; snd t]) (combine (zos us) (zos zs))))) (Some (vec (zos xs)))
      (Some (vec (map (fun t => Fin (fst t + gamma * zo (fst (snd t)) + a2 * zo (snd (snd t)))) (combine es (combine zs us)))))), g'. split.
    - unfold generate, fd_scm. cbn [s_vars]. cbn [gen_loop s_parents s_cpds sget String.eqb Ascii.eqb Bool.eqb forallb negb mapM fd_cpds].
      unfold binomial_n, binomial. rewrite repeat_fin, E1.
      cbn [sset shas sget String.eqb Ascii.eqb Bool.eqb forallb negb mapM sfind bind].
      cbn -[y_cpd column_stack vec_of zos binomial_sized logistic vec IZR map nmul xreal].
      rewrite vec_of_vec', logistic_map, (binomial_sized_x n _ xs g1 g2 E2) by (now rewrite map_length).
      cbn -[y_cpd column_stack vec_of zos binomial_sized logistic vec IZR map nmul xreal].
      rewrite vec_of_vec', logistic_map, (binomial_sized_x n _ zs g2 g3 E3) by (now rewrite map_length).
      cbn -[y_cpd column_stack zos vec IZR map].
      rewrite (y_cpd_x w gamma 0 a2 1 n _ g3 zs us) with (es := es) (g' := g'); try assumption; [|now exists zs|reflexivity|reflexivity].
      cbn -[column_stack zos vec IZR map combine]. rewrite columns_vec by (unfold zos; rewrite !map_length; congruence).
      reflexivity.
    - exists us, xs, zs, es, g1, g2, g3. rewrite repeat_fin. split; [exact E1|]. split; [exact L1|].
      split; [rewrite <- E2; rewrite map_map; reflexivity|]. split; [exact L2|].
      split; [rewrite <- E3; rewrite map_map; reflexivity|]. split; [exact L3|]. split; [exact E4|]. split; [exact L4|].
      unfold ed_init, alen, afeatures. cbn [atail arows].
      replace (length (map (fun t : X * X => [fst t; snd t]) (combine (zos us) (zos zs)))) with n
        by (unfold zos; rewrite !map_length, combine_length, !map_length, L1, L3; symmetry; apply Nat.min_id).
      replace (map (fun t : X * X => [fst t; snd t]) (combine (zos us) (zos zs))) with (map (fun t => [Fin (zo (fst t)); Fin (zo (snd t))]) (combine us zs)).
      2: { clear. revert zs. induction us as [|u us IH]; intros [|z zs]; try reflexivity. cbn [combine map zos fst snd]. f_equal. apply IH. }
      f_equal. do 2 f_equal. rewrite <- L4 in L1, L3. clear - L1 L3. revert us zs L1 L3.
      induction es as [|e es IH]; intros [|u us] [|z zs] L1 L3; try discriminate; [reflexivity|].
      cbn [combine map fst snd]. f_equal. apply IH; cbn in *; lia.
  Qed.

  Lemma fd_built g : fair w -> exists p beta gamma a1 a2 g',
    1/5 <= p <= 4/5 /\ -1 <= beta <= 1 /\ 5 <= gamma <= 10 /\ -3/10 <= a1 <= 3/10 /\ -3/10 <= a2 <= 3/10
    /\ exists dict, frontdoor_scm xreal w g = (Ok (fd_scm p beta gamma a1 a2, dict), g')
      /\ let gb := sigm beta in let ga := sigm a1 in
         let mx := p * ga + (1 - p) / 2 in let mz := mx * gb + (1 - mx) / 2 in let my := gamma * mz + a2 * p in
         dict = [("tau", Fin (gamma * (gb - 1/2))); ("mu_z", Fin mz); ("var_z", Fin (mz * (1 - mz))); ("mu_x", Fin mx); ("var_x", Fin (mx * (1 - mx)));
                 ("mu_y", Fin my);
                 ("var_y", Fin (1 + (gamma * gamma + a2 * a2) * ((gb * ga + 1/2 * (1 - ga)) * p) + gamma * gamma * ((gb / 2 + 1/4) * (1 - p))
                                 + a2 * a2 * (((1 - gb) * ga + (1 - ga) / 2) * p) - my * my));
                 ("mu_u", Fin p); ("var_u", Fin (p * (1 - p))); ("alpha_1", Fin a1); ("alpha_2", Fin a2);
                 ("beta", Fin beta); ("gamma", Fin gamma)]%string.
  Proof.
    intros (Hu & _ & _). unfold frontdoor_scm.
    destruct (Hu (2/10) (8/10) g ltac:(lra)) as (p & g1 & E1 & B1).
    destruct (Hu (0 - 1) 1 g1 ltac:(lra)) as (beta & g2 & E2 & B2).
    destruct (Hu 5 10 g2 ltac:(lra)) as (gamma & g3 & E3 & B3).
    destruct (Hu (0 - 3/10) (3/10) g3 ltac:(lra)) as (a1 & g4 & E4 & B4).
    destruct (Hu (0 - 3/10) (3/10) g4 ltac:(lra)) as (a2 & g5 & E5 & B5).
    assert (N3 : neg xreal (c3 xreal) = Fin (0 - 3/10)) by (unfold neg, c3; rewrite nint_x, lit_x; reflexivity).
    assert (N1 : neg xreal (nint xreal 1) = Fin (0 - 1)) by (unfold neg; rewrite !nint_x; reflexivity).
    change (c2 xreal) with (Fin (2/10)). change (c8 xreal) with (Fin (8/10)). rewrite N3, N1. change (c3 xreal) with (Fin (3/10)).
    rewrite !nint_x. rewrite E1, E2, E3, E4, E5. exists p, beta, gamma, a1, a2, g5. do 5 (split; [lra|]). eexists. split.
    - unfold scm_init. cbn -[nint nlit nadd nmul nsub nsq ndiv logistic half fd_cpds xreal IZR]. unfold fd_scm. reflexivity.
    - cbv zeta. unfold nsq, half. rewrite !lit_x, !logistic_x. cbn [xreal nadd nmul nsub ndiv xadd xmul xsub xneg].
      do 3 (rewrite ?xdiv_fin by lra; cbn [xadd xmul xneg xsub]). reflexivity.
  Qed.
End FrontDoor.

(** frontdoor_scm likewise: U ~ Bernoulli(p), X ~ Bernoulli(sigmoid(alpha_1 U)),
    Z ~ Bernoulli(sigmoid(beta X)), Y = noise + gamma Z + alpha_2 U. Its var_y misses the
    product term. *)
Theorem C77_front_door : forall (G : Type) (w : ex_world X G) g, fair w ->
  exists s dict g' p beta gamma a1 a2, frontdoor_scm xreal w g = (Ok (s, dict), g')
    /\ 1/5 <= p <= 4/5 /\ -1 <= beta <= 1 /\ 5 <= gamma <= 10 /\ -3/10 <= a1 <= 3/10 /\ -3/10 <= a2 <= 3/10
    /\ let L := fd_law_of p beta gamma a1 a2 in
       (forall n g0, exists d g1, generate s n g0 = (Ok d, g1) /\ fd_sample w L n g0 d g1)
    /\ forall E, noise E ->
       sget dict "tau" = Some (Fin (fd_mean E (fd_do true L) (fun _ _ _ y => y) - fd_mean E (fd_do false L) (fun _ _ _ y => y)))
       /\ sget dict "mu_u" = Some (Fin (fd_mean E L (fun u _ _ _ => u))) /\ sget dict "var_u" = Some (Fin (fd_variance E L (fun u _ _ _ => u)))
       /\ sget dict "mu_x" = Some (Fin (fd_mean E L (fun _ x _ _ => x))) /\ sget dict "var_x" = Some (Fin (fd_variance E L (fun _ x _ _ => x)))
       /\ sget dict "mu_z" = Some (Fin (fd_mean E L (fun _ _ z _ => z))) /\ sget dict "var_z" = Some (Fin (fd_variance E L (fun _ _ z _ => z)))
       /\ sget dict "mu_y" = Some (Fin (fd_mean E L (fun _ _ _ y => y)))
       /\ sget dict "var_y" = Some (Fin (fd_variance E L (fun _ _ _ y => y) - 2 * gamma * a2 * fd_mean E L (fun u _ z _ => z * u))).
Proof.
  intros G w g Hw. destruct (fd_built w g Hw) as (p & beta & gamma & a1 & a2 & g' & Bp & Bb & Bg & B1 & B2 & dict & E & Hd). cbv zeta in Hd.
  exists (fd_scm w p beta gamma a1 a2), dict, g', p, beta, gamma, a1, a2. split; [exact E|]. do 5 (split; [assumption|]).
  cbv zeta. split; [intros n g0; apply fd_generate; [exact Hw|lra]|]. intros Ex HE.
  rewrite (fd_effect Ex HE), (fd_var_y Ex HE), (fd_mean_y Ex HE), (fd_joint Ex HE). unfold fd_variance.
  rewrite !(fd_mean_uxz Ex HE p beta gamma a1 a2 (fun u _ _ => u)), !(fd_mean_uxz Ex HE p beta gamma a1 a2 (fun _ x _ => x)),
    !(fd_mean_uxz Ex HE p beta gamma a1 a2 (fun _ _ z => z)).
  rewrite (fd_mean_uxz Ex HE p beta gamma a1 a2 (fun u _ _ => (u - _) * (u - _))), (fd_mean_uxz Ex HE p beta gamma a1 a2 (fun _ x _ => (x - _) * (x - _))),
    (fd_mean_uxz Ex HE p beta gamma a1 a2 (fun _ _ z => (z - _) * (z - _))).
  unfold bern, pzu, muz, mux. rewrite ?Rmult_1_r, ?Rmult_0_r, ?sigm_0.
  rewrite Hd. repeat split; dict_entry; f_equal; try reflexivity; try field.
Qed.
Print Assumptions C77_front_door.

(** the documented variances of Y are right only in degenerate cases *)
Theorem C77_var_y_right_iff :
  (forall E p alpha beta, noise E -> 0 < p < 1 ->
     (bd_variance E (bd_law_of p alpha beta) (fun _ _ y => y) - 2 * 10 * beta * alpha * p * (1 - p)
        = bd_variance E (bd_law_of p alpha beta) (fun _ _ y => y) <-> alpha = 0 \/ beta = 0))
  /\ (forall E p beta gamma a1 a2, noise E -> 0 < p < 1 -> 0 < gamma ->
     (fd_variance E (fd_law_of p beta gamma a1 a2) (fun _ _ _ y => y)
        - 2 * gamma * a2 * fd_mean E (fd_law_of p beta gamma a1 a2) (fun u _ z _ => z * u)
        = fd_variance E (fd_law_of p beta gamma a1 a2) (fun _ _ _ y => y) <-> a2 = 0)).
Proof.
  split.
  - intros E p alpha beta HE Hp. split.
    + intros H. assert (Hz : beta * alpha * (p * (1 - p)) = 0) by lra. assert (p * (1 - p) <> 0) by nra.
      apply Rmult_integral in Hz as [Hz|Hz]; [|contradiction]. apply Rmult_integral in Hz. tauto.
    + intros [-> | ->]; ring.
  - intros E p beta gamma a1 a2 HE Hp Hg. rewrite (fd_joint E HE). split.
    + intros H. assert (Hq : 0 < pzu p beta a1).
      { unfold pzu. pose proof (sigm_range beta). pose proof (sigm_range a1). apply Rmult_lt_0_compat; nra. }
      assert (Hz : a2 * (gamma * pzu p beta a1) = 0) by lra. assert (0 < gamma * pzu p beta a1) by nra.
      apply Rmult_integral in Hz as [Hz|Hz]; [exact Hz|lra].
    + intros ->. ring.
Qed.
Print Assumptions C77_var_y_right_iff.

Section C77Case.
  (** always the upper bound, always 1, noise 0: a fair world *)
  Let w : ex_world X nat := mkExW (fun lo hi g => (hi, S g)) (fun ps g => (Ok (map (fun _ => Fin 1) ps), S g)) (fun n g => (repeat (Fin 0) n, S g)).
  Lemma case_fair : fair w.
  Proof.
    split; [|split].
    - intros lo hi g H. exists hi, (S g). split; [reflexivity|lra].
    - intros ps g _. exists (map (fun _ => true) ps), (S g). split; [|now rewrite map_length]. unfold w, zos. cbn [ew_binom]. now rewrite !map_map.
    - intros n g. exists (repeat 0 n), (S g). split; [unfold w; cbn [ew_normal]; now rewrite repeat_fin|apply repeat_length].
  Qed.
  Example C77_case :
    (exists s dict g', back_door_scm xreal w 0%nat = (Ok (s, dict), g'))
    /\ bd_variance coin (bd_law_of (1/2) (1/5) 1) (fun _ _ y => y) = 105/4
    /\ bd_variance coin (bd_law_of (1/2) (1/5) 1) (fun _ _ y => y) - 2 * 10 * 1 * (1/5) * (1/2) * (1 - 1/2) = 101/4.
  Proof.
    split.
    - destruct (C77_back_door nat w 0%nat case_fair) as (s & dict & g' & _ & _ & _ & E & _). now exists s, dict, g'.
    - rewrite (bd_var_y coin coin_noise). split; field.
  Qed.
End C77Case.
