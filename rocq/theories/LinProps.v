(** Properties C110 to C113: the subclasses of AIPW with their scikit-learn estimators. *)
From Coq Require Import List Arith ZArith Reals Bool Lia Lra Permutation.
From Verif Require Import PyBase PyLemmas Num NumOps FloatOps NumLaws DataModel ScmModel TabModel TabSpec TabReal ArmModel ArmSpec ArmProofs1 ArmProofs2 ArmProofs3
  ParamModel ParamSpec ParamSpec2 ParamProofs ParamProofs2 ParamProofs5 ParamProofs6 ParamProps ParamProps2 UtilModel
  LinModel LinSpec LinProofs LinProofs2 LinProofs3.
Import ListNotations.
Open Scope nat_scope.

(** ** C110: the parameters of the linear response *)
Section C110.
  Context {N : Type} (o : numops N) (solve : arr N -> list N -> res (list N))
    (lsolve : option (list N * N) -> arr N -> list N -> res (list N * N)) (la : linalg N) (cf : aipw_conf N).
  Let meth := aipw_methods o (ridge_ops o solve) (logit_ops o lsolve) la cf.
  Let params (s : aipw N (ridge N) (logit N)) := get_response_parameters (@IsRidge N unit (ap_resp s)).

(** whatever has been done: if they are returned, the intercept is 0; otherwise AttributeError, and the parameter has not
    enough samples *)
Theorem C110_parameters : forall l,
  (exists c, params (after meth linear_logistic_new l) = Ok (Some (c, nint o 0))) \/
  (params (after meth linear_logistic_new l) = Err AttributeError /\ aipw_enough (after meth linear_logistic_new l) = false).
Proof.
  intros l. unfold params. pose proof (ridge_ok_after o solve lsolve la cf l _ (ridge_ok_new o)) as H. unfold meth. set (s := after _ _ l) in *. clearbody s.
  destruct H as [[H1 H2]|[H1 [c H2]]].
  - right. split; [|exact H2]. cbn. rewrite H1. destruct (rg_coef (ap_resp s)); reflexivity.
  - left. exists c. cbn. rewrite H1, H2. reflexivity.
Qed.

(** without a call of fit since the construction, or since the last reset, they are never returned: not even after
    set_to_truth *)
Theorem C110_no_fit : forall l1 l2, forallb (fun a => negb (is_fit a)) l2 = true ->
  params (after meth linear_logistic_new l2) = Err AttributeError /\
  params (after meth linear_logistic_new (l1 ++ Reset :: l2)) = Err AttributeError.
Proof.
  intros l1 l2 Hl. assert (H : forall s, rg_icept (ap_resp s) = None -> params (after meth s l2) = Err AttributeError).
  { intros s Hs. unfold params, meth. cbn [get_response_parameters]. rewrite (no_fit o solve lsolve la cf l2 s Hl Hs). destruct (rg_coef _); reflexivity. }
  split; [apply H; reflexivity|].
  assert (Ea : forall l l' s, after meth s (l ++ l') = after meth (after meth s l) l').
  { unfold after. induction l as [|a l IH]; intros l' s; [reflexivity|]. cbn [acts app]. destruct (act meth s a) as [s1 x]. specialize (IH l' s1).
    destruct (acts meth s1 l) as [s2 xs]. cbn [fst] in *. rewrite <- IH. destruct (acts meth s1 (l ++ l')). reflexivity. }
  rewrite Ea. set (s := after meth linear_logistic_new l1). replace (after meth s (Reset :: l2)) with (after meth (aipw_reset (ridge_ops o solve) (logit_ops o lsolve) s) l2).
  - apply H. reflexivity.
  - unfold after. cbn [acts act meth aipw_methods m_reset]. destruct (acts _ _ l2). reflexivity.
Qed.

(** a fit that has trained stores what the solver returned; set_to_truth after it stores the truth *)
Theorem C110_fit : forall B s d rows bs y s1,
  counting o B -> dataset d (ac_dim cf) rows (bits o bs) y -> (Z.of_nat (length bs) + Z.abs (ac_min cf) <= B)%Z ->
  large_enough (ac_min cf) bs -> aipw_fit o (ridge_ops o solve) (logit_ops o lsolve) cf s d = (s1, None) ->
  exists c, solve (with_exposure (bits o bs) (ac_dim cf) rows) y = Ok c /\ params s1 = Ok (Some (c, nint o 0)) /\
    forall gen, params (fst (aipw_truth o (ridge_ops o solve) (logit_ops o lsolve) cf s1 (Some gen))) =
      Ok (Some (lg_tau gen :: lg_beta gen, nint o 0)).
Proof.
  intros B s d rows bs y s1 Hc Hd HB HL. rewrite (aipw_fit_dataset o _ _ cf s d rows (bits o bs) y Hd).
  assert (El : length rows = length bs). { destruct Hd as (_ & _ & _ & _ & _ & L & _). unfold bits in L. rewrite map_length in L. now rewrite L. }
  rewrite El, (proj2 (too_few_bits o B (ac_min cf) bs Hc HB) HL). cbn [ridge_ops pr_fit].
  destruct (solve (with_exposure (bits o bs) (ac_dim cf) rows) y) as [c|]; [|discriminate].
  destruct (pr_fit (logit_ops o lsolve) _ _ _) as [p [e|]]; [discriminate|]. intros E. injection E as <-. exists c. split; [reflexivity|]. split; [reflexivity|].
  intros gen. unfold aipw_truth. destruct (_ =? _); reflexivity.
Qed.
End C110.
Print Assumptions C110_parameters.
Print Assumptions C110_no_fit.
Print Assumptions C110_fit.

Open Scope R_scope.
(** the scores from the returned numbers c: one effect c_0 for all units, plus the weighted residual of the linear model *)
Theorem C110_scores :
  forall solve lsolve (cf : aipw_conf X) lo (s : aipw X (ridge X) (logit X)) d us c g i b,
  ac_overlap cf = Fin lo -> 1 / 10 ^ 15 <= lo <= 1 / 2 -> of_population us (ac_dim cf) d -> aipw_enough s = true ->
  get_response_parameters (@IsRidge X unit (ap_resp s)) = Ok (Some (map Fin c, Fin 0)) -> length c = S (ac_dim cf) ->
  lo_coef (ap_prop s) = Some (map Fin g) -> lo_icept (ap_prop s) = Some i -> icept_value i = Fin b -> lo_classes (ap_prop s) = true ->
  length g = ac_dim cf ->
  aipw_score xreal (ridge_ops xreal solve) (logit_ops xreal lsolve) cf s d =
  Ok (map (fun a =>
        let e := rclip lo (1 / (1 + exp (- (dot g (a_z a) + b)))) in
        Fin (hd 0 c + (if a_x a then / e else - / (1 - e)) * (a_y a - dot c (b2r (a_x a) :: a_z a)))) us).
Proof.
  intros solve lsolve cf lo s d us c g i b Hlo Hl Hd Hf Hp Lc Hg Hi Hb Hcl Lg.
  assert (Hr : rg_coef (ap_resp s) = Some (map Fin c) /\ rg_icept (ap_resp s) = Some (Fin 0)).
  { cbn in Hp. destruct (rg_coef (ap_resp s)) as [c0|]; [|discriminate]. destruct (rg_icept (ap_resp s)) as [b0|]; [|discriminate].
    cbn in Hp. injection Hp as -> ->. auto. }
  destruct Hr as [Hr1 Hr2].
  rewrite (C39_score _ _ cf lo s d us _ _ Hlo Hl Hd Hf (ridge_evaluates solve _ _ c 0 Hr1 Hr2 Lc) (logit_evaluates lsolve _ _ g i b Hg Hi Hb Hcl Lg)).
  f_equal. apply map_ext. intros a. cbn zeta. f_equal. unfold dr_score, affine, dot. destruct c as [|c0 c]; [discriminate Lc|]. cbn [map2 rsum hd].
  set (e := rclip lo _). destruct (a_x a); cbn [b2r]; unfold Rdiv; ring.
Qed.
Print Assumptions C110_scores.
Close Scope R_scope.

(** units (exposure, covariate) = (1,1), (1,0), (0,1), (0,0) with y = 8 x: the solution is (5, 1) *)
Definition us8 : list atom := popE (fun x _ => (8 * b2r x)%R).
Definition d8 : expdata X := dataE (fun x _ => (8 * b2r x)%R).
Definition cf8 : aipw_conf X := mkAC 1 2 (Fin (1/20)).
Definition solve8 : arr X -> list X -> res (list X) := fun _ _ => Ok [Fin 5; Fin 1].
Definition lsolve8 : option (list X * X) -> arr X -> list X -> res (list X * X) := fun _ _ _ => Ok ([Fin 0], Fin 0).
Definition gen8 : lin_gen X := mkLin [Fin 0] (Fin 8) [Fin 0] 1.
Definition pr8 := ridge_ops xreal solve8.
Definition pp8 := logit_ops xreal lsolve8.
Lemma x_apart : tells_apart xreal.
Proof. split; rewrite !nint_x; cbn; match goal with |- (if ?c then _ else _) = _ => destruct c; [lra|reflexivity] | _ => idtac end. Qed.
Lemma enough8 : large_enough 2 (map a_x us8).
Proof. split; cbn; lia. Qed.
Lemma d8_of : of_population us8 1 d8.
Proof. apply dataE_of. Qed.
Lemma fit8 : aipw_fit xreal pr8 pp8 cf8 linear_logistic_new d8 =
  (mkAipw (mkRidge (Some [Fin 5; Fin 1]) (Some (Fin 0))) (mkLogit (Some [Fin 0]) (Some (InArray (Fin 0))) true) true (Some d8), None).
Proof.
  rewrite (aipw_fit_dataset xreal pr8 pp8 cf8 _ d8 _ _ _ d8_of).
  rewrite map_length, <- (map_length a_x us8). change (ac_min cf8) with 2%Z.
  rewrite (proj2 (too_few_bits xreal 6 2 (map a_x us8) (xreal_counting _) ltac:(cbn; lia)) enough8).
  cbn [pr8 ridge_ops pr_fit solve8]. rewrite nint_x. cbn [pp8 logit_ops pr_fit].
  rewrite (one_class_bits xreal (map a_x us8) x_apart) by (cbn; lia). reflexivity.
Qed.
(** before and after fitting, and after set_to_truth; the scores are 5 + residual times the weight *)
Example C110_case :
  get_response_parameters (@IsRidge X unit (ap_resp (@linear_logistic_new X))) = Err AttributeError /\
  get_response_parameters (@IsRidge X unit (ap_resp (fst (aipw_fit xreal pr8 pp8 cf8 linear_logistic_new d8)))) = Ok (Some ([Fin 5; Fin 1], Fin 0)) /\
  get_response_parameters (@IsRidge X unit (ap_resp (fst (aipw_truth xreal pr8 pp8 cf8 (fst (aipw_fit xreal pr8 pp8 cf8 linear_logistic_new d8)) (Some gen8))))) =
    Ok (Some ([Fin 8; Fin 0], Fin 0)) /\
  aipw_score xreal pr8 pp8 cf8 (fst (aipw_fit xreal pr8 pp8 cf8 linear_logistic_new d8)) d8 = Ok (map Fin [9; 11; 7; 5]%R).
Proof.
  rewrite fit8. cbn [fst]. repeat (split; [reflexivity|]).
  assert (E : (1 / (1 + exp (- (0 * 1 + 0 + 0))) = 1 / 2)%R /\ (1 / (1 + exp (- (0 * 0 + 0 + 0))) = 1 / 2)%R).
  { replace (- (0 * 1 + 0 + 0))%R with 0%R by lra. replace (- (0 * 0 + 0 + 0))%R with 0%R by lra. rewrite exp_0. lra. }
  assert (Er : rclip (1 / 20) (1 / 2) = (1 / 2)%R). { unfold rclip, Rmin, Rmax. destruct (Rle_dec (1 / 20) (1 / 2)); [|lra]. destruct (Rle_dec (1 - 1 / 20) (1 / 2)); lra. }
  unfold pr8, pp8. rewrite (C110_scores solve8 lsolve8 cf8 (1/20) _ d8 us8 [5; 1]%R [0%R] (InArray (Fin 0)) 0); try reflexivity; [| |exact d8_of].
  - f_equal. unfold us8, popE. cbn [map a_x a_z a_y]. unfold dot. cbn [map2 rsum hd]. destruct E as [E1 E2]. rewrite E1, E2, Er.
    repeat (apply (f_equal2 (@cons X)); [f_equal; cbn [b2r]; field|]); reflexivity.
  - pose proof small_overlap. lra.
Qed.

(** ** C111: training after set_to_truth *)
(** after set_to_truth, until reset, every call of fit with enough units in both groups raises TypeError when it comes to the
    propensity: the response has been trained, the propensity and has_enough_samples are as before *)
Theorem C111_refit_raises :
  forall {N M} (o : numops N) (pr : predictor N M) lsolve la (cf : aipw_conf N) B s gen s1 l d rows bs y m,
  counting o B -> tells_apart o -> (1 <= ac_min cf)%Z ->
  aipw_truth o pr (logit_ops o lsolve) cf s (Some gen) = (s1, None) -> forallb (fun a => negb (is_reset a)) l = true ->
  let s2 := after (aipw_methods o pr (logit_ops o lsolve) la cf) s1 l in
  dataset d (ac_dim cf) rows (bits o bs) y -> (Z.of_nat (length bs) + Z.abs (ac_min cf) <= B)%Z -> large_enough (ac_min cf) bs ->
  pr_fit pr (ap_resp s2) (with_exposure (bits o bs) (ac_dim cf) rows) y = (m, None) ->
  aipw_fit o pr (logit_ops o lsolve) cf s2 d = (mkAipw m (ap_prop s2) (ap_fit s2) (Some d), Some TypeError).
Proof.
  intros N M o pr lsolve la cf B s gen s1 l d rows bs y m Hc Ha Hm Ht Hl s2 Hd HB HL Ef.
  assert (Sp : spoiled s2) by (apply (spoiled_after o lsolve la cf pr l s1 Hl), (truth_spoils o lsolve cf pr s gen s1 Ht)).
  rewrite (spoiled_refit o pr lsolve cf B s2 d rows bs y Hc Ha Hm Sp Hd HB HL), Ef. reflexivity.
Qed.
Print Assumptions C111_refit_raises.

(** nothing trains the propensity again: over any further history without reset, has_enough_samples never changes and the
    propensity predicts from numbers assigned by set_to_truth *)
Theorem C111_never_trained :
  forall {N M} (o : numops N) (pr : predictor N M) lsolve la (cf : aipw_conf N) s gen s1 l,
  aipw_truth o pr (logit_ops o lsolve) cf s (Some gen) = (s1, None) -> forallb (fun a => negb (is_reset a)) l = true ->
  let s2 := after (aipw_methods o pr (logit_ops o lsolve) la cf) s1 l in
  aipw_enough s2 = aipw_enough s /\
  exists g, lo_coef (ap_prop s2) = Some (lg_gamma g) /\ lo_icept (ap_prop s2) = Some (Number (nint o 0)) /\ length (lg_gamma g) = ac_dim cf /\
    (g = gen \/ In (Truth (Some g)) l).
Proof.
  intros N M o pr lsolve la cf s gen s1 l Ht Hl. cbv zeta.
  set (Inv := fun (L : list (action N)) (t : aipw N M (logit N)) => ap_fit t = ap_fit s /\
    exists g, lo_coef (ap_prop t) = Some (lg_gamma g) /\ lo_icept (ap_prop t) = Some (Number (nint o 0)) /\ length (lg_gamma g) = ac_dim cf /\
      (g = gen \/ In (Truth (Some g)) L)).
  assert (H0 : Inv [] s1).
  { unfold aipw_truth in Ht. destruct (length (lg_gamma gen) =? ac_dim cf) eqn:E; [|discriminate]. injection Ht as <-. apply Nat.eqb_eq in E.
    split; [reflexivity|]. exists gen. repeat split; auto. }
  cut (forall l0 l1 t, Inv l0 t -> forallb (fun a => negb (is_reset a)) l1 = true -> Inv (l0 ++ l1) (after (aipw_methods o pr (logit_ops o lsolve) la cf) t l1)).
  { intros C. exact (C [] l s1 H0 Hl). }
  clear - Inv. intros l0 l1. revert l0. induction l1 as [|a l1 IH]; intros l0 t Ht Hl; [rewrite app_nil_r; exact Ht|].
  cbn [forallb] in Hl. apply andb_true_iff in Hl as [Ha Hl].
  assert (Hs : Inv (l0 ++ [a]) (fst (act (aipw_methods o pr (logit_ops o lsolve) la cf) t a))).
  { assert (Up : Inv (l0 ++ [a]) t).
    { destruct Ht as (E & g & E1 & E2 & E3 & E4). split; [exact E|]. exists g. repeat split; try assumption. destruct E4 as [E4|E4]; [left; exact E4|right; apply in_or_app; auto]. }
    destruct a as [d|d|delta sub_g rho| |g|]; cbn [act aipw_methods m_fit m_score m_width m_enough m_truth m_reset]; try exact Up.
    - assert (Sp : spoiled t) by (destruct Ht as (_ & g & E1 & E2 & _); exists (lg_gamma g), (nint o 0); auto).
      destruct (spoiled_fit o lsolve cf pr t d Sp) as (_ & F1 & F2). destruct (aipw_fit o pr (logit_ops o lsolve) cf t d) as [t' e]. cbn [fst] in *.
      unfold Inv. rewrite F1, F2. exact Up.
    - destruct g as [g|]; [|exact Up]. unfold aipw_truth. destruct (length (lg_gamma g) =? ac_dim cf) eqn:E; cbn [fst].
      + apply Nat.eqb_eq in E. split; [exact (proj1 Up)|]. exists g. repeat split; auto. right. apply in_or_app. right. left. reflexivity.
      + exact Up.
    - discriminate Ha. }
  unfold after. cbn [acts]. destruct (act _ t a) as [t1 x]. cbn [fst] in Hs. specialize (IH (l0 ++ [a]) t1 Hs Hl). rewrite <- app_assoc in IH.
  unfold after in IH. destruct (acts _ t1 l1) as [t2 xs]. exact IH.
Qed.
Print Assumptions C111_never_trained.

(** an arm with such a parameter: an update returns only if its training half has too few units in a group *)
Theorem C111_arm :
  forall {N M G} (o : numops N) (vnone : N) w tr (pr : predictor N M) lsolve la (cf : aipw_conf N) B opts s gen s1 l
    (a a' : arm N N (aipw N M (logit N))) d delta (g g' : G) ci,
  counting o B -> tells_apart o -> (1 <= ac_min cf)%Z ->
  aipw_truth o pr (logit_ops o lsolve) cf s (Some gen) = (s1, None) -> forallb (fun a => negb (is_reset a)) l = true ->
  ar_eta a = after (aipw_methods o pr (logit_ops o lsolve) la cf) s1 l ->
  ss_update o vnone (aipw_ops o pr (logit_ops o lsolve) la cf) w tr opts a d delta g = ((a', g'), Ok ci) ->
  exists f0 rest, ar_split a' = Some (f0 :: rest) /\
    forall rows bs y, dataset f0 (ac_dim cf) rows (bits o bs) y -> (Z.of_nat (length bs) + Z.abs (ac_min cf) <= B)%Z ->
      ~ large_enough (ac_min cf) bs.
Proof.
  intros N M G o vnone w tr pr lsolve la cf B opts s gen s1 l a a' d delta g g' [lo up] Hc Ha Hm Ht Hl Eta E.
  destruct (ss_ok_inv o vnone _ w tr opts a d delta g a' g' lo up E) as (_ & a1 & g1 & f0 & h & g2 & Ea & Ef & Eh & _).
  destruct (ss_frame o vnone _ w tr _ _ _ _ _ _ _ _ Ea _ _ _ E) as (Es & _).
  pose proof (proj2 (absorb_ci o vnone w tr _ _ _ _ _ _ _ _ Ea)) as Ee.
  unfold fold in Ef. rewrite Es. destruct (ar_split a1) as [[|f rest]|]; [discriminate|..|discriminate].
  cbn in Ef. injection Ef as ->. exists f0, rest. split; [reflexivity|].
  intros rows bs y Hd HB HL. cbn [aipw_ops e_fit] in Eh. rewrite Ee, Eta in Eh.
  set (s2 := after _ s1 l) in *.
  assert (Sp : spoiled s2) by (apply (spoiled_after o lsolve la cf pr l s1 Hl), (truth_spoils o lsolve cf pr s gen s1 Ht)).
  rewrite (spoiled_refit o pr lsolve cf B s2 f0 rows bs y Hc Ha Hm Sp Hd HB HL) in Eh.
  destruct (pr_fit pr _ _ _) as [m [e|]]; discriminate.
Qed.
Print Assumptions C111_arm.

(** estimate_true_variance leaves the parameter of the arm in such a state *)
Theorem C111_true_variance :
  forall {N M G} (o : numops N) (pr : predictor N M) lsolve la (cf : aipw_conf N) B gen (sample : nat -> G -> res (expdata N) * G) n s g h v g' l d rows bs y,
  counting o B -> tells_apart o -> (1 <= ac_min cf)%Z ->
  estimate_true_variance o sample (fun s => aipw_truth o pr (logit_ops o lsolve) cf s (Some gen))
    (fun s d => (s, aipw_score o pr (logit_ops o lsolve) cf s d)) n s g = ((h, Ok v), g') ->
  forallb (fun a => negb (is_reset a)) l = true ->
  dataset d (ac_dim cf) rows (bits o bs) y -> (Z.of_nat (length bs) + Z.abs (ac_min cf) <= B)%Z -> large_enough (ac_min cf) bs ->
  snd (aipw_fit o pr (logit_ops o lsolve) cf (after (aipw_methods o pr (logit_ops o lsolve) la cf) h l) d) <> None.
Proof.
  intros N M G o pr lsolve la cf B gen sample n s g h v g' l d rows bs y Hc Ha Hm E Hl Hd HB HL.
  unfold estimate_true_variance in E. destruct (sample n g) as [[dd|] g1]; [|discriminate].
  destruct (aipw_truth o pr (logit_ops o lsolve) cf s (Some gen)) as [h0 [e|]] eqn:Et; [discriminate|].
  assert (h = h0) by congruence. subst h0. clear E.
  assert (Sp : spoiled (after (aipw_methods o pr (logit_ops o lsolve) la cf) h l)) by (apply (spoiled_after o lsolve la cf pr l h Hl), (truth_spoils o lsolve cf pr s gen h Et)).
  rewrite (spoiled_refit o pr lsolve cf B _ d rows bs y Hc Ha Hm Sp Hd HB HL). destruct (pr_fit pr _ _ _) as [m [e|]]; discriminate.
Qed.
Print Assumptions C111_true_variance.

(** the same data can be fitted before set_to_truth and not after it *)
Example C111_case :
  snd (aipw_fit xreal pr8 pp8 cf8 linear_logistic_new d8) = None /\
  let s1 := fst (aipw_fit xreal pr8 pp8 cf8 linear_logistic_new d8) in
  snd (aipw_fit xreal pr8 pp8 cf8 s1 d8) = None /\
  let s2 := fst (aipw_truth xreal pr8 pp8 cf8 s1 (Some gen8)) in
  aipw_fit xreal pr8 pp8 cf8 s2 d8 =
    (mkAipw (mkRidge (Some [Fin 5; Fin 1]) (Some (Fin 0))) (mkLogit (Some [Fin 0]) (Some (Number (Fin 0))) true) true (Some d8), Some TypeError).
Proof.
  assert (Hf : forall s c b, lo_coef (ap_prop s) = Some c -> lo_icept (ap_prop s) = Some (InArray b) -> snd (aipw_fit xreal pr8 pp8 cf8 s d8) = None).
  { intros s c b E1 E2. rewrite (aipw_fit_dataset xreal pr8 pp8 cf8 s d8 _ _ _ d8_of).
    rewrite map_length, <- (map_length a_x us8). change (ac_min cf8) with 2%Z.
    rewrite (proj2 (too_few_bits xreal 6 2 (map a_x us8) (xreal_counting _) ltac:(cbn; lia)) enough8).
    cbn [pr8 ridge_ops pr_fit solve8]. cbn [pp8 logit_ops pr_fit].
    rewrite (one_class_bits xreal (map a_x us8) x_apart) by (cbn; lia). unfold warm_start. rewrite E1, E2. reflexivity. }
  rewrite fit8. cbn [fst snd]. split; [reflexivity|]. cbv zeta. split; [eapply Hf; reflexivity|].
  set (s1 := mkAipw _ _ true (Some d8)). cbn [fst].
  pose proof (C111_refit_raises xreal pr8 lsolve8 (mkLA X (fun _ => Fin 1) (fun m => Ok m) (fun _ => Ok []) (fun x _ => x)) cf8 6 s1 gen8
    (fst (aipw_truth xreal pr8 pp8 cf8 s1 (Some gen8))) [] d8
    (map (fun a => map Fin (a_z a)) us8) (map a_x us8) (map (fun a => Fin (a_y a)) us8) (mkRidge (Some [Fin 5; Fin 1]) (Some (Fin 0))) (xreal_counting _) x_apart) as H.
  cbv zeta in H. unfold after in H. cbn [acts fst] in H. specialize (H ltac:(cbn; lia) eq_refl eq_refl d8_of ltac:(cbn; lia) enough8).
  etransitivity; [apply H|].
  - cbn [pr8 ridge_ops pr_fit solve8]. rewrite nint_x. reflexivity.
  - unfold aipw_truth. rewrite nint_x. reflexivity.
Qed.

(** ** C112: set_to_truth of the classes with other models *)
(** AIPWKernelGradientBoosting: nothing that a program can observe afterwards depends on it *)
Theorem C112_boosting_ignores_truth :
  forall {N T B} (o : numops N) la (cf : aipw_conf N) (train : arr N -> list N -> res T) eval (ptrain : arr N -> list N -> res B) peval s gen l,
  let meth := aipw_methods o (box_ops train eval) (box_ops ptrain peval) la cf in
  snd (acts meth (fst (aipw_truth o (box_ops train eval) (box_ops ptrain peval) cf s gen)) l) = snd (acts meth s l).
Proof. intros. apply alike_acts, truth_alike. Qed.
Print Assumptions C112_boosting_ignores_truth.

(** estimate_true_variance is then the variance of the scores of the fitted model *)
Theorem C112_variance :
  forall {N T B G} (o : numops N) (cf : aipw_conf N) (train : arr N -> list N -> res T) eval (ptrain : arr N -> list N -> res B) peval gen
    (sample : nat -> G -> res (expdata N) * G) n s g h v g',
  let pr := box_ops train eval in let pp := box_ops ptrain peval in
  estimate_true_variance o sample (fun s => aipw_truth o pr pp cf s gen) (fun s d => (s, aipw_score o pr pp cf s d)) n s g = ((h, Ok v), g') ->
  exists d scores, sample n g = (Ok d, g') /\ aipw_score o pr pp cf s d = Ok scores /\ v = nvar o scores.
Proof.
  intros N T B G o cf train eval ptrain peval gen sample n s g h v g' pr pp E. unfold estimate_true_variance in E.
  destruct (sample n g) as [[d|] g1]; [|discriminate]. destruct (aipw_truth o pr pp cf s gen) as [h0 [e|]] eqn:Et; [discriminate|].
  pose proof (truth_alike o cf train eval ptrain peval s gen) as A. fold pr pp in A. rewrite Et in A. cbn [fst] in A.
  pose proof (alike_score o cf train eval ptrain peval h0 s d A) as Es. fold pr pp in Es. rewrite Es in E.
  destruct (aipw_score o pr pp cf s d) as [sc|] eqn:Esc; [|discriminate]. cbn [bind] in E. exists d, sc. assert (g1 = g' /\ nvar o sc = v) as [-> <-] by (split; congruence). auto.
Qed.
Print Assumptions C112_variance.

(** AIPWKernelRidgeLogistic: the predicted responses (the first three columns of transform) stay those of the fitted model *)
Theorem C112_kernel_keeps_response :
  forall {N T} (o : numops N) (cf : aipw_conf N) (train : arr N -> list N -> res T) eval lsolve s gen d eta eta',
  let pr := box_ops train eval in let pp := logit_ops o lsolve in
  aipw_enough s = true -> aipw_transform o pr pp cf s d = Ok eta ->
  aipw_transform o pr pp cf (fst (aipw_truth o pr pp cf s gen)) d = Ok eta' ->
  map (firstn 3) eta' = map (firstn 3) eta.
Proof. intros. eapply kernel_truth; eassumption. Qed.
Print Assumptions C112_kernel_keeps_response.

(** a fitted model that predicts 0 everywhere; the data are y = 8 x without noise, so that with the true parameters
    every score is 8 *)
Section C112Case.
  Let zeros : unit -> arr X -> res (list X) := fun _ a => Ok (map (fun _ => Fin 0) (arows a)).
  Let halfs : unit -> arr X -> res (list X) := fun _ a => Ok (map (fun _ => Fin (1/2)) (arows a)).
  Let pr := box_ops (fun _ _ => Ok tt) zeros.
  Let pp := box_ops (fun _ _ => Ok tt) halfs.
  Let s : aipw X (blackbox X unit) (blackbox X unit) := mkAipw (mkBox (Some tt) None None) (mkBox (Some tt) None None) true None.
  Example C112_case :
    snd (aipw_truth xreal pr pp cf8 s (Some gen8)) = None /\
    aipw_score xreal pr pp cf8 (fst (aipw_truth xreal pr pp cf8 s (Some gen8))) d8 = Ok (map Fin [16; 16; 0; 0]%R) /\
    aipw_score xreal (ridge_ops xreal solve8) (logit_ops xreal lsolve8) cf8
      (mkAipw (mkRidge (Some [Fin 8; Fin 0]) (Some (Fin 0))) (mkLogit (Some [Fin 0]) (Some (Number (Fin 0))) true) true None) d8 = Ok (map Fin [8; 8; 8; 8]%R).
  Proof.
    split; [reflexivity|].
    assert (Er : rclip (1 / 20) (1 / 2) = (1 / 2)%R). { unfold rclip, Rmin, Rmax. destruct (Rle_dec (1 / 20) (1 / 2)); [|lra]. destruct (Rle_dec (1 - 1 / 20) (1 / 2)); lra. }
    assert (Hl : (1 / 10 ^ 15 <= 1 / 20 <= 1 / 2)%R) by (pose proof small_overlap; lra).
    split.
    - rewrite (C39_score pr pp cf8 (1/20) (fst (aipw_truth xreal pr pp cf8 s (Some gen8))) d8 us8 (fun _ => 0%R) (fun _ => (1/2)%R) eq_refl Hl d8_of eq_refl).
      + f_equal. unfold us8, popE. cbn [map a_x a_z a_y]. rewrite Er. unfold dr_score. repeat (apply (f_equal2 (@cons X)); [f_equal; cbn [b2r]; field|]); reflexivity.
      + intros rows _. unfold pr. cbn. unfold zeros. cbn [arows]. now rewrite map_map.
      + intros rows _. unfold pp. cbn. unfold halfs. cbn [arows]. now rewrite map_map.
    - rewrite (C110_scores solve8 lsolve8 cf8 (1/20) _ d8 us8 [8; 0]%R [0%R] (Number (Fin 0)) 0); try reflexivity; [|exact Hl|exact d8_of].
      f_equal. unfold us8, popE. cbn [map a_x a_z a_y]. unfold dot. cbn [map2 rsum hd].
      replace (1 / (1 + exp (- (0 * 1 + 0 + 0))))%R with (1 / 2)%R by (replace (- (0 * 1 + 0 + 0))%R with 0%R by lra; rewrite exp_0; lra).
      replace (1 / (1 + exp (- (0 * 0 + 0 + 0))))%R with (1 / 2)%R by (replace (- (0 * 0 + 0 + 0))%R with 0%R by lra; rewrite exp_0; lra). rewrite Er.
      repeat (apply (f_equal2 (@cons X)); [f_equal; cbn [b2r]; field|]); reflexivity.
  Qed.
End C112Case.

(** ** C113: ridge regression as the response *)
Open Scope R_scope.
(** the trained response depends on nothing but the multiset of units: not on their order, nor on what the parameter was
    trained on before *)
Theorem C113_order :
  forall {P} solve (pp : predictor X P) (cf : aipw_conf X) s s' d d' us us' s1 s1',
  solves_ridge solve (S (ac_dim cf)) (map unit_row us) -> solves_ridge solve (S (ac_dim cf)) (map unit_row us') ->
  of_population us (ac_dim cf) d -> of_population us' (ac_dim cf) d' -> Permutation us us' -> large_enough (ac_min cf) (map a_x us) ->
  aipw_fit xreal (ridge_ops xreal solve) pp cf s d = (s1, None) -> aipw_fit xreal (ridge_ops xreal solve) pp cf s' d' = (s1', None) ->
  get_response_parameters (@IsRidge X unit (ap_resp s1)) = get_response_parameters (@IsRidge X unit (ap_resp s1')) /\
  exists t, get_response_parameters (@IsRidge X unit (ap_resp s1)) = Ok (Some (map Fin t, Fin 0)).
Proof.
  intros P solve pp cf s s' d d' us us' s1 s1' Hs Hs' Hd Hd' Hp HL E E'.
  assert (HL' : large_enough (ac_min cf) (map a_x us')).
  { destruct HL as [L1 L2]. unfold large_enough, treated, control in *.
    pose proof (proj1 (Permutation_count_occ bool_dec _ _) (Permutation_map a_x Hp)) as C. rewrite <- !C. auto. }
  destruct (ridge_fit solve pp cf s d us s1 Hs Hd HL E) as (t & Ht & _ & E1 & E2).
  destruct (ridge_fit solve pp cf s' d' us' s1' Hs' Hd' HL' E') as (t' & Ht' & _ & E1' & E2').
  assert (t = t') as <- by (eapply ridge_unique; [eapply ridge_perm; [apply (Permutation_map unit_row Hp)|exact Ht]|exact Ht']).
  cbn. rewrite E1, E2, E1', E2'. split; [reflexivity|]. exists t. reflexivity.
Qed.
Print Assumptions C113_order.

(** responses that are a linear function of exposure and covariates: the trained response is shorter than the truth, its squared
    errors on all units together are bounded by the truth alone, and it is never the truth unless the truth is 0 *)
Theorem C113_noiseless :
  forall {P} solve (pp : predictor X P) (cf : aipw_conf X) s d us s1 theta,
  solves_ridge solve (S (ac_dim cf)) (map unit_row us) -> of_population us (ac_dim cf) d -> large_enough (ac_min cf) (map a_x us) ->
  noiseless (S (ac_dim cf)) (map unit_row us) theta ->
  aipw_fit xreal (ridge_ops xreal solve) pp cf s d = (s1, None) ->
  exists t, get_response_parameters (@IsRidge X unit (ap_resp s1)) = Ok (Some (map Fin t, Fin 0)) /\
    squared_error (map unit_row us) t + norm2 t <= norm2 theta /\
    (t = theta -> norm2 theta = 0).
Proof.
  intros P solve pp cf s d us s1 theta Hs Hd HL Hn E.
  destruct (ridge_fit solve pp cf s d us s1 Hs Hd HL E) as (t & Ht & _ & E1 & E2). exists t. split; [cbn; rewrite E1, E2; reflexivity|].
  split; [exact (noiseless_bound _ _ theta t Hn Ht)|exact (noiseless_shrinks _ _ theta t Hn Ht)].
Qed.
Print Assumptions C113_noiseless.

(** the scores of any other noiseless units: within a bound of the effect that tends to 0 with the spread of the training rows *)
Theorem C113_scores :
  forall {P} solve (pp : predictor X P) (cf : aipw_conf X) lo lam s d us s1 theta e us2 d2,
  ac_overlap cf = Fin lo -> 1 / 10 ^ 15 <= lo <= 1 / 2 -> 0 < lam ->
  solves_ridge solve (S (ac_dim cf)) (map unit_row us) -> of_population us (ac_dim cf) d -> large_enough (ac_min cf) (map a_x us) ->
  noiseless (S (ac_dim cf)) (map unit_row us) theta -> spread (S (ac_dim cf)) (map unit_row us) lam ->
  aipw_fit xreal (ridge_ops xreal solve) pp cf s d = (s1, None) -> evaluates pp (ap_prop s1) (ac_dim cf) e ->
  of_population us2 (ac_dim cf) d2 -> noiseless (S (ac_dim cf)) (map unit_row us2) theta ->
  exists scores, aipw_score xreal (ridge_ops xreal solve) pp cf s1 d2 = Ok (map Fin scores) /\
    Forall2 (fun a v => Rabs (v - hd 0 theta) <= (1 + sqrt (norm2 (b2r (a_x a) :: a_z a)) / lo) * sqrt (norm2 theta / lam)) us2 scores.
Proof.
  intros P solve pp cf lo lam s d us s1 theta e us2 d2 Hlo Hl Hlam Hs Hd HL Hn Hsp E He Hd2 Hn2.
  destruct (ridge_fit solve pp cf s d us s1 Hs Hd HL E) as (t & Ht & Hf & E1 & E2).
  pose proof (noiseless_distance _ _ theta t Hn Ht lam Hlam Hsp) as D.
  assert (Lt : length t = S (ac_dim cf)) by apply Ht. assert (Lth : length theta = S (ac_dim cf)) by apply Hn.
  eexists. split.
  - rewrite (C39_score _ pp cf lo s1 d2 us2 _ e Hlo Hl Hd2 Hf (ridge_evaluates solve _ _ t 0 E1 E2 Lt) He). rewrite <- map_map. reflexivity.
  - destruct Hn2 as [_ F]. rewrite Forall_map in F. clear - F D Lt Lth Hl. assert (Hlo : 0 < lo).
    { assert (0 < 1 / 10 ^ 15) by (apply Rdiv_lt_0_compat; [lra|apply pow_lt; lra]). lra. }
    induction F as [|a us2 [F1 F2] F IH]; [constructor|]. constructor; [|exact IH]. cbn [unit_row fst snd] in F1, F2.
    destruct (rclip_weight lo (e (a_z a)) ltac:(lra)) as [[W1 W2] [W3 W4]].
    set (w := if a_x a then / rclip lo (e (a_z a)) else - / (1 - rclip lo (e (a_z a)))).
    assert (Hw : Rabs w <= / lo). { unfold w. destruct (a_x a); [rewrite Rabs_pos_eq by lra; lra|rewrite Rabs_Ropp, Rabs_pos_eq by lra; lra]. }
    pose proof (score_bound t theta (b2r (a_x a) :: a_z a) w lo _ ltac:(congruence) ltac:(congruence) Hw Hlo D) as S.
    rewrite <- F2 in S. eapply Rle_trans; [|exact S]. right. f_equal.
    unfold dr_score, affine, dot, w. destruct t as [|t0 t]; [discriminate Lt|]. cbn [map2 rsum hd]. destruct (a_x a); cbn [b2r]; unfold Rdiv; ring.
Qed.
Print Assumptions C113_scores.

(** y = 8 x on the four units: the solution is (5, 1), not (8, 0), and the rows vary by 1 in every direction *)
Example C113_case :
  solves_ridge solve8 2 (map unit_row us8) /\ noiseless 2 (map unit_row us8) [8; 0] /\ spread 2 (map unit_row us8) 1 /\
  snd (aipw_fit xreal pr8 pp8 cf8 linear_logistic_new d8) = None /\
  squared_error (map unit_row us8) [5; 1] + norm2 [5; 1] = 40 /\ norm2 [8; 0] = 64.
Proof.
  split; [|split; [|split; [|split]]].
  - exists [5; 1]. split; [reflexivity|]. split; [reflexivity|]. intros t' L. destruct t' as [|a [|b [|c t']]]; try discriminate.
    unfold ridge_loss, norm2, dot, us8, popE, unit_row. cbn.
    pose proof (pow2_ge_0 (a - 5 + (b - 1))). pose proof (pow2_ge_0 (a - 5)). pose proof (pow2_ge_0 (b - 1)). nra.
  - split; [reflexivity|]. unfold us8, popE, unit_row, dot. cbn. repeat constructor; cbn; ring.
  - intros u L. destruct u as [|a [|b [|c u]]]; try discriminate. unfold norm2, dot, us8, popE, unit_row. cbn.
    pose proof (pow2_ge_0 (a + b)). pose proof (pow2_ge_0 a). pose proof (pow2_ge_0 b). cbn in *. lra.
  - rewrite fit8. reflexivity.
  - unfold squared_error, norm2, dot, us8, popE, unit_row. cbn. split; ring.
Qed.
Close Scope R_scope.
