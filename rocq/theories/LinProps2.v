(** Further theorems for C110, C111 and C113. *)
From Coq Require Import List Arith ZArith Reals Bool Lia Lra Permutation.
From Verif Require Import PyBase PyLemmas Num NumOps FloatOps NumLaws DataModel ScmModel TabModel TabSpec TabReal ArmModel
  ParamModel ParamSpec ParamSpec2 ParamProofs ParamProofs2 ParamProps ParamProps2
  LinModel LinSpec LinProofs LinProofs2 LinProofs3 LinProofs4 LinProofs5 LinProps.
Import ListNotations.
Open Scope nat_scope.

(** ** C110 *)
(** whatever has been done, calculate_score never misses an attribute of an estimator *)
Theorem C110_no_missing_attribute :
  forall {N} (o : numops N) solve lsolve la (cf : aipw_conf N) l d,
  let pr := ridge_ops o solve in let pp := logit_ops o lsolve in
  aipw_score o pr pp cf (after (aipw_methods o pr pp la cf) linear_logistic_new l) d <> Err AttributeError.
Proof.
  intros N o solve lsolve la cf l d. apply (complete_quiet o solve lsolve cf), (complete_after o solve lsolve la cf). intros Hf. discriminate Hf.
Qed.
Print Assumptions C110_no_missing_attribute.

(** for the three classes: after reset everything is as for a new object *)
Lemma clones_ridge {N} (o : numops N) solve : clones (ridge_ops o solve).
Proof. repeat split. Qed.
Lemma clones_logit {N} (o : numops N) lsolve : clones (logit_ops o lsolve).
Proof. repeat split. Qed.
Lemma clones_box {N T} train (eval : T -> arr N -> res (list N)) : clones (box_ops train eval).
Proof. repeat split. Qed.
Theorem C110_reset :
  forall {N T B} (o : numops N) solve lsolve (train : arr N -> list N -> res T) eval (ptrain : arr N -> list N -> res B) peval la (cf : aipw_conf N) before later,
  (let m := aipw_methods o (ridge_ops o solve) (logit_ops o lsolve) la cf in
   snd (acts m (m_reset m (after m linear_logistic_new before)) later) = snd (acts m linear_logistic_new later)) /\
  (let m := aipw_methods o (box_ops train eval) (logit_ops o lsolve) la cf in
   snd (acts m (m_reset m (after m kernel_logistic_new before)) later) = snd (acts m kernel_logistic_new later)) /\
  (let m := aipw_methods o (box_ops train eval) (box_ops ptrain peval) la cf in
   snd (acts m (m_reset m (after m kernel_boosting_new before)) later) = snd (acts m kernel_boosting_new later)).
Proof.
  intros. split; [|split].
  - apply (C85_aipw o _ _ la cf ridge_new logit_new before later (clones_ridge o solve) (clones_logit o lsolve)).
  - apply (C85_aipw o _ _ la cf box_new logit_new before later (clones_box train eval) (clones_logit o lsolve)).
  - apply (C85_aipw o _ _ la cf box_new box_new before later (clones_box train eval) (clones_box ptrain peval)).
Qed.
Print Assumptions C110_reset.

(** units of one group only: with min_units at most 0 they are not refused, the response is trained and the propensity raises
    ValueError; with min_units at least 1 nothing is trained *)
Theorem C110_one_group :
  forall {N M} (o : numops N) (pr : predictor N M) lsolve (cf : aipw_conf N) B s d rows bs y m,
  counting o B -> neqb o (nint o 0) (nint o 0) = true -> neqb o (nint o 1) (nint o 1) = true ->
  dataset d (ac_dim cf) rows (bits o bs) y -> (Z.of_nat (length bs) + Z.abs (ac_min cf) <= B)%Z ->
  treated bs = 0 \/ control bs = 0 ->
  pr_fit pr (ap_resp s) (with_exposure (bits o bs) (ac_dim cf) rows) y = (m, None) ->
  aipw_fit o pr (logit_ops o lsolve) cf s d =
  if (ac_min cf <=? 0)%Z then (mkAipw m (ap_prop s) (ap_fit s) (Some d), Some ValueError)
  else (mkAipw (ap_resp s) (ap_prop s) (ap_fit s) (Some d), None).
Proof.
  intros N M o pr lsolve cf B s d rows bs y m Hc E0 E1 Hd HB Hg Ef. rewrite (aipw_fit_dataset o pr _ cf s d rows (bits o bs) y Hd).
  assert (El : length rows = length bs). { destruct Hd as (_ & _ & _ & _ & _ & L & _). unfold bits in L. rewrite map_length in L. now rewrite L. }
  rewrite El. pose proof (too_few_bits o B (ac_min cf) bs Hc HB) as T. destruct (Z.leb_spec (ac_min cf) 0) as [Hm|Hm].
  - rewrite (proj2 T) by (split; lia). rewrite Ef. cbn [logit_ops pr_fit].
    assert (Ho : one_class o (bits o bs) = true); [|now rewrite Ho].
    destruct bs as [|b bs]; [reflexivity|]. unfold one_class, bits. cbn [map]. apply forallb_forall. intros v Hv. apply in_map_iff in Hv as (b' & <- & Hb).
    assert (b' = b) as ->.
    { destruct Hg as [Hg|Hg]; [assert (Hn : ~ In true (b :: bs)) by (now apply count_occ_not_In in Hg)|assert (Hn : ~ In false (b :: bs)) by (now apply count_occ_not_In in Hg)];
        destruct b, b'; try reflexivity; exfalso; apply Hn; cbn; auto. }
    unfold bit. destruct b; assumption.
  - destruct (too_few o (ac_min cf) (length bs) (bits o bs)); [reflexivity|]. destruct (proj1 T eq_refl) as [H1 H2]. lia.
Qed.
Print Assumptions C110_one_group.

(** two treated units, no control unit, min_units = 0 *)
Example C110_one_group_case :
  let d := mkED (Some (mkArr [1] [[Fin 3]; [Fin 4]])) (Some (vec [nint xreal 1; nint xreal 1])) (Some (vec [Fin 5; Fin 6])) 2 1 in
  snd (aipw_fit xreal pr8 pp8 (mkAC 1 0 (Fin (1/20))) linear_logistic_new d) = Some ValueError /\
  snd (aipw_fit xreal pr8 pp8 (mkAC 1 1 (Fin (1/20))) linear_logistic_new d) = None.
Proof.
  assert (R : forall x : R, neqb xreal (Fin x) (Fin x) = true) by (intros x; cbn; destruct (Req_EM_T x x); [reflexivity|contradiction]).
  assert (Hd : dataset (mkED (Some (mkArr [1] [[Fin 3]; [Fin 4]])) (Some (vec [nint xreal 1; nint xreal 1])) (Some (vec [Fin 5; Fin 6])) 2 1)
                 1 [[Fin 3]; [Fin 4]] (bits xreal [true; true]) [Fin 5; Fin 6]) by (repeat split; repeat constructor).
  split;
    (erewrite (C110_one_group xreal pr8 lsolve8 _ 9 linear_logistic_new _ _ [true; true] _ (fst (pr_fit pr8 ridge_new (with_exposure (bits xreal [true; true]) 1 [[Fin 3]; [Fin 4]]) [Fin 5; Fin 6])) (xreal_counting _));
     [reflexivity|rewrite nint_x; apply R|rewrite nint_x; apply R|exact Hd|cbn; lia|right; reflexivity|reflexivity]).
Qed.

(** ** C111: without set_to_truth since construction or reset, training with enough units succeeds, and the propensity starts
    from its last solution *)
Theorem C111_trains_otherwise :
  forall {N M} (o : numops N) (pr : predictor N M) lsolve la (cf : aipw_conf N) B resp before l d rows bs y m,
  counting o B -> tells_apart o -> (1 <= ac_min cf)%Z -> forallb (fun a => negb (is_truth a)) l = true ->
  let meth := aipw_methods o pr (logit_ops o lsolve) la cf in
  let s := after meth (aipw_new resp logit_new) (before ++ Reset :: l) in
  dataset d (ac_dim cf) rows (bits o bs) y -> (Z.of_nat (length bs) + Z.abs (ac_min cf) <= B)%Z -> large_enough (ac_min cf) bs ->
  pr_fit pr (ap_resp s) (with_exposure (bits o bs) (ac_dim cf) rows) y = (m, None) ->
  (forall w, exists r, lsolve w (mkArr [ac_dim cf] rows) (bits o bs) = Ok r) ->
  snd (aipw_fit o pr (logit_ops o lsolve) cf s d) = None /\ aipw_enough (fst (aipw_fit o pr (logit_ops o lsolve) cf s d)) = true.
Proof.
  intros N M o pr lsolve la cf B resp before l d rows bs y m Hc Ha Hm Hl meth s Hd HB HL Ef Hw.
  assert (Cs : clean s).
  { unfold s. rewrite after_app. change (Reset :: l) with ([Reset] ++ l). rewrite after_app. apply (clean_after o pr lsolve la cf l _ Hl). left. reflexivity. }
  destruct (clean_trains o pr lsolve cf B s d rows bs y m Hc Ha Hm Cs Hd HB HL Ef) as (w & _ & E). destruct (Hw w) as [[c b] Ew]. rewrite Ew in E.
  rewrite E. split; reflexivity.
Qed.
Print Assumptions C111_trains_otherwise.

(** the warm start: two fits in a row *)
Theorem C111_warm_start :
  forall {N M} (o : numops N) (pr : predictor N M) lsolve (cf : aipw_conf N) B resp d1 rows1 bs1 y1 m1 c1 b1 d2 rows2 bs2 y2 m2 c2 b2,
  counting o B -> tells_apart o -> (1 <= ac_min cf)%Z ->
  dataset d1 (ac_dim cf) rows1 (bits o bs1) y1 -> (Z.of_nat (length bs1) + Z.abs (ac_min cf) <= B)%Z -> large_enough (ac_min cf) bs1 ->
  dataset d2 (ac_dim cf) rows2 (bits o bs2) y2 -> (Z.of_nat (length bs2) + Z.abs (ac_min cf) <= B)%Z -> large_enough (ac_min cf) bs2 ->
  pr_fit pr resp (with_exposure (bits o bs1) (ac_dim cf) rows1) y1 = (m1, None) ->
  pr_fit pr m1 (with_exposure (bits o bs2) (ac_dim cf) rows2) y2 = (m2, None) ->
  lsolve None (mkArr [ac_dim cf] rows1) (bits o bs1) = Ok (c1, b1) ->
  lsolve (Some (c1, b1)) (mkArr [ac_dim cf] rows2) (bits o bs2) = Ok (c2, b2) ->
  let s := fits (aipw_fit o pr (logit_ops o lsolve) cf) (aipw_new resp logit_new) [d1; d2] in
  ap_resp s = m2 /\ lo_coef (ap_prop s) = Some c2 /\ lo_icept (ap_prop s) = Some (InArray b2) /\ aipw_enough s = true.
Proof.
  intros N M o pr lsolve cf B resp d1 rows1 bs1 y1 m1 c1 b1 d2 rows2 bs2 y2 m2 c2 b2 Hc Ha Hm Hd1 HB1 HL1 Hd2 HB2 HL2 Ef1 Ef2 E1 E2. cbn [fits fold_left].
  unfold fits. cbn [fold_left].
  destruct (clean_trains o pr lsolve cf B (aipw_new resp logit_new) d1 rows1 bs1 y1 m1 Hc Ha Hm (or_introl eq_refl) Hd1 HB1 HL1 Ef1) as (w & Ew & ->).
  assert (w = None) as -> by (cbn in Ew; congruence). rewrite E1. cbn [fst].
  destruct (clean_trains o pr lsolve cf B (mkAipw m1 (mkLogit (Some c1) (Some (InArray b1)) true) true (Some d1)) d2 rows2 bs2 y2 m2 Hc Ha Hm
    ltac:(right; cbn; eauto) Hd2 HB2 HL2 Ef2) as (w & Ew' & ->).
  assert (w = Some (c1, b1)) as -> by (cbn in Ew'; congruence). rewrite E2. cbn. auto.
Qed.
Print Assumptions C111_warm_start.

(** a solver that counts its calls in the intercept: after two fits on the four units it has been started from its own result *)
Section C111WarmCase.
  Let lsolve : option (list X * X) -> arr X -> list X -> res (list X * X) :=
    fun w _ _ => Ok (match w with Some ([Fin c], Fin b) => ([Fin c], Fin (b + 1)) | _ => ([Fin 0], Fin 1) end).
  Example C111_warm_case :
    let s := fits (aipw_fit xreal pr8 (logit_ops xreal lsolve) cf8) (aipw_new ridge_new logit_new) [d8; d8] in
    lo_icept (ap_prop s) = Some (InArray (Fin (1 + 1))) /\ aipw_enough s = true.
  Proof.
    pose proof (C111_warm_start xreal pr8 lsolve cf8 6 ridge_new d8 _ (map a_x us8) _ (fst (pr_fit pr8 ridge_new (mkArr [2] []) [])) [Fin 0] (Fin 1) d8 _ (map a_x us8) _
      (fst (pr_fit pr8 ridge_new (mkArr [2] []) [])) [Fin 0] (Fin (1 + 1)) (xreal_counting _) x_apart ltac:(cbn; lia)
      d8_of ltac:(cbn; lia) enough8 d8_of ltac:(cbn; lia) enough8 eq_refl eq_refl eq_refl eq_refl) as (_ & _ & H3 & H4).
    cbv zeta. split; [exact H3|exact H4].
  Qed.
End C111WarmCase.

(** ** C113: ridge regression has exactly one solution, whatever the data *)
Theorem C113_exists : forall k data, Forall (fun p => length (fst p) = k) data ->
  exists t, is_ridge k data t /\ forall t', is_ridge k data t' -> t' = t.
Proof.
  intros k data H. destruct (ridge_exists k data H) as [t Ht]. exists t. split; [exact Ht|]. intros t' Ht'. exact (ridge_unique k data t' t Ht' Ht).
Qed.
Print Assumptions C113_exists.
