(** Property C88: what estimate_true_variance estimates. *)
From Coq Require Import List Arith ZArith Reals Bool Lia Lra.
From Verif Require Import PyBase PyLemmas Num NumOps NumLaws DataModel ScmModel TabModel TabSpec TabReal ArmModel
  ParamModel ParamSpec ParamSpec2 ParamProofs ParamProofs2 ParamProofs3 ParamProofs5 ParamProofs7 ParamProps ParamProps2 UtilModel.
Import ListNotations.
Open Scope R_scope.
Open Scope nat_scope.

(** the empirical variance of real numbers *)
Definition rmean (l : list R) : R := (rsum l / INR (length l))%R.
Definition rvariance (l : list R) : R := rmean (map (fun x => ((x - rmean l) ^ 2)%R) l).

Lemma xsum_fin (l : list R) : xsum (map Fin l) = Fin (rsum l).
Proof. induction l as [|a l IH]; [reflexivity|]. unfold xsum in *. cbn [map fold_right rsum]. rewrite IH. reflexivity. Qed.
Lemma nmean_fin (l : list R) : l <> [] -> nmean xreal (map Fin l) = Fin (rmean l).
Proof.
  intros H. cbn [xreal nmean]. unfold xmean. rewrite xsum_fin, map_length. apply xdiv_fin. apply not_0_INR. destruct l; [congruence|discriminate].
Qed.
Lemma nvar_fin (l : list R) : l <> [] -> nvar xreal (map Fin l) = Fin (rvariance l).
Proof.
  intros H. unfold nvar. rewrite (nmean_fin l H), map_map.
  rewrite (map_ext _ (fun x => Fin ((x - rmean l) ^ 2))).
  - rewrite <- (map_map (fun x => ((x - rmean l) ^ 2)%R) Fin). apply nmean_fin. destruct l; [congruence|discriminate].
  - intros x. unfold nsq. cbn [xreal nsub nmul xsub xneg xadd xmul]. f_equal. cbn. lra.
Qed.
Lemma nvar_nan (l : list X) : Forall (fun v => nisnan xreal v = true) l -> nvar xreal l = XNaN.
Proof.
  intros H. assert (Hm : nmean xreal l = XNaN).
  { destruct l as [|a l]; [unfold nmean, xreal, xmean; cbn [xsum fold_right length INR xdiv]; destruct (Req_EM_T 0 0); [|lra]; unfold xsigned; destruct (Rlt_dec 0 0); [lra|]; destruct (Rlt_dec 0 0); [lra|reflexivity]|].
    inversion H as [|? ? Ha _]; subst. destruct a; try discriminate. reflexivity. }
  unfold nvar. rewrite Hm. destruct l as [|a l]; [exact Hm|]. cbn [map]. unfold nsq. inversion H as [|? ? Ha _]; subst. destruct a; try discriminate. reflexivity.
Qed.

(** when everything works, the result is the empirical variance of the scores under the
    parameter left by set_to_truth *)
Theorem C88_value : forall (V H G : Type) gen (truth : H -> H * option exn) score n eta (g : G) (d : expdata V) g1 h h' (l : list R),
  gen n g = (Ok d, g1) -> truth eta = (h, None) -> score h d = (h', Ok (map Fin l)) -> l <> [] ->
  estimate_true_variance xreal gen truth score n eta g = ((h', Ok (Fin (rvariance l))), g1).
Proof.
  intros V H G gen truth score n eta g d g1 h h' l E1 E2 E3 Hl. unfold estimate_true_variance. rewrite E1, E2, E3. cbn [bind].
  now rewrite nvar_fin.
Qed.
Print Assumptions C88_value.

(** an AIPW parameter that was never fitted: NaN, although its coefficients were set *)
Theorem C88_aipw_unfitted : forall {M P G} (pr : predictor X M) (pp : predictor X P) cf gen n s lg (g : G) d g1 x y,
  gen n g = (Ok d, g1) -> aipw_enough s = false -> length (lg_gamma lg) = ac_dim cf ->
  dexp d = Some (vec x) -> drsp d = Some (vec y) -> length x = n_units d -> length y = n_units d ->
  exists s', estimate_true_variance xreal gen (fun s => aipw_truth xreal pr pp cf s (Some lg))
      (fun s d => (s, aipw_score xreal pr pp cf s d)) n s g = ((s', Ok XNaN), g1)
    /\ aipw_enough s' = false.
Proof.
  intros M P G pr pp cf gen n s lg g d g1 x y E Hs Hl Hx Hy Lx Ly. unfold estimate_true_variance. rewrite E.
  unfold aipw_truth. rewrite Hl, Nat.eqb_refl.
  match goal with |- context [aipw_score xreal pr pp cf ?s' d] => exists s'; split; [|exact Hs];
    destruct (C41_unfitted_is_nan xreal pr pp cf s' d x y xreal_laws eq_refl Hs Hx Hy Lx Ly) as (l & -> & _ & Hn) end.
  cbn [bind]. rewrite (nvar_nan _ Hn). reflexivity.
Qed.
Print Assumptions C88_aipw_unfitted.

(** any other generator than a linear one: ValueError, after the data have been drawn *)
Theorem C88_aipw_other_generator : forall {N M P G} (o : numops N) (pr : predictor N M) (pp : predictor N P) cf gen n s (g : G) d g1,
  gen n g = (Ok d, g1) ->
  estimate_true_variance o gen (fun s => aipw_truth o pr pp cf s None) (fun s d => (s, aipw_score o pr pp cf s d)) n s g
  = ((s, Err ValueError), g1).
Proof. intros N M P G o pr pp cf gen n s g d g1 E. unfold estimate_true_variance. rewrite E. reflexivity. Qed.
Print Assumptions C88_aipw_other_generator.

(** the plug-in parameter: its true scores are constant, so the estimate is 0 once fitted, and
    NaN before *)
Theorem C88_plug_in : forall {M G} (pr : predictor X M) dim gen n s (g : G) d g1 rows x y beta tau,
  gen n g = (Ok d, g1) -> dataset d dim (map (map Fin) rows) x y -> rows <> [] ->
  evaluates pr (pr_coef pr (pr_icept pr (lp_treat s) (Fin tau)) (map Fin beta)) dim (affine beta tau) ->
  evaluates pr (pr_icept pr (pr_coef pr (lp_cont s) (map Fin beta)) (Fin 0)) dim (affine beta 0) ->
  snd (fst (estimate_true_variance xreal gen (fun s => (lpbt_truth xreal pr s (map Fin beta) (Fin tau), None))
      (fun s d => (s, lpbt_score xreal pr dim s d)) n s g))
  = Ok (if lp_fit s then Fin 0 else XNaN).
Proof.
  intros M G pr dim gen n s g d g1 rows x y beta tau E Hd Hne H1 H0. unfold estimate_true_variance. rewrite E.
  rewrite (C84_truth pr dim s d rows x y beta tau Hd H1 H0). cbn [bind fst snd]. f_equal. destruct (lp_fit s).
  - rewrite <- (map_map (fun _ : list R => tau) Fin). rewrite nvar_fin by (destruct rows; [congruence|discriminate]). f_equal.
    assert (Hn : INR (length rows) <> 0%R) by (apply not_0_INR; destruct rows; [congruence|discriminate]).
    assert (Hm : rmean (map (fun _ : list R => tau) rows) = tau).
    { unfold rmean. rewrite (rsum_const _ tau) by auto. rewrite map_length. field. exact Hn. }
    unfold rvariance. rewrite Hm. unfold rmean. rewrite map_map, (rsum_const _ 0%R) by (intros; cbn; lra). rewrite map_length. field. exact Hn.
  - apply nvar_nan. apply Forall_forall. intros v Hv. apply in_map_iff in Hv as (? & <- & _). reflexivity.
Qed.
Print Assumptions C88_plug_in.

(** LinearRegressionParameter and FrontDoorLinearFiniteZ inherit the empty set_to_truth: the
    result is the variance under the current estimates, whatever the generator's truth *)
Theorem C88_inherited : forall {N V H G} (o : numops N) gen (score : H -> expdata V -> H * res (list N)) n eta (g : G) d g1,
  gen n g = (Ok d, g1) ->
  estimate_true_variance o gen protocol_truth score n eta g
  = ((fst (score eta d), match snd (score eta d) with Ok l => Ok (nvar o l) | Err e => Err e end), g1).
Proof.
  intros N V H G o gen score n eta g d g1 E. unfold estimate_true_variance, protocol_truth. rewrite E.
  destruct (score eta d) as [h [l|e]]; reflexivity.
Qed.
Print Assumptions C88_inherited.

(** in particular 0 for a linear-regression parameter that was never fitted *)
Theorem C88_linear_unfitted : forall {G} dim gen n (g : G) d g1 us,
  gen n g = (Ok d, g1) -> lr_dataset us dim d -> us <> [] ->
  snd (fst (estimate_true_variance xreal gen protocol_truth (fun s d => (s, lr_score xreal dim s d)) n (lr_new xreal dim) g)) = Ok (Fin 0).
Proof.
  intros G dim gen n g d g1 us E Hd Hne. rewrite (C88_inherited xreal _ _ _ _ _ _ _ E). cbn [fst snd].
  assert (Hm : lr_model (lr_new xreal dim) = mat (S dim) (fun _ _ => 0%R)).
  { unfold lr_new, mat. cbn [lr_model]. rewrite nint_x. generalize (seq_length (S dim) 0) as Hs. generalize (S dim). intros k Hs.
    assert (Hc : forall (c : X) k, map (fun _ : nat => c) (seq 0 k) = repeat c k).
    { intros c j. generalize 0%nat. induction j as [|j IH]; intros a; [reflexivity|]. cbn [seq map repeat]. now rewrite IH. }
    assert (Hc2 : forall (c : list X) k, map (fun _ : nat => c) (seq 0 k) = repeat c k).
    { intros c j. generalize 0%nat. induction j as [|j IH]; intros a; [reflexivity|]. cbn [seq map repeat]. now rewrite IH. }
    rewrite Hc, Hc2. reflexivity. }
  rewrite (lr_score_x dim (fun u : lr_unit => fst (fst u)) (fun u => snd (fst u)) (fun u => snd u) us d Hd _ (fun _ _ => 0%R) Hm).
  f_equal.
  rewrite (map_ext _ (fun _ => Fin 0)).
  - rewrite <- (map_map (fun _ : lr_unit => 0%R) Fin). rewrite nvar_fin by (destruct us; [congruence|discriminate]). f_equal.
    assert (Hn : INR (length us) <> 0%R) by (apply not_0_INR; destruct us; [congruence|discriminate]).
    assert (Hz : rmean (map (fun _ : lr_unit => 0%R) us) = 0%R) by (unfold rmean; rewrite (rsum_const _ 0%R) by auto; rewrite map_length; field; exact Hn).
    unfold rvariance. rewrite Hz. unfold rmean. rewrite map_map, (rsum_const _ 0%R) by (intros; cbn; lra). rewrite map_length. field. exact Hn.
  - intros u. f_equal. rewrite (rsum_const _ 0%R) by (intros; lra). lra.
Qed.
Print Assumptions C88_linear_unfitted.

Section C88Case.
  (** one covariate, two units; estimators given by coefficients and intercept *)
  Let pr : predictor X (list R * R) := mkPred (fun m _ _ => (m, None))
    (fun m a => Ok (map (fun r => Fin (affine (fst m) (snd m) (map real_of r))) (arows a)))
    (fun m => m) (fun m c => (map real_of c, snd m)) (fun m b => (fst m, real_of b)).
  Let d : expdata X := mkED (Some (mkArr [1] [[Fin 2]; [Fin 3]])) (Some (vec [Fin 1; Fin 0])) (Some (vec [Fin 0; Fin 0])) 2 1.
  Let gen (n : nat) (g : unit) : res (expdata X) * unit := (Ok d, g).
  Lemma case_eval m : evaluates pr m 1 (affine (fst m) (snd m)).
  Proof. intros rows _. cbn. f_equal. rewrite map_map. apply map_ext. intros r. now rewrite reals_back. Qed.
  Let est s := snd (fst (estimate_true_variance xreal gen (fun s => (lpbt_truth xreal pr s [Fin 7] (Fin 11), None))
      (fun s d => (s, lpbt_score xreal pr 1 s d)) 2 s tt)).
  Example C88_case :
    est (mkLpbt ([5%R], 1%R) ([2%R], 0%R) true None) = Ok (Fin 0)
    /\ est (mkLpbt ([5%R], 1%R) ([2%R], 0%R) false None) = Ok XNaN
    /\ (exists s', estimate_true_variance xreal gen (fun s => aipw_truth xreal pr pr (mkAC 1 5 (Fin (1/20))) s (Some (mkLin [Fin 1] (Fin 2) [Fin 3] 1)))
          (fun s d => (s, aipw_score xreal pr pr (mkAC 1 5 (Fin (1/20))) s d)) 2 (aipw_new ([5%R], 1%R) ([2%R], 0%R)) tt = ((s', Ok XNaN), tt)
        /\ aipw_enough s' = false)
    /\ snd (fst (estimate_true_variance xreal gen protocol_truth (fun s d => (s, lr_score xreal 1 s d)) 2 (lr_new xreal 1) tt)) = Ok (Fin 0)
    /\ rvariance [1%R; 3%R] = 1%R.
  Proof.
    assert (Hd : dataset d 1 (map (map Fin) [[2]; [3]]%R) [Fin 1; Fin 0] [Fin 0; Fin 0]) by (repeat split; repeat constructor).
    split; [|split; [|split; [|split]]].
    - apply (C88_plug_in pr 1 gen 2 (mkLpbt ([5%R], 1%R) ([2%R], 0%R) true None) tt d tt [[2]; [3]]%R [Fin 1; Fin 0] [Fin 0; Fin 0] [7%R] 11 eq_refl Hd); [discriminate|apply (case_eval ([7%R], 11%R))|apply (case_eval ([7%R], 0%R))].
    - apply (C88_plug_in pr 1 gen 2 (mkLpbt ([5%R], 1%R) ([2%R], 0%R) false None) tt d tt [[2]; [3]]%R [Fin 1; Fin 0] [Fin 0; Fin 0] [7%R] 11 eq_refl Hd); [discriminate|apply (case_eval ([7%R], 11%R))|apply (case_eval ([7%R], 0%R))].
    - eapply C88_aipw_unfitted; reflexivity.
    - apply (C88_linear_unfitted 1 gen 2 tt d tt [([2], 1, 0); ([3], 0, 0)]%R eq_refl); [exact Hd|discriminate].
    - unfold rvariance, rmean. cbn. lra.
  Qed.
End C88Case.
