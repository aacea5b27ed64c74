(** Properties C83 to C86: the front-door width, plug-in scores, reset, set_to_truth. *)
From Coq Require Import List Arith ZArith Reals Bool Lia Lra.
From Verif Require Import PyBase PyLemmas Num NumOps NumLaws DataModel ScmModel TabModel TabSpec TabReal ArmModel
  ParamModel ParamSpec ParamSpec2 ParamProofs ParamProofs2 ParamProofs3 ParamProofs5 ParamProofs7 ParamProps.
Import ListNotations.
Open Scope nat_scope.

(** ** lemmas *)
Lemma fd_fit_data {N M} (o : numops N) (pr : predictor N M) cd cf s d : n_features d = fc_dim cf ->
  fd_data (fst (fd_fit o pr cd cf s d)) = Some d.
Proof.
  intros H. unfold fd_fit. rewrite H, Nat.eqb_refl. cbn [negb].
  destruct (vec_of (dexp d)); [|reflexivity]. destruct (too_few _ _ _ _); [reflexivity|].
  destruct (do a <- with_cov _ d; _) as [[[a y] c]|]; [|reflexivity].
  destruct (pr_fit _ _ _ _) as [m [e|]]; [reflexivity|]. destruct (tab_fit _ _ _ _) as [t [e|]]; reflexivity.
Qed.
Lemma aipw_fit_data {N M P} (o : numops N) (pr : predictor N M) (pp : predictor N P) cf s d : n_features d = ac_dim cf ->
  ap_data (fst (aipw_fit o pr pp cf s d)) = Some d.
Proof.
  intros H. unfold aipw_fit. rewrite H, Nat.eqb_refl. cbn [negb].
  destruct (vec_of (dexp d)); [|reflexivity]. destruct (too_few _ _ _ _); [reflexivity|].
  destruct (do a <- with_cov _ d; _) as [[[a y] c]|]; [|reflexivity].
  destruct (pr_fit pr _ _ _) as [m [e|]]; [reflexivity|]. destruct (pr_fit pp _ _ _) as [t [e|]]; reflexivity.
Qed.

Section R.
Open Scope R_scope.
Lemma lt_div a b c : 0 < c -> a * c < b -> a < b / c.
Proof. intros Hc H. apply Rmult_lt_reg_r with c; [exact Hc|]. replace (b / c * c) with b by (field; lra). exact H. Qed.
Lemma boundary_x rho n delta : 0 < rho -> 0 < delta < 1 ->
  uniform_boundary xreal (Fin rho) n (Fin delta) =
  Ok (if Rlt_dec (boundary_from rho delta) (INR n) then Fin (boundary_spec rho n delta) else PInf).
Proof.
  intros Hr Hd. unfold uniform_boundary, nsq, py_div. rewrite !nint_x, nnat_x. cbn [neqb nmul ndiv xreal xeqb xmul].
  destruct (Req_EM_T rho 0); [lra|]. rewrite xdiv_fin by lra. cbn [bind]. rewrite xdiv_fin by lra.
  assert (E : delta * delta / 4 / rho = boundary_from rho delta) by (unfold boundary_from; field; lra). rewrite E.
  cbn [nleb xreal]. destruct (Rlt_dec (boundary_from rho delta) (INR n)) as [Hlt|Hlt].
  - destruct (xleb (Fin (INR n)) (Fin (boundary_from rho delta))) eqn:El; [apply xleb_fin in El; lra|].
    assert (Hf : 0 < boundary_from rho delta).
    { unfold boundary_from. apply Rdiv_lt_0_compat; [apply pow_lt|]; lra. }
    assert (Hn : 0 < INR n) by lra. destruct (Req_EM_T (INR n) 0); [lra|]. cbn [bind]. rewrite !xdiv_fin by lra.
    cbn [nadd xreal xadd]. destruct (Req_EM_T (delta * delta * rho) 0) as [E0|E0].
    { assert (0 < delta * delta * rho) by (repeat apply Rmult_lt_0_compat; lra). lra. }
    cbn [bind]. rewrite xdiv_fin by lra. cbn [nlog xreal xlog nlit].
    assert (Hdp : 0 < delta ^ 2 < 1). { split; [apply pow_lt; lra|]. cbn. rewrite Rmult_1_r. replace 1 with (1 * 1) by lra. apply Rmult_le_0_lt_compat; lra. }
    assert (Hq : 1 < (INR n / 4 + rho) / (delta * delta * rho)).
    { apply lt_div; [repeat apply Rmult_lt_0_compat; lra|]. replace (delta * delta) with (delta ^ 2) by (cbn; lra).
      assert (delta ^ 2 * rho < 1 * rho) by (apply Rmult_lt_compat_r; lra). lra. }
    destruct (Rlt_dec 0 ((INR n / 4 + rho) / (delta * delta * rho))); [|lra]. cbn [xmul xadd nsqrt xsqrt].
    assert (Hl : 0 < ln ((INR n / 4 + rho) / (delta * delta * rho))) by (rewrite <- ln_1; apply ln_increasing; lra).
    assert (Hpos : 0 < 1 / INR n * (1 / 4 + rho / INR n)).
    { apply Rmult_lt_0_compat; [apply Rdiv_lt_0_compat; lra|]. apply Rplus_lt_0_compat; [lra|apply Rdiv_lt_0_compat; lra]. }
    cbn [nsqrt xreal xsqrt].     match goal with |- context [Rlt_dec ?a 0] => destruct (Rlt_dec a 0) as [Hneg|_] end.
    { exfalso. pose proof (Rmult_lt_0_compat _ _ Hpos Hl). lra. }
    unfold boundary_spec. do 3 f_equal. replace (delta ^ 2 * rho) with (delta * delta * rho) by (cbn; lra). f_equal. field. lra.
  - destruct (xleb (Fin (INR n)) (Fin (boundary_from rho delta))) eqn:El; [reflexivity|].
    exfalso. assert (xleb (Fin (INR n)) (Fin (boundary_from rho delta)) = true) by (apply xleb_fin; lra). congruence.
Qed.

Lemma boundary_nonneg rho n delta : 0 <= boundary_spec rho n delta. Proof. apply sqrt_pos. Qed.
Lemma boundary_mono rho n delta delta' : 0 < rho -> (0 < n)%nat -> 0 < delta <= delta' ->
  boundary_spec rho n delta' <= boundary_spec rho n delta.
Proof.
  intros Hr Hn Hd. unfold boundary_spec. apply lt_INR in Hn. cbn in Hn. apply sqrt_le_1_alt. apply Rmult_le_compat_l.
  { left. apply Rdiv_lt_0_compat; [|lra]. apply Rplus_lt_0_compat; [lra|apply Rdiv_lt_0_compat; lra]. }
  assert (H1 : 0 < delta ^ 2 * rho) by (apply Rmult_lt_0_compat; [apply pow_lt|]; lra).
  assert (H2 : delta ^ 2 * rho <= delta' ^ 2 * rho) by (apply Rmult_le_compat_r; [lra|apply pow_incr; lra]).
  assert (H3 : (INR n / 4 + rho) / (delta' ^ 2 * rho) <= (INR n / 4 + rho) / (delta ^ 2 * rho)).
  { apply Rmult_le_compat_l; [lra|]. now apply Rinv_le_contravar. }
  destruct H3 as [H3|H3]; [|rewrite H3; lra]. left. apply ln_increasing; [|exact H3]. apply Rdiv_lt_0_compat; lra.
Qed.
End R.

Lemma cons_rows (xs : list R) : forall rows, map2 cons (map Fin xs) (map (map Fin) rows) = map (map Fin) (map2 cons xs rows).
Proof. induction xs as [|x xs IH]; intros [|r rows]; cbn; try reflexivity. now rewrite IH. Qed.
Lemma cons_rows_length k (xs : list R) : forall rows, (forall r, In r rows -> length r = k) ->
  forall u, In u (map2 cons xs rows) -> length u = S k.
Proof.
  induction xs as [|x xs IH]; intros [|r rows] H u Hu; cbn in Hu; try now destruct Hu. destruct Hu as [<-|Hu].
  - cbn. rewrite H by now left. reflexivity.
  - apply (IH rows); [|exact Hu]. intros r' Hr. apply H. now right.
Qed.

Section FdWidth.
  Context {M : Type} (pr : predictor X M) (cd : coding X) (la : linalg X) (cf : fd_conf X).
  Let k := S (fc_dim cf).
  Lemma fd_width_x (s : fdoor X M) d rows xs y sub_g rho delta ov det inv ws lam :
    let xrows := map2 cons xs rows in
    fd_data s = Some d -> dataset d (fc_dim cf) (map (map Fin) rows) (map Fin xs) y ->
    (0 < delta < 1)%R -> (0 < rho)%R -> (0 < sub_g)%R -> fc_overlap cf = Fin ov -> (0 < ov)%R ->
    la_det la (mat k (shifted sub_g rho (gram xrows))) = Fin det -> (rho ^ k <= det)%R ->
    la_pow la (Fin rho) k = Fin (rho ^ k) ->
    la_inv la (mat k (shifted 1 (rho / sub_g) (gram xrows))) = Ok (mat k inv) ->
    la_eig la (mat k (rprod k (rprod k (gram xrows) inv) (gram xrows))) = Ok (map Fin ws) ->
    In lam ws -> Forall (fun v => (lam <= v)%R) ws -> (0 < lam)%R ->
    fd_width xreal la cf s (Fin delta) (Fin sub_g) (Fin rho) =
    Ok (let mu := radius_spec sub_g rho k det lam (delta / 3) in let q := (1 / ov - 1)%R in
        nadd xreal (nadd xreal (Fin mu)
          (nmul xreal (if Rlt_dec (boundary_from rho (delta / 9)) (INR (length rows))
                       then Fin (boundary_spec rho (length rows) (delta / 9)) else PInf) (Fin q))) (Fin (mu * 2 * q))).
  Proof.
    intros xrows Hs Hd Hde Hrho Hsg Hov Ho E1 Hdet E2 E3 E4 Hi Hmin Hlam. destruct Hd as (Hc & Hx & _ & _ & _ & Lx & _ & Hr).
    rewrite !map_length in Lx.
    unfold fd_width. rewrite Hs, Hx, vec_of_vec. cbn [bind]. rewrite (with_cov_ok d (fc_dim cf) (map (map Fin) rows) (map Fin xs) Hc) by now rewrite !map_length.
    cbn [bind]. unfold with_exposure, matrix_of. cbn [atail arows]. rewrite Nat.eqb_refl. cbn [bind].
    replace (map2 cons (map Fin xs) (map (map Fin) rows)) with (map (fun u : list R => map Fin u) xrows).
    2:{ unfold xrows. now rewrite <- cons_rows. }
    assert (Hl : forall u, In u xrows -> length u = k).
    { intros u Hu. apply (cons_rows_length (fc_dim cf) xs rows); [|exact Hu]. intros r Hir. rewrite Forall_forall in Hr.
      specialize (Hr (map Fin r) (in_map _ _ _ Hir)). now rewrite map_length in Hr. }
    assert (Hln : length xrows = length rows). { unfold xrows. now rewrite map2_length. }
    fold k. rewrite (gram_x k (fun u : list R => u) xrows Hl), map_id. fold k. rewrite !nint_x. cbn [ndiv xreal]. rewrite xdiv_fin by lra.
    assert (Hd3 : (0 < delta / 3 < 1)%R) by lra.
    destruct (mu_radius_x la k (gram xrows) sub_g rho (delta / 3) det inv (map Fin ws) lam Hd3 Hrho Hsg Hdet Hlam E1 E2 E3 E4 (py_min_x ws lam Hi Hmin)) as [-> _].
    cbn [bind]. rewrite xdiv_fin by lra. replace (delta / 3 / 3)%R with (delta / 9)%R by field.
    rewrite boundary_x by lra. rewrite map_length, Hln. cbn [bind]. unfold py_div. rewrite Hov, nint_x. cbn [neqb xreal xeqb].
    destruct (Req_EM_T ov 0); [lra|]. cbn [bind ndiv xreal]. rewrite xdiv_fin by assumption. cbn [nsub xreal xsub xneg xadd nmul xmul]. reflexivity.
  Qed.
End FdWidth.

(** ** C83: the width of the front-door parameter *)
Theorem C83_width :
  forall {M} (pr : predictor X M) cd la (cf : fd_conf X) s d rows xs y sub_g rho delta ov det inv eigenvalues lam,
  let k := S (fc_dim cf) in let xrows := map2 cons xs rows in
  dataset d (fc_dim cf) (map (map Fin) rows) (map Fin xs) y ->
  (0 < delta < 1)%R -> (0 < rho)%R -> (0 < sub_g)%R -> fc_overlap cf = Fin ov -> (0 < ov < 1)%R ->
  la_det la (mat k (shifted sub_g rho (gram xrows))) = Fin det -> (rho ^ k <= det)%R ->
  la_pow la (Fin rho) k = Fin (rho ^ k) ->
  la_inv la (mat k (shifted 1 (rho / sub_g) (gram xrows))) = Ok (mat k inv) ->
  la_eig la (mat k (rprod k (rprod k (gram xrows) inv) (gram xrows))) = Ok (map Fin eigenvalues) ->
  In lam eigenvalues -> Forall (fun v => (lam <= v)%R) eigenvalues -> (0 < lam)%R ->
  let width := fd_width xreal la cf (fst (fd_fit xreal pr cd cf s d)) (Fin delta) (Fin sub_g) (Fin rho) in
  ((boundary_from rho (delta / 9) < INR (length rows))%R ->
     width = Ok (Fin (fd_width_spec sub_g rho k det lam ov (length rows) delta))) /\
  ((INR (length rows) <= boundary_from rho (delta / 9))%R -> width = Ok PInf).
Proof.
  intros M pr cd la cf s d rows xs y sub_g rho delta ov det inv ws lam k xrows Hd Hde Hrho Hsg Hov Ho E1 Hdet E2 E3 E4 Hi Hmin Hlam.
  assert (Hf : n_features d = fc_dim cf) by apply Hd.
  cbn zeta. rewrite (fd_width_x la cf _ d rows xs y sub_g rho delta ov det inv ws lam (fd_fit_data xreal pr cd cf s d Hf)) by (try assumption; lra).
  fold k. split; intros Hn.
  - destruct (Rlt_dec _ _); [|lra]. cbn [nadd nmul xreal xadd xmul]. unfold fd_width_spec. do 2 f_equal. lra.
  - destruct (Rlt_dec _ _); [lra|]. cbn [nadd nmul xreal xmul]. unfold xsigned.
    assert (Hq : (0 < 1 / ov - 1)%R).
    { apply Rmult_lt_reg_l with ov; [lra|]. replace (ov * (1 / ov - 1))%R with (1 - ov)%R by (field; lra). lra. }
    destruct (Rlt_dec 0 (1 / ov - 1)); [reflexivity|lra].
Qed.
Print Assumptions C83_width.

Theorem C83_nonincreasing :
  forall {M} (pr : predictor X M) cd la (cf : fd_conf X) s d rows xs y sub_g rho delta delta' ov det inv eigenvalues lam,
  let k := S (fc_dim cf) in let xrows := map2 cons xs rows in
  dataset d (fc_dim cf) (map (map Fin) rows) (map Fin xs) y -> 1 <= length rows ->
  (0 < delta <= delta')%R -> (delta' < 1)%R -> (1 / 324 <= rho)%R -> (0 < sub_g)%R -> fc_overlap cf = Fin ov -> (0 < ov < 1)%R ->
  la_det la (mat k (shifted sub_g rho (gram xrows))) = Fin det -> (rho ^ k <= det)%R ->
  la_pow la (Fin rho) k = Fin (rho ^ k) ->
  la_inv la (mat k (shifted 1 (rho / sub_g) (gram xrows))) = Ok (mat k inv) ->
  la_eig la (mat k (rprod k (rprod k (gram xrows) inv) (gram xrows))) = Ok (map Fin eigenvalues) ->
  In lam eigenvalues -> Forall (fun v => (lam <= v)%R) eigenvalues -> (0 < lam)%R ->
  let width dl := fd_width xreal la cf (fst (fd_fit xreal pr cd cf s d)) (Fin dl) (Fin sub_g) (Fin rho) in
  exists w w', width delta = Ok (Fin w) /\ width delta' = Ok (Fin w') /\ (0 <= w' <= w)%R.
Proof.
  intros M pr cd la cf s d rows xs y sub_g rho delta delta' ov det inv ws lam k xrows Hd Hn Hdd Hd1 Hrho Hsg Hov Ho E1 Hdet E2 E3 E4 Hi Hmin Hlam width.
  assert (Hnr : (1 <= INR (length rows))%R) by (apply le_INR in Hn; exact Hn).
  assert (Hb : forall dl, (0 < dl < 1)%R -> (boundary_from rho (dl / 9) < INR (length rows))%R).
  { intros dl Hl. apply Rlt_le_trans with 1%R; [|exact Hnr]. unfold boundary_from. apply Rmult_lt_reg_r with (4 * rho)%R; [lra|].
    unfold Rdiv. rewrite Rmult_assoc, Rinv_l by lra. rewrite Rmult_1_r, Rmult_1_l.
    assert ((dl * / 9) ^ 2 < (1 / 9) ^ 2)%R; [|lra]. cbn. rewrite !Rmult_1_r. apply Rmult_le_0_lt_compat; lra. }
  assert (Hq : (0 < 1 / ov - 1)%R).
  { apply Rmult_lt_reg_l with ov; [lra|]. replace (ov * (1 / ov - 1))%R with (1 - ov)%R by (field; lra). lra. }
  assert (Hw : forall dl, (0 < dl < 1)%R -> width dl = Ok (Fin (fd_width_spec sub_g rho k det lam ov (length rows) dl))).
  { intros dl Hl. apply (C83_width pr cd la cf s d rows xs y sub_g rho dl ov det inv ws lam); try assumption; [lra|now apply Hb]. }
  exists (fd_width_spec sub_g rho k det lam ov (length rows) delta), (fd_width_spec sub_g rho k det lam ov (length rows) delta').
  split; [apply Hw; lra|]. split; [apply Hw; lra|]. unfold fd_width_spec.
  assert (Hdp : (0 < det)%R). { assert (0 < rho ^ k)%R by (apply pow_lt; lra). fold k in Hdet. lra. }
  split.
  - apply Rplus_le_le_0_compat; apply Rmult_le_pos; [now apply radius_nonneg|lra|apply boundary_nonneg|lra].
  - apply Rplus_le_compat; apply Rmult_le_compat_r; try lra; [apply radius_mono; lra|apply boundary_mono; [lra|lia|lra]].
Qed.
Print Assumptions C83_nonincreasing.

(** the number of covariate values seen, like everything else but the latest data, is ignored *)
Theorem C83_support_ignored :
  forall {N M} (o : numops N) la (cf : fd_conf N) (s s' : fdoor N M) delta sub_g rho,
  fd_data s = fd_data s' -> fd_width o la cf s delta sub_g rho = fd_width o la cf s' delta sub_g rho.
Proof. intros N M o la cf s s' delta sub_g rho E. unfold fd_width. now rewrite E. Qed.
Print Assumptions C83_support_ignored.

(** a new or reset parameter has no width; a fit that keeps the models gives it one *)
Theorem C83_no_data :
  forall {N M P} (o : numops N) (pr : predictor N M) (pp : predictor N P) la ca (cf : fd_conf N) ridge s t resp prop delta sub_g rho,
  fd_width o la cf (fd_reset o ridge cf s) delta sub_g rho = Err AttributeError /\
  fd_width o la cf (fd_new o (M := M) ridge cf) delta sub_g rho = Err AttributeError /\
  aipw_width o la ca (aipw_reset pr pp t) delta sub_g rho = Err AttributeError /\
  aipw_width o la ca (aipw_new (M := M) (P := P) resp prop) delta sub_g rho = Err AttributeError.
Proof. intros. repeat split. Qed.
Print Assumptions C83_no_data.

Section C83Case.
  (** one covariate-free unit with exposure 1: 1 by 1 matrices *)
  Let entry (m : list (list X)) : R := real_of (hd XNaN (hd [] m)).
  Let la : linalg X := mkLA X (fun m => Fin (entry m)) (fun m => Ok [[Fin (/ entry m)]]) (fun m => Ok [Fin (entry m)])
                            (fun x n => Fin (real_of x ^ n)).
  Let d : expdata X := mkED (Some (mkArr [0] [[]])) (Some (vec [Fin 1])) (Some (vec [Fin 7])) 1 0.
  Let cd : coding X := mkCoding X (fun _ => []) (fun _ => []) (fun _ => []) (fun _ => []).
  Let cf : fd_conf X := mkFC 0 5 (Fin (1/4)) (Fin 10).
  Example C83_case :
    exists w w', fd_width xreal la cf (fst (fd_fit xreal (funpred (fun _ => 0%R)) cd cf (fd_new xreal tt cf) d)) (Fin (1/10)) (Fin 1) (Fin 1) = Ok (Fin w)
      /\ fd_width xreal la cf (fst (fd_fit xreal (funpred (fun _ => 0%R)) cd cf (fd_new xreal tt cf) d)) (Fin (1/5)) (Fin 1) (Fin 1) = Ok (Fin w')
      /\ (0 <= w' <= w)%R.
  Proof.
    apply (C83_nonincreasing (funpred (fun _ => 0%R)) cd la cf (fd_new xreal tt cf) d [[]] [1%R] [Fin 7] 1 1 (1/10) (1/5) (1/4) 2 (fun _ _ => / 2)%R [1/2]%R (1/2));
      try lra; try reflexivity.
    - repeat split. repeat constructor.
    - unfold la, entry, mat, shifted, gram. cbn. f_equal. lra.
    - cbn. lra.
    - unfold la, entry, mat, shifted, gram. cbn. do 5 f_equal. lra.
    - unfold la, entry, mat, rprod, gram. cbn. do 3 f_equal. lra.
    - now left.
    - constructor; [lra|constructor].
  Qed.
End C83Case.

(** ** C84: the score of LinearParameterBinaryTreatment is a plug-in estimate *)
Theorem C84_plug_in :
  forall {M} (pr : predictor X M) dim s d rows x y f1 f0,
  dataset d dim (map (map Fin) rows) x y -> lp_fit s = true ->
  evaluates pr (lp_treat s) dim f1 -> evaluates pr (lp_cont s) dim f0 ->
  lpbt_score xreal pr dim s d = Ok (map (fun z => Fin (f1 z - f0 z)) rows).
Proof.
  intros M pr dim s d rows x y f1 f0 (Hc & Hx & _ & Hn & Hf & _ & _ & Hr) Hfit H1 H0.
  unfold lpbt_score, lpbt_transform. rewrite Hfit. cbn [negb]. rewrite Hf, Nat.eqb_refl. cbn [negb]. rewrite Hc. cbn [arr_of bind].
  assert (Hl : Forall (fun r : list R => length r = dim) rows).
  { apply Forall_forall. intros r Hi. rewrite Forall_forall in Hr. specialize (Hr (map Fin r) (in_map _ _ _ Hi)). now rewrite map_length in Hr. }
  rewrite (H0 rows Hl). cbn [bind]. rewrite (H1 rows Hl). cbn [bind].
  change [map (fun z => Fin (f0 z)) rows; map (fun z => Fin (f1 z)) rows] with (map (fun g => map g rows) [fun z => Fin (f0 z); fun z => Fin (f1 z)]).
  rewrite stack_map by discriminate. cbn [bind]. unfold lpbt_phi. rewrite width_map by reflexivity.
  rewrite (col_map xreal 0 _ rows (fun r => Fin (f0 r))), (col_map xreal 1 _ rows (fun r => Fin (f1 r))) by reflexivity.
  now rewrite map2_diag.
Qed.
Print Assumptions C84_plug_in.

(** set_to_truth on a fitted parameter: every score is tau; on a new one: NaN *)
Theorem C84_truth :
  forall {M} (pr : predictor X M) dim s d rows x y beta tau,
  dataset d dim (map (map Fin) rows) x y ->
  evaluates pr (pr_coef pr (pr_icept pr (lp_treat s) (Fin tau)) (map Fin beta)) dim (affine beta tau) ->
  evaluates pr (pr_icept pr (pr_coef pr (lp_cont s) (map Fin beta)) (Fin 0)) dim (affine beta 0) ->
  lpbt_score xreal pr dim (lpbt_truth xreal pr s (map Fin beta) (Fin tau)) d =
  Ok (map (fun _ => if lp_fit s then Fin tau else XNaN) rows).
Proof.
  intros M pr dim s d rows x y beta tau Hd H1 H0. destruct (lp_fit s) eqn:Ef.
  - rewrite (C84_plug_in pr dim _ d rows x y (affine beta tau) (affine beta 0) Hd); unfold lpbt_truth; cbn [lp_fit lp_treat lp_cont]; rewrite ?nint_x; try assumption.
    f_equal. apply map_ext. intros z. unfold affine. f_equal. lra.
  - destruct Hd as (_ & _ & _ & Hn & _). rewrite map_length in Hn. unfold lpbt_score, lpbt_transform, lpbt_truth. cbn [lp_fit]. rewrite Ef. cbn [negb bind].
    rewrite Hn. unfold nan_rows. clear. unfold lpbt_phi. rewrite (repeat_map _ rows).
    change (fun _ : list R => repeat (nnan xreal) 2) with (fun u : list R => map (fun g => g u) [fun _ : list R => nnan xreal; fun _ => nnan xreal]).
    rewrite width_map by reflexivity.
    rewrite (col_map xreal 0 _ rows (fun _ => nnan xreal)), (col_map xreal 1 _ rows (fun _ => nnan xreal)) by reflexivity. now rewrite map2_diag.
Qed.
Print Assumptions C84_truth.

Section C84Case.
  (** estimators given by coefficients and intercept *)
  Let pr : predictor X (list R * R) := mkPred (fun m _ _ => (m, None))
    (fun m a => Ok (map (fun r => Fin (affine (fst m) (snd m) (map real_of r))) (arows a)))
    (fun m => m) (fun m c => (map real_of c, snd m)) (fun m b => (fst m, real_of b)).
  Let d : expdata X := mkED (Some (mkArr [1] [[Fin 2]; [Fin 3]])) (Some (vec [Fin 1; Fin 0])) (Some (vec [Fin 0; Fin 0])) 2 1.
  Lemma reals_back (r : list R) : map real_of (map Fin r) = r.
  Proof. rewrite map_map. cbn. now rewrite map_id. Qed.
  Example C84_case :
    lpbt_score xreal pr 1 (mkLpbt ([5%R], 1%R) ([2%R], 0%R) true None) d = Ok [Fin (5 * 2 + 0 + 1 - (2 * 2 + 0 + 0)); Fin (5 * 3 + 0 + 1 - (2 * 3 + 0 + 0))] /\
    lpbt_score xreal pr 1 (lpbt_truth xreal pr (mkLpbt ([5%R], 1%R) ([2%R], 0%R) true None) [Fin 7] (Fin 11)) d = Ok [Fin 11; Fin 11].
  Proof.
    assert (He : forall m, evaluates pr m 1 (affine (fst m) (snd m))).
    { intros m rows _. cbn. f_equal. rewrite map_map. apply map_ext. intros r. now rewrite reals_back. }
    split.
    - rewrite (C84_plug_in pr 1 _ d [[2]; [3]]%R [Fin 1; Fin 0] [Fin 0; Fin 0] (affine [5%R] 1) (affine [2%R] 0)).
      + reflexivity.
      + repeat split. repeat constructor.
      + reflexivity.
      + apply (He ([5%R], 1%R)).
      + apply (He ([2%R], 0%R)).
    - apply (C84_truth pr 1 (mkLpbt ([5%R], 1%R) ([2%R], 0%R) true None) d [[2]; [3]]%R [Fin 1; Fin 0] [Fin 0; Fin 0] [7%R] 11).
      + repeat split. repeat constructor.
      + apply (He ([7%R], 11%R)).
      + apply (He ([7%R], 0%R)).
  Qed.
End C84Case.

(** ** C85: after reset nothing of the past can be observed *)
Lemma aipw_clones {N M P} (o : numops N) (pr : predictor N M) (pp : predictor N P) la cf resp prop l :
  clones pr -> clones pp ->
  let s := fst (acts (aipw_methods o pr pp la cf) (aipw_new resp prop) l) in
  pr_clone pr (ap_resp s) = pr_clone pr resp /\ pr_clone pp (ap_prop s) = pr_clone pp prop.
Proof.
  intros (A1 & A2 & A3 & A4) (B1 & B2 & B3 & B4). cbn zeta.
  assert (H : forall s, pr_clone pr (ap_resp s) = pr_clone pr resp -> pr_clone pp (ap_prop s) = pr_clone pp prop ->
    forall a, let s' := fst (act (aipw_methods o pr pp la cf) s a) in
    pr_clone pr (ap_resp s') = pr_clone pr resp /\ pr_clone pp (ap_prop s') = pr_clone pp prop).
  { intros s H1 H2 [d|d|dl sg rho| |gen|]; cbn [act aipw_methods m_fit m_score m_width m_enough m_truth m_reset fst]; auto.
    - assert (G : pr_clone pr (ap_resp (fst (aipw_fit o pr pp cf s d))) = pr_clone pr (ap_resp s) /\
                  pr_clone pp (ap_prop (fst (aipw_fit o pr pp cf s d))) = pr_clone pp (ap_prop s)).
      { unfold aipw_fit. destruct (negb _); [auto|]. destruct (vec_of (dexp d)) as [x|]; [|auto]. destruct (too_few _ _ _ _); [auto|].
        destruct (do a <- with_cov _ d; _) as [[[a y] c]|]; [|auto]. cbn [ap_resp ap_prop ap_fit ap_data].
        specialize (A1 (ap_resp s) a y). destruct (pr_fit pr _ _ _) as [m [e|]]; cbn [fst] in A1; [cbn; auto|].
        specialize (B1 (ap_prop s) c x). destruct (pr_fit pp _ _ _) as [p [e|]]; cbn [fst] in B1; cbn; auto. }
      destruct (aipw_fit o pr pp cf s d) as [s' e]. cbn [fst] in *. intuition congruence.
    - unfold aipw_truth. destruct gen as [g|]; [|cbn; auto]. destruct (_ =? _); cbn; rewrite ?A3, ?B4, ?B3; auto.
    - cbn. rewrite A2, B2. auto. }
  assert (H0 : forall s, pr_clone pr (ap_resp s) = pr_clone pr resp -> pr_clone pp (ap_prop s) = pr_clone pp prop ->
    let s' := fst (acts (aipw_methods o pr pp la cf) s l) in
    pr_clone pr (ap_resp s') = pr_clone pr resp /\ pr_clone pp (ap_prop s') = pr_clone pp prop).
  { induction l as [|a l IH]; intros s H1 H2; cbn [acts]; [cbn; auto|]. specialize (H s H1 H2 a).
    destruct (act _ s a) as [s1 x]. cbn [fst] in H. destruct H as [H3 H4]. specialize (IH s1 H3 H4).
    destruct (acts _ s1 l) as [s2 xs]. exact IH. }
  apply H0; reflexivity.
Qed.

Theorem C85_aipw :
  forall {N M P} (o : numops N) (pr : predictor N M) (pp : predictor N P) la cf resp prop before after,
  clones pr -> clones pp ->
  let m := aipw_methods o pr pp la cf in
  snd (acts m (m_reset m (fst (acts m (aipw_new resp prop) before))) after) =
  snd (acts m (aipw_new (pr_clone pr resp) (pr_clone pp prop)) after).
Proof.
  intros N M P o pr pp la cf resp prop before after H1 H2. cbn zeta.
  destruct (aipw_clones o pr pp la cf resp prop before H1 H2) as [E1 E2]. cbn zeta in E1, E2.
  change (m_reset (aipw_methods o pr pp la cf)) with (aipw_reset (N := N) pr pp). unfold aipw_reset. now rewrite E1, E2.
Qed.
Print Assumptions C85_aipw.

Theorem C85_front_door :
  forall {N M} (o : numops N) (pr : predictor N M) cd la ridge cf before after,
  let m := fd_methods o pr cd la ridge cf in
  snd (acts m (m_reset m (fst (acts m (fd_new o ridge cf) before))) after) = snd (acts m (fd_new o ridge cf) after).
Proof. intros. reflexivity. Qed.
Print Assumptions C85_front_door.

Section C85Case.
  (** an estimator that counts its training calls, over one-valued numbers *)
  Let o : numops unit := mkNum unit (fun _ _ => tt) (fun _ _ => tt) (fun _ _ => tt) (fun _ _ => tt) (fun _ => tt) (fun _ => tt) (fun _ => tt)
    (fun _ => tt) (fun _ _ => tt) tt tt (fun _ _ => false) (fun _ _ => true) (fun _ _ => true) (fun _ => false) (fun _ => Ok 0%Z) (fun _ => Ok 0%Z).
  Let pr : predictor unit nat := mkPred (fun m _ _ => (S m, None)) (fun m a => Ok (map (fun _ => tt) (arows a))) (fun _ => 0) (fun m _ => m) (fun m _ => m).
  Let la : linalg unit := mkLA unit (fun _ => tt) (fun m => Ok m) (fun _ => Ok []) (fun _ _ => tt).
  Let d : expdata unit := mkED (Some (mkArr [1] [[tt]])) (Some (vec [tt])) (Some (vec [tt])) 1 1.
  Let m := aipw_methods o pr pr la (mkAC 1 5 tt).
  Example C85_case : clones pr /\
    fst (acts m (aipw_new 0 0) [Fit d; Fit d]) = mkAipw 2 2 true (Some d) /\
    snd (acts m (fst (acts m (aipw_new 0 0) [Fit d; Fit d])) [Enough]) = [SawBool true] /\
    snd (acts m (m_reset m (fst (acts m (aipw_new 0 0) [Fit d; Fit d]))) [Enough]) = [SawBool false].
  Proof. repeat split. Qed.
End C85Case.

(** ** C86: AIPW's set_to_truth keeps the intercept of the response model *)
Theorem C86_truth_keeps_intercept :
  forall {M P} (pr : predictor X M) (pp : predictor X P) (cf : aipw_conf X) lo s d us tau beta gamma nf b link,
  ac_overlap cf = Fin lo -> (1 / 10 ^ 15 <= lo <= 1 / 2)%R ->
  of_population us (ac_dim cf) d -> aipw_enough s = true -> length gamma = ac_dim cf ->
  (* the response model is linear with intercept b; the propensity model has a link function *)
  evaluates pr (pr_coef pr (ap_resp s) (map Fin (tau :: beta))) (S (ac_dim cf)) (affine (tau :: beta) b) ->
  evaluates pp (pr_icept pp (pr_coef pp (ap_prop s) (map Fin gamma)) (Fin 0)) (ac_dim cf) (fun z => link (affine gamma 0 z)) ->
  snd (aipw_truth xreal pr pp cf s (Some (mkLin (map Fin beta) (Fin tau) (map Fin gamma) nf))) = None /\
  aipw_score xreal pr pp cf (fst (aipw_truth xreal pr pp cf s (Some (mkLin (map Fin beta) (Fin tau) (map Fin gamma) nf)))) d =
  Ok (map (fun a =>
        let e := rclip lo (link (affine gamma 0 (a_z a))) in
        let truth := affine (tau :: beta) 0 (b2r (a_x a) :: a_z a) in
        Fin (tau + (if a_x a then / e else - / (1 - e)) * (a_y a - truth - b))) us).
Proof.
  intros M P pr pp cf lo s d us tau beta gamma nf b link Hlo Hl Hd Hf Hg Hmu He. unfold aipw_truth. cbn [lg_gamma lg_tau lg_beta].
  rewrite map_length, Hg, Nat.eqb_refl. cbn [fst snd]. split; [reflexivity|].
  rewrite (C39_score pr pp cf lo _ d us (affine (tau :: beta) b) (fun z => link (affine gamma 0 z)) Hlo Hl Hd); cbn [ap_resp ap_prop ap_fit]; try assumption.
  - f_equal. apply map_ext. intros a. cbn zeta. unfold dr_score. f_equal.
    set (e := rclip lo _). unfold affine. cbn [map2 rsum]. destruct (a_x a); cbn [b2r]; unfold Rdiv; lra.
  - rewrite nint_x. exact He.
Qed.
Print Assumptions C86_truth_keeps_intercept.

(** truth: Y = X + Z; the intercept 5 of the response model stays *)
Section C86Case.
  Let pr : predictor X (list R * R) := mkPred (fun m _ _ => (m, None))
    (fun m a => Ok (map (fun r => Fin (affine (fst m) (snd m) (map real_of r))) (arows a)))
    (fun m => m) (fun m c => (map real_of c, snd m)) (fun m b => (fst m, real_of b)).
  Let s : aipw X (list R * R) unit := mkAipw ([0; 0]%R, 5%R) tt true None.
  Example C86_case : exists scores,
    aipw_score xreal pr (funpred (fun _ => (1/2)%R)) (mkAC 1 5 (Fin (1/20)))
      (fst (aipw_truth xreal pr (funpred (fun _ => (1/2)%R)) (mkAC 1 5 (Fin (1/20))) s (Some (mkLin [Fin 1] (Fin 1) [Fin 0] 1))))
      (dataE (fun x z => (b2r x + z)%R)) = Ok (map Fin scores) /\ scores = [1 + 2 * (-5); 1 + 2 * (-5); 1 - 2 * (-5); 1 - 2 * (-5)]%R.
  Proof.
    pose proof (C86_truth_keeps_intercept pr (funpred (fun _ => (1/2)%R)) (mkAC 1 5 (Fin (1/20))) (1/20) s
      (dataE (fun x z => (b2r x + z)%R)) (popE (fun x z => (b2r x + z)%R)) 1 [1%R] [0%R] 1 5 (fun _ => (1/2)%R)) as H.
    destruct H as [_ H].
    - reflexivity.
    - pose proof small_overlap. lra.
    - apply dataE_of.
    - reflexivity.
    - reflexivity.
    - intros rows _. cbn. f_equal. rewrite map_map. apply map_ext. intros r. now rewrite reals_back.
    - apply funpred_evaluates.
    - cbn [map] in H. eexists. split; [rewrite H; match goal with |- Ok ?l = _ => replace l with (map Fin (map real_of l)) by reflexivity end; reflexivity|].
      unfold popE. cbn [map real_of a_x a_z a_y]. unfold rclip, Rmin, Rmax. destruct (Rle_dec (1 / 20) (1 / 2)); [|lra].
      destruct (Rle_dec (1 - 1 / 20) (1 / 2)); [lra|]. unfold affine. cbn [map2 rsum b2r]. repeat (apply (f_equal2 (@cons R)); [field|]); reflexivity.
  Qed.
End C86Case.
