(** The finite-sample half-width and the CLT error budget over the reals (C31, C33). *)
From Coq Require Import List Arith ZArith Bool Lia Reals Lra.
From Verif Require Import PyBase NumOps NumLaws DataModel ArmModel ArmSpec.
Import ListNotations.
Open Scope R_scope.

Lemma xint z : nint xreal z = Fin (IZR z). Proof. unfold nint. simpl. f_equal. field. Qed.
Lemma xnat n : nnat xreal n = Fin (INR n). Proof. unfold nnat. rewrite xint, <- INR_IZR_INZ. reflexivity. Qed.
Lemma xlit p q : nlit xreal p q = Fin (IZR p / IZR (Zpos q)). Proof. reflexivity. Qed.
Lemma xmax_fin a b : nmax xreal (Fin a) (Fin b) = Fin (Rmax a b).
Proof. unfold nmax. cbn [nltb xreal]. unfold xltb. destruct (Rlt_dec a b); f_equal; [rewrite Rmax_right|rewrite Rmax_left]; lra. Qed.

Section Width.
  Variables (sg esg tau burn rho delta : R) (n : nat) (st : bool).
  Hypotheses (Hsg : 0 < sg) (Hb : 1 < burn) (Hd : 0 < delta < 1) (Hn : (1 <= n)%nat).
  Let opts := real_opts sg esg tau burn rho st.

  Lemma INR_pos' : 1 <= INR n. Proof. apply (le_INR 1). exact Hn. Qed.
  Lemma lam_pos : 0 < Rmax sg (8 * sg ^ 2). Proof. eapply Rlt_le_trans; [exact Hsg|apply Rmax_l]. Qed.

  Lemma fs_width_closed x :
    fs_width xreal opts (Fin delta) n (Fin x) =
      if Rlt_dec (width_arg sg burn delta n) 0 then XNaN else Fin (real_width sg tau burn delta n x).
  Proof.
    pose proof INR_pos' as Hin. pose proof lam_pos as Hl.
    assert (Hs : sqrt (INR n) <> 0). { apply Rgt_not_eq, sqrt_lt_R0. lra. }
    unfold fs_width, opts, real_opts, nsq. cbn [so_subg so_tau so_burn]. cbv zeta. rewrite !xint, !xnat, !xlit.
    cbn [nmul xreal xmul]. rewrite xmax_fin. replace (8 * (sg * sg)) with (8 * sg ^ 2) by ring.
    cbn [nadd nmul ndiv nsqrt nlog xreal xmul xsqrt xadd]. 
    destruct (Rlt_dec (2 * sg) 0) as [Hc|_]; [lra|]. cbn [xadd xmul].
    unfold xdiv at 3. destruct (Req_EM_T burn 0); [lra|]. unfold xlog at 1.
    destruct (Rlt_dec 0 (Rmax sg (8 * sg ^ 2) * INR n / burn)) as [_|Hc].
    2:{ exfalso. apply Hc. apply Rdiv_lt_0_compat; [apply Rmult_lt_0_compat; lra|lra]. }
    cbn [xmul]. unfold xdiv at 2. destruct (Req_EM_T (INR n) 0); [lra|]. unfold xdiv at 2. destruct (Req_EM_T delta 0); [lra|].
    unfold xlog. destruct (Rlt_dec 0 (4 / delta)) as [_|Hc].
    2:{ exfalso. apply Hc. apply Rdiv_lt_0_compat; lra. }
    cbn [xadd]. destruct (Rlt_dec (INR n) 0); [lra|].
    unfold xsqrt. fold (width_arg sg burn delta n). destruct (Rlt_dec (width_arg sg burn delta n) 0); [reflexivity|].
    unfold xdiv. destruct (Req_EM_T (sqrt (INR n)) 0); [contradiction|]. cbn [xmul xadd]. f_equal. unfold real_width. ring.
  Qed.

  Lemma width_lower x : 0 < tau -> 0 <= width_arg sg burn delta n -> x ^ 2 <= real_width sg tau burn delta n x.
  Proof.
    intros Ht Ha. pose proof INR_pos' as Hin. unfold real_width.
    assert (0 <= 5 / 8 * (sqrt (2 * sg) + tau) * (sqrt (width_arg sg burn delta n) / sqrt (INR n))); [|lra].
    apply Rmult_le_pos; [|apply Rle_mult_inv_pos; [apply sqrt_pos|apply sqrt_lt_R0; lra]].
    pose proof (sqrt_pos (2 * sg)). lra.
  Qed.

  Lemma width_mono_eta x y : 0 <= x <= y -> real_width sg tau burn delta n x <= real_width sg tau burn delta n y.
  Proof. intros H. unfold real_width. nra. Qed.
End Width.

Lemma width_mono_tau sg tau tau' burn delta n x : (1 <= n)%nat -> tau <= tau' ->
  real_width sg tau burn delta n x <= real_width sg tau' burn delta n x.
Proof.
  intros Hn H. unfold real_width. apply Rplus_le_compat_r. apply Rmult_le_compat_r; [|lra].
  assert (1 <= INR n) by (apply (le_INR 1); exact Hn).
  apply Rle_mult_inv_pos; [apply sqrt_pos|apply sqrt_lt_R0; lra].
Qed.

Lemma arg_mono_delta sg burn d d' n : 0 < d -> d <= d' -> width_arg sg burn d' n <= width_arg sg burn d n.
Proof.
  intros Hd H. unfold width_arg. apply Rplus_le_compat_l.
  destruct (Req_dec d d') as [->|Hne]; [lra|]. left. apply ln_increasing; [apply Rdiv_lt_0_compat; lra|].
  apply Rmult_lt_compat_l; [lra|]. apply Rinv_lt_contravar; [apply Rmult_lt_0_compat; lra|lra].
Qed.

Lemma width_mono_delta sg tau burn d d' n x : (1 <= n)%nat -> 0 < tau -> 0 < d -> d <= d' ->
  real_width sg tau burn d' n x <= real_width sg tau burn d n x.
Proof.
  intros Hn Ht Hd H. unfold real_width. apply Rplus_le_compat_r. pose proof (sqrt_pos (2 * sg)).
  apply Rmult_le_compat_l; [lra|].
  assert (1 <= INR n) by (apply (le_INR 1); exact Hn).
  apply Rmult_le_compat_r; [left; apply Rinv_0_lt_compat, sqrt_lt_R0; lra|]. apply sqrt_le_1_alt, arg_mono_delta; assumption.
Qed.

Lemma arg_negative burn delta n : 1 < burn -> 0 < delta < 1 -> (1 <= n)%nat ->
  exists s0, 0 < s0 /\ forall sg, 0 < sg < s0 -> width_arg sg burn delta n < 0.
Proof.
  intros Hb Hd Hn. assert (Hin : 1 <= INR n) by (apply (le_INR 1); exact Hn).
  set (c := INR n / 2 * (1 / 2 + ln (4 / delta))).
  set (s1 := burn / INR n * exp (- c)).
  assert (Hs1 : 0 < s1). { unfold s1. apply Rmult_lt_0_compat; [apply Rdiv_lt_0_compat; lra|apply exp_pos]. }
  exists (Rmin (1 / 8) s1). split; [apply Rmin_glb_lt; lra|]. intros sg [Hp Hlt].
  assert (H8 : sg < 1 / 8) by (eapply Rlt_le_trans; [exact Hlt|apply Rmin_l]).
  assert (Hl1 : sg < s1) by (eapply Rlt_le_trans; [exact Hlt|apply Rmin_r]).
  unfold width_arg. rewrite Rmax_left by nra.
  assert (Hln : ln (sg * INR n / burn) < - c).
  { rewrite <- (ln_exp (- c)). apply ln_increasing; [apply Rdiv_lt_0_compat; [apply Rmult_lt_0_compat; lra|lra]|].
    apply Rlt_le_trans with (s1 * INR n / burn).
    - unfold Rdiv. apply Rmult_lt_compat_r; [apply Rinv_0_lt_compat; lra|]. apply Rmult_lt_compat_r; lra.
    - right. unfold s1. field. lra. }
  assert (E : 2 * ln (sg * INR n / burn) / INR n < - (1 / 2 + ln (4 / delta))).
  { apply Rlt_le_trans with (2 * - c / INR n).
    - unfold Rdiv. apply Rmult_lt_compat_r; [apply Rinv_0_lt_compat; lra|]. lra.
    - right. unfold c. field. lra. }
  lra.
Qed.

(** ** sum of delta / k^2 *)
Fixpoint budget (delta : R) (k m : nat) : R :=
  match m with O => 0 | S m' => delta / (INR k) ^ 2 + budget delta (S k) m' end.

Lemma budget_nonneg delta m : 0 < delta -> forall k, (1 <= k)%nat -> 0 <= budget delta k m.
Proof.
  intros Hd. induction m as [|m IH]; intros k Hk; simpl; [lra|]. specialize (IH (S k) ltac:(lia)).
  assert (1 <= INR k) by (apply (le_INR 1); exact Hk).
  assert (0 < delta / (INR k * (INR k * 1))) by (apply Rdiv_lt_0_compat; nra). lra.
Qed.

(** telescoping: 1/k^2 <= 1/(k-1) - 1/k *)
Lemma budget_upper delta m : 0 < delta -> forall k, (1 <= k)%nat -> budget delta (S k) m <= delta * (/ INR k - / INR (k + m)).
Proof.
  intros Hd. induction m as [|m IH]; intros k Hk; cbn [budget].
  - rewrite Nat.add_0_r. right. ring.
  - specialize (IH (S k) ltac:(lia)). replace (S k + m)%nat with (k + S m)%nat in IH by lia.
    assert (Hk1 : 1 <= INR k) by (apply (le_INR 1); exact Hk). rewrite S_INR in *.
    assert (delta / (INR k + 1) ^ 2 <= delta * (/ INR k - / (INR k + 1))); [|lra].
    unfold Rdiv. apply Rmult_le_compat_l; [lra|].
    replace (/ INR k - / (INR k + 1)) with (/ (INR k * (INR k + 1))) by (field; lra).
    apply Rinv_le_contravar; nra.
Qed.

Lemma budget_exceeds delta m : 0 < delta -> (2 <= m)%nat -> delta < budget delta 1 m < 2 * delta.
Proof.
  intros Hd Hm. destruct m as [|[|m]]; try lia. split.
  - cbn [budget]. pose proof (budget_nonneg delta m Hd 3 ltac:(lia)) as H. set (q := budget delta 3 m) in *. clearbody q. simpl. lra.
  - cbn [budget]. change (delta / INR 2 ^ 2 + budget delta 3 m) with (budget delta 2 (S m)).
    pose proof (budget_upper delta (S m) Hd 1 ltac:(lia)) as H.
    assert (Hi : 0 < / INR (1 + S m)). { apply Rinv_0_lt_compat. apply lt_0_INR. lia. }
    set (q := / INR (1 + S m)) in *. change (INR 1) with 1 in *. assert (0 < delta * q) by (apply Rmult_lt_0_compat; assumption).
    rewrite Rinv_1 in H. replace (delta * (1 - q)) with (delta - delta * q) in H by ring.
    replace (delta / 1 ^ 2) with delta by (field). lra.
Qed.

Lemma clt_delta_real delta k : (1 <= k)%nat -> clt_delta xreal (Fin delta) k = Fin (delta / INR k ^ 2).
Proof.
  intros Hk. unfold clt_delta. rewrite xnat. cbn [ndiv xreal]. unfold xdiv. rewrite mult_INR.
  assert (1 <= INR k) by (apply (le_INR 1); exact Hk).
  destruct (Req_EM_T (INR k * INR k) 0); [nra|]. f_equal. f_equal. ring.
Qed.
