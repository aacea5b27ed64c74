(** Lemmas about AIPW: fitting, unfitted scores, the score in exact arithmetic, the width. *)
From Coq Require Import List Arith ZArith Reals Bool Lia Lra.
From Verif Require Import PyBase PyLemmas Num NumOps NumLaws DataModel ScmModel TabModel TabSpec TabReal ArmModel ParamModel ParamSpec ParamProofs.
Import ListNotations.
Open Scope nat_scope.

Section Fit.
  Context {N M P : Type} (o : numops N) (pr : predictor N M) (pp : predictor N P) (cf : aipw_conf N).

  Lemma aipw_fit_dataset s d rows x y : dataset d (ac_dim cf) rows x y ->
    aipw_fit o pr pp cf s d =
    if too_few o (ac_min cf) (length rows) x
    then (mkAipw (ap_resp s) (ap_prop s) (ap_fit s) (Some d), None)
    else match pr_fit pr (ap_resp s) (with_exposure x (ac_dim cf) rows) y with
         | (m, Some e) => (mkAipw m (ap_prop s) (ap_fit s) (Some d), Some e)
         | (m, None) => match pr_fit pp (ap_prop s) (mkArr [ac_dim cf] rows) x with
                        | (p, Some e) => (mkAipw m p (ap_fit s) (Some d), Some e)
                        | (p, None) => (mkAipw m p true (Some d), None)
                        end
         end.
  Proof.
    intros (Hc & Hx & Hy & Hn & Hf & Lx & Ly & Hr). unfold aipw_fit. rewrite Hf, Nat.eqb_refl. cbn [negb].
    rewrite Hx, vec_of_vec, Hn. destruct (too_few o (ac_min cf) (length rows) x); [reflexivity|].
    rewrite (with_cov_ok d (ac_dim cf) rows x Hc Lx). cbn [bind]. rewrite Hy, vec_of_vec. cbn [bind]. rewrite Hc. cbn [arr_of bind ap_resp ap_prop ap_fit ap_data].
    reflexivity.
  Qed.

  Lemma aipw_fit_keeps s d : ap_fit s = true -> ap_fit (fst (aipw_fit o pr pp cf s d)) = true.
  Proof.
    intros H. unfold aipw_fit. destruct (negb _); [exact H|]. destruct (vec_of (dexp d)); [|exact H].
    destruct (too_few _ _ _ _); [exact H|].
    destruct (do a <- with_cov _ d; _) as [[[a y] c]|]; [|exact H].
    destruct (pr_fit pr _ _ _) as [m [e|]]; [exact H|]. destruct (pr_fit pp _ _ _) as [p [e|]]; [exact H|reflexivity].
  Qed.
  Lemma aipw_fits_keep ds : forall s, ap_fit s = true -> ap_fit (fits (aipw_fit o pr pp cf) s ds) = true.
  Proof. induction ds as [|d ds IH]; intros s H; [exact H|]. cbn. apply IH, aipw_fit_keeps, H. Qed.
End Fit.

(** ** NaN scores *)
Section NaN.
  Context {N : Type} (o : numops N) (L : laws o) (Hnan : nisnan o (nnan o) = true).
  Definition nans (l : list N) : Prop := Forall (fun x => nisnan o x = true) l.

  Lemma not_ok x : nisnan o x = true <-> ~ okn o x.
  Proof. unfold okn. destruct (nisnan o x); split; intros H; intuition congruence. Qed.
  Lemma nans_map2_r (f : N -> N -> N) a b : (forall x y, okn o (f x y) -> okn o y) -> nans b -> nans (map2 f a b).
  Proof.
    intros Hf. revert a. induction b as [|y b IH]; intros [|x a] H; cbn; try constructor.
    - inversion H as [|? ? H1 H2]. apply not_ok. intros G. apply Hf in G. apply not_ok in H1. contradiction.
    - apply IH. inversion H; assumption.
  Qed.
  Lemma nans_map2_l (f : N -> N -> N) a b : (forall x y, okn o (f x y) -> okn o x) -> nans a -> nans (map2 f a b).
  Proof.
    intros Hf. revert b. induction a as [|y b IH]; intros [|x c] H; cbn; try constructor.
    - inversion H as [|? ? H1 H2]. apply not_ok. intros G. apply Hf in G. apply not_ok in H1. contradiction.
    - apply IH. inversion H; assumption.
  Qed.
  Lemma nans_repeat n : nans (repeat (nnan o) n).
  Proof. induction n; cbn; constructor; assumption. Qed.
  Lemma col_nan n k j : col o j (nan_rows o n k) = repeat (nnan o) n.
  Proof.
    unfold col, nan_rows. induction n as [|n IH]; [reflexivity|]. cbn [repeat map]. rewrite IH. f_equal.
    clear. revert j. induction k as [|k IH]; intros [|j]; cbn; try reflexivity. apply IH.
  Qed.
  Lemma width_nan n k : wrong_width k (nan_rows o n k) = false.
  Proof.
    unfold wrong_width, nan_rows. rewrite (proj2 (forallb_forall _ _)); [reflexivity|].
    intros r Hr. apply repeat_spec in Hr. subst r. apply Nat.eqb_eq, repeat_length.
  Qed.
  Lemma lt_nan_l a : nltb o (nnan o) a = false.
  Proof. destruct (nltb o (nnan o) a) eqn:E; [|reflexivity]. apply (l_lt_ok _ L) in E as [E _]. unfold okn in E. congruence. Qed.
  Lemma lt_nan_r a : nltb o a (nnan o) = false.
  Proof. destruct (nltb o a (nnan o)) eqn:E; [|reflexivity]. apply (l_lt_ok _ L) in E as [_ E]. unfold okn in E. congruence. Qed.
  Lemma existsb_repeat (f : N -> bool) n : f (nnan o) = false -> existsb f (repeat (nnan o) n) = false.
  Proof. intros H. induction n; cbn; [reflexivity|]. now rewrite H. Qed.

  Lemma aipw_phi_nan d x y n : dexp d = Some (vec x) -> drsp d = Some (vec y) -> length x = n -> length y = n ->
    exists l, aipw_phi o (nan_rows o n 4) d = Ok l /\ length l = n /\ nans l.
  Proof.
    intros Hx Hy Lx Ly. unfold aipw_phi. rewrite width_nan, !col_nan.
    rewrite existsb_repeat by apply lt_nan_l. rewrite existsb_repeat by apply lt_nan_r. cbn [orb].
    rewrite bzip_same by reflexivity. cbn [bind]. rewrite Hy, vec_of_vec. cbn [bind].
    rewrite bzip_same by (rewrite repeat_length; assumption). cbn [bind]. rewrite Hx, vec_of_vec. cbn [bind].
    rewrite bzip_same by (rewrite repeat_length; assumption). cbn [bind].
    rewrite bzip_same by (rewrite !map_length, repeat_length; assumption). cbn [bind].
    rewrite bzip_same.
    2:{ rewrite !map2_length; rewrite ?map_length, ?repeat_length; congruence. }
    cbn [bind]. rewrite bzip_same.
    2:{ rewrite !map2_length; rewrite ?map_length, ?repeat_length, ?map2_length; rewrite ?map_length, ?repeat_length; congruence. }
    cbn [bind]. rewrite bzip_same.
    2:{ repeat (rewrite !map2_length; rewrite ?map_length, ?repeat_length); congruence. }
    eexists. split; [reflexivity|]. split.
    - repeat (rewrite !map2_length; rewrite ?map_length, ?repeat_length); congruence.
    - apply nans_map2_l; [intros a b H; apply (l_nan_add _ L) in H; tauto|].
      apply nans_map2_l; [intros a b H; apply (l_nan_sub _ L) in H; tauto|]. apply nans_repeat.
  Qed.
End NaN.

(** ** exact arithmetic *)
Open Scope R_scope.
Lemma nclip_x lo p : lo <= 1 / 2 -> nclip xreal (Fin lo) (nsub xreal (nint xreal 1) (Fin lo)) (Fin p) = Fin (rclip lo p).
Proof.
  intros H. rewrite nint_x. cbn [nsub xreal xsub xneg xadd]. unfold nclip, rclip, Rmin, Rmax. cbn [nltb xreal xltb].
  destruct (Rlt_dec p lo), (Rle_dec lo p); try lra; cbn [xltb].
  - destruct (Rlt_dec (1 + - lo) lo), (Rle_dec (1 - lo) lo); try lra; f_equal; lra.
  - destruct (Rlt_dec (1 + - lo) p), (Rle_dec (1 - lo) p); try lra; f_equal; lra.
Qed.
Lemma rclip_range lo p : lo <= 1 / 2 -> lo <= rclip lo p <= 1 - lo.
Proof. intros H. unfold rclip, Rmin, Rmax. destruct (Rle_dec lo p); destruct (Rle_dec (1 - lo) _); lra. Qed.
Lemma rclip_id lo p : lo <= p <= 1 - lo -> rclip lo p = p.
Proof. intros H. unfold rclip, Rmin, Rmax. destruct (Rle_dec lo p); destruct (Rle_dec (1 - lo) _); lra. Qed.
Lemma bit_x b : bit xreal b = Fin (b2r b).
Proof. unfold bit. rewrite nint_x. now destruct b. Qed.

Definition rtiny : R := 1 / 10 ^ 15.
Lemma tiny_x : tiny xreal = Fin rtiny.
Proof.
  unfold tiny, rtiny. cbn [nlit xreal]. f_equal.
  replace (10 ^ 15) with (IZR (10 ^ Z.of_nat 15)) by (symmetry; apply (pow_IZR 10 15)). reflexivity.
Qed.
Lemma rtiny_pos : 0 < rtiny.
Proof. unfold rtiny. apply Rdiv_lt_0_compat; [lra|]. apply pow_lt. lra. Qed.

Section Exact.
  Context {M P : Type} (pr : predictor X M) (pp : predictor X P) (cf : aipw_conf X) (lo : R).
  Hypotheses (Hlo : ac_overlap cf = Fin lo) (Hl1 : rtiny <= lo) (Hl2 : lo <= 1 / 2).
  (** units: covariates, exposure, response *)
  Context {T : Type} (tz : T -> list R) (tx : T -> bool) (ty : T -> R).
  Let k := ac_dim cf.

  Lemma ev_col m f (us : list T) (g : T -> R) : evaluates pr m (S k) f -> (forall u, In u us -> length (tz u) = k) ->
    pr_predict pr m (with_exposure (map (fun u => Fin (g u)) us) k (map (fun u => map Fin (tz u)) us))
    = Ok (map (fun u => Fin (f (g u :: tz u))) us).
  Proof.
    intros He Hk. unfold with_exposure. rewrite map2_diag.
    replace (map (fun a => Fin (g a) :: map Fin (tz a)) us) with (map (map Fin) (map (fun a => g a :: tz a) us)) by now rewrite map_map.
    rewrite He. { now rewrite map_map. }
    apply Forall_forall. intros r Hr. apply in_map_iff in Hr as (u & <- & Hu). cbn. now rewrite Hk.
  Qed.

  Lemma aipw_score_x s d (us : list T) mu e :
    dataset d k (map (fun u => map Fin (tz u)) us) (bits xreal (map tx us)) (map (fun u => Fin (ty u)) us) ->
    ap_fit s = true -> evaluates pr (ap_resp s) (S k) mu -> evaluates pp (ap_prop s) k e ->
    aipw_score xreal pr pp cf s d =
    Ok (map (fun u => Fin (dr_score (fun b => mu (b2r b :: tz u)) (rclip lo (e (tz u))) (tx u) (ty u))) us).
  Proof.
    intros (Hc & Hx & Hy & Hn & Hf & Lx & Ly & Hr) Hfit Hmu He. rewrite map_length in Hn.
    assert (Hk : forall u, In u us -> length (tz u) = k).
    { intros u Hu. rewrite Forall_forall in Hr. specialize (Hr (map Fin (tz u)) (in_map (fun u => map Fin (tz u)) us u Hu)). now rewrite map_length in Hr. }
    unfold aipw_score, aipw_transform. rewrite Hfit. cbn [negb]. fold k. rewrite Hf, Nat.eqb_refl. cbn [negb]. rewrite Hc. cbn [arr_of bind].
    replace (map (fun u => map Fin (tz u)) us) with (map (map Fin) (map tz us)) at 1 by now rewrite map_map.
    rewrite He. 2:{ apply Forall_forall. intros r Hr'. apply in_map_iff in Hr' as (u & <- & Hu). now apply Hk. }
    cbn [bind]. rewrite Hn, !repeat_map.
    rewrite (with_cov_ok d k _ (map (fun _ => nint xreal 0) us) Hc) by now rewrite !map_length. cbn [bind].
    rewrite nint_x. rewrite (ev_col _ _ us (fun _ => 0) Hmu Hk). cbn [bind].
    rewrite (with_cov_ok d k _ (map (fun _ => nint xreal 1) us) Hc) by now rewrite !map_length. cbn [bind].
    rewrite (nint_x 1). rewrite (ev_col _ _ us (fun _ => 1) Hmu Hk). cbn [bind].
    rewrite Hx, vec_of_vec. cbn [bind]. rewrite (with_cov_ok d k _ _ Hc Lx). cbn [bind].
    replace (bits xreal (map tx us)) with (map (fun u => Fin (b2r (tx u))) us) by (unfold bits; rewrite map_map; apply map_ext; intros; now rewrite bit_x).
    rewrite (ev_col _ _ us (fun u => b2r (tx u)) Hmu Hk). cbn [bind].
    set (g0 := fun u : T => Fin (mu (0 :: tz u))). set (g1 := fun u : T => Fin (mu (1 :: tz u))).
    set (gx := fun u : T => Fin (mu (b2r (tx u) :: tz u))). set (ge := fun u : T => Fin (rclip lo (e (tz u)))).
    assert (Ee : map (nclip xreal (ac_overlap cf) (nsub xreal (Fin 1) (ac_overlap cf))) (map (fun r => Fin (e r)) (map tz us)) = map ge us).
    { rewrite !map_map. apply map_ext. intros u. rewrite Hlo. rewrite <- (nint_x 1). now apply nclip_x. }
    rewrite Ee.
    change [map g0 us; map g1 us; map gx us; map ge us] with (map (fun g => map g us) [g0; g1; gx; ge]).
    rewrite stack_map by discriminate. cbn [bind]. unfold aipw_phi.
    rewrite width_map by reflexivity.
    rewrite (col_map xreal 0 _ us g0), (col_map xreal 1 _ us g1), (col_map xreal 2 _ us gx), (col_map xreal 3 _ us ge) by reflexivity.
    assert (Rg : forall u, lo <= rclip lo (e (tz u)) <= 1 - lo) by (intros; now apply rclip_range).
    pose proof rtiny_pos as Ht.
    assert (E1 : existsb (fun p => nltb xreal p (tiny xreal)) (map ge us) = false).
    { match goal with |- ?b = false => destruct b eqn:E end; [|reflexivity]. apply existsb_exists in E as (p & Hp & E). apply in_map_iff in Hp as (u & <- & _).
      rewrite tiny_x in E. apply xltb_fin in E. specialize (Rg u). lra. }
    assert (E2 : existsb (fun p => nltb xreal (nsub xreal (nint xreal 1) (tiny xreal)) p) (map ge us) = false).
    { match goal with |- ?b = false => destruct b eqn:E end; [|reflexivity]. apply existsb_exists in E as (p & Hp & E). apply in_map_iff in Hp as (u & <- & _).
      rewrite tiny_x, nint_x in E. apply xltb_fin in E. specialize (Rg u). lra. }
    rewrite E1, E2. cbn [orb]. rewrite bzip_map. cbn [bind]. rewrite Hy, vec_of_vec. cbn [bind]. rewrite bzip_map. cbn [bind].
    rewrite Hx, vec_of_vec. cbn [bind].
    replace (bits xreal (map tx us)) with (map (fun u => Fin (b2r (tx u))) us) by (unfold bits; rewrite map_map; apply map_ext; intros; now rewrite bit_x).
    rewrite bzip_map. cbn [bind]. rewrite !map_map, bzip_map. cbn [bind]. rewrite bzip_map. cbn [bind]. rewrite bzip_map. cbn [bind]. rewrite bzip_map.
    f_equal. apply map_ext. intros u. specialize (Rg u). unfold g0, g1, gx, ge. rewrite nint_x.
    cbn [nsub nadd nmul ndiv xreal]. unfold xsub. change (xneg (Fin (rclip lo (e (tz u))))) with (Fin (- rclip lo (e (tz u)))).
    change (xneg (Fin (b2r (tx u)))) with (Fin (- b2r (tx u))).
    change (xadd (Fin 1) (Fin (- rclip lo (e (tz u))))) with (Fin (1 + - rclip lo (e (tz u)))).
    change (xadd (Fin 1) (Fin (- b2r (tx u)))) with (Fin (1 + - b2r (tx u))).
    rewrite !xdiv_fin by lra. cbn [xneg xadd xmul]. f_equal. unfold dr_score. destruct (tx u); unfold b2r; field; lra.
  Qed.
End Exact.
