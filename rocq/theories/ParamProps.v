(** Properties C38 to C48: nuisance parameters. *)
From Coq Require Import List Arith ZArith Reals Bool Lia Lra Permutation.
From Verif Require Import PyBase PyLemmas Num NumOps FloatOps NumLaws DataModel ScmModel TabModel TabSpec TabProofs TabProofs2 TabReal ArmModel ArmSpec
  ParamModel ParamSpec ParamProofs ParamProofs2 ParamProofs3 ParamProofs4 ParamProofs5 ParamProofs6 ParamProofs7.
Import ListNotations.
Open Scope nat_scope.

(** ** material for the examples *)
(** an estimator that always predicts the function f *)
Definition funpred (f : list R -> R) : predictor X unit :=
  mkPred (fun m _ _ => (m, None)) (fun _ a => Ok (map (fun r => Fin (f (map real_of r))) (arows a)))
         (fun m => m) (fun m _ => m) (fun m _ => m).
Lemma funpred_evaluates f k : evaluates (funpred f) tt k f.
Proof.
  intros rows _. cbn. f_equal. rewrite map_map. apply map_ext. intros r. do 2 f_equal. rewrite map_map. cbn. now rewrite map_id.
Qed.
(** four kinds of units: Z is 1 with probability 3/4 when treated, 1/4 otherwise *)
Definition popE (f : bool -> R -> R) : list atom :=
  [mkAtom (3/8) [1%R] true (f true 1%R); mkAtom (1/8) [0%R] true (f true 0%R);
   mkAtom (1/8) [1%R] false (f false 1%R); mkAtom (3/8) [0%R] false (f false 0%R)].
Definition dataE (f : bool -> R -> R) : expdata X :=
  mkED (Some (mkArr [1] (map (fun a => map Fin (a_z a)) (popE f)))) (Some (vec (bits xreal (map a_x (popE f)))))
       (Some (vec (map (fun a => Fin (a_y a)) (popE f)))) 4 1.
Lemma dataE_of f : of_population (popE f) 1 (dataE f).
Proof. repeat split. repeat constructor. Qed.

Open Scope R_scope.
Lemma ne10 : [1] <> [0]. Proof. intros E. injection E. lra. Qed.
Lemma ne01 : [0] <> [1]. Proof. intros E. injection E. lra. Qed.
Ltac popc := unfold propensity, e_y, p_z_given, p_z, p_x, p_xz, mass, integral, popE, has_z, has_x;
  cbn [filter map rsum a_w a_x a_y a_z Bool.eqb andb];
  repeat match goal with |- context [z_eq ?a ?b] =>
    let E := fresh in destruct (z_eq a b) as [E|E]; [try (exfalso; first [exact (ne10 E)|exact (ne01 E)])|try (exfalso; apply E; reflexivity)]; cbn [a_z a_x] end;
  cbn [filter map rsum a_w a_x a_y a_z Bool.eqb andb]; try lra.
Lemma z_values_E f : z_values (popE f) = [[1]; [0]].
Proof.
  unfold z_values, popE. cbn [map a_z nodup].
  destruct (in_dec z_eq [1] [[0]; [1]; [0]]) as [H|H]; [|exfalso; apply H; cbn; tauto].
  destruct (in_dec z_eq [0] [[1]; [0]]) as [H1|H1]; [|exfalso; apply H1; cbn; tauto].
  destruct (in_dec z_eq [1] [[0]]) as [H2|H2]; [exfalso; destruct H2 as [H2|[]]; exact (ne01 H2)|].
  destruct (in_dec z_eq [0] []) as [H3|H3]; [destruct H3|reflexivity].
Qed.
Lemma xz11 f : p_xz (popE f) true [1] = 3/8. Proof. popc. Qed.
Lemma xz10 f : p_xz (popE f) true [0] = 1/8. Proof. popc. Qed.
Lemma xz01 f : p_xz (popE f) false [1] = 1/8. Proof. popc. Qed.
Lemma xz00 f : p_xz (popE f) false [0] = 3/8. Proof. popc. Qed.
Lemma px1 f : p_x (popE f) true = 1/2. Proof. popc. Qed.
Lemma px0 f : p_x (popE f) false = 1/2. Proof. popc. Qed.
Lemma pz1 f : p_z (popE f) [1] = 1/2. Proof. rewrite p_z_split, xz11, xz01. lra. Qed.
Lemma pz0 f : p_z (popE f) [0] = 1/2. Proof. rewrite p_z_split, xz10, xz00. lra. Qed.
Lemma ey11 f : e_y (popE f) true [1] = f true 1. Proof. unfold e_y. rewrite xz11. popc; try field. Qed.
Lemma ey10 f : e_y (popE f) true [0] = f true 0. Proof. unfold e_y. rewrite xz10. popc; try field. Qed.
Lemma ey01 f : e_y (popE f) false [1] = f false 1. Proof. unfold e_y. rewrite xz01. popc; try field. Qed.
Lemma ey00 f : e_y (popE f) false [0] = f false 0. Proof. unfold e_y. rewrite xz00. popc; try field. Qed.
Lemma popE_population f : population (popE f).
Proof.
  split; [|split].
  - intros a [<-|[<-|[<-|[<-|[]]]]]; cbn; lra.
  - cbn. lra.
  - intros z x Hz. rewrite z_values_E in Hz. destruct Hz as [<-|[<-|[]]]; destruct x; rewrite ?xz11, ?xz10, ?xz01, ?xz00; lra.
Qed.
Close Scope R_scope.

(** ** C38 *)
Theorem C38_fits_iff_groups_large :
  forall {N M P} (o : numops N) (B : Z) (pr : predictor N M) (pp : predictor N P) (cf : aipw_conf N) s d rows bs y,
  counting o B -> dataset d (ac_dim cf) rows (bits o bs) y -> (Z.of_nat (length bs) + Z.abs (ac_min cf) <= B)%Z ->
  (large_enough (ac_min cf) bs -> trainable pr pp (ac_dim cf) rows (bits o bs) y ->
   aipw_fit o pr pp cf s d =
   (mkAipw (fst (pr_fit pr (ap_resp s) (with_exposure (bits o bs) (ac_dim cf) rows) y))
           (fst (pr_fit pp (ap_prop s) (mkArr [ac_dim cf] rows) (bits o bs))) true (Some d), None))
  /\ (~ large_enough (ac_min cf) bs ->
      aipw_fit o pr pp cf s d = (mkAipw (ap_resp s) (ap_prop s) (ap_fit s) (Some d), None)).
Proof. intros N M P o B pr pp cf s d rows bs y Hc Hd HB. exact (aipw_fit_binary o pr pp cf B Hc s d rows bs y Hd HB). Qed.
Print Assumptions C38_fits_iff_groups_large.

Theorem C38_history :
  forall {N M P} (o : numops N) (B : Z) (pr : predictor N M) (pp : predictor N P) (cf : aipw_conf N) resp prop
    (h : list (expdata N * list bool)),
  counting o B ->
  Forall (fun q => binary_batch o pr pp (ac_dim cf) (ac_min cf) B (fst q) (snd q)) h ->
  aipw_enough (fits (aipw_fit o pr pp cf) (aipw_new resp prop) (map fst h)) = true
  <-> Exists (fun q => large_enough (ac_min cf) (snd q)) h.
Proof.
  intros N M P o B pr pp cf resp prop h Hc Hh. unfold aipw_enough. rewrite (aipw_history o pr pp cf B Hc h _ Hh). cbn. intuition discriminate.
Qed.
Print Assumptions C38_history.

(** with growing data only the last dataset matters *)
Theorem C38_growing_data :
  forall {N M P} (o : numops N) (B : Z) (pr : predictor N M) (pp : predictor N P) (cf : aipw_conf N) resp prop
    (h : list (expdata N * list bool)) d bs,
  counting o B ->
  Forall (fun q => binary_batch o pr pp (ac_dim cf) (ac_min cf) B (fst q) (snd q)) (h ++ [(d, bs)]) ->
  Forall (fun q => exists more, bs = snd q ++ more) h ->
  aipw_enough (fits (aipw_fit o pr pp cf) (aipw_new resp prop) (map fst (h ++ [(d, bs)]))) = true
  <-> large_enough (ac_min cf) bs.
Proof.
  intros N M P o B pr pp cf resp prop h d bs Hc Hh Hg. rewrite (C38_history o B pr pp cf resp prop _ Hc Hh), Exists_app. split.
  - intros [H|H].
    + apply Exists_exists in H as (q & Hq & HL). rewrite Forall_forall in Hg. destruct (Hg q Hq) as [more ->]. now apply large_prefix.
    + inversion H as [? ? HL|? ? HL]; [exact HL|inversion HL].
  - intros H. right. now left.
Qed.
Print Assumptions C38_growing_data.

(** no later fit takes the flag away, whatever the data and whatever raises *)
Theorem C38_stays_fitted :
  forall {N M P} (o : numops N) (pr : predictor N M) (pp : predictor N P) (cf : aipw_conf N) s ds,
  aipw_enough s = true -> aipw_enough (fits (aipw_fit o pr pp cf) s ds) = true.
Proof. intros N M P o pr pp cf s ds H. now apply aipw_fits_keep. Qed.
Print Assumptions C38_stays_fitted.

(** in binary64, up to 2^53 *)
Theorem C38_binary64 :
  forall lib {M P} (pr : predictor F M) (pp : predictor F P) (cf : aipw_conf F) resp prop (h : list (expdata F * list bool)),
  Forall (fun q => binary_batch (f64 lib) pr pp (ac_dim cf) (ac_min cf) (2 ^ 53) (fst q) (snd q)) h ->
  aipw_enough (fits (aipw_fit (f64 lib) pr pp cf) (aipw_new resp prop) (map fst h)) = true
  <-> Exists (fun q => large_enough (ac_min cf) (snd q)) h.
Proof.
  intros lib M P pr pp cf resp prop h Hh. apply (C38_history (f64 lib) (2 ^ 53)); [|exact Hh]. apply f64_counting. apply Z.le_refl.
Qed.
Print Assumptions C38_binary64.

Section C38Case.
  Context (lib : libm).
  Let pr : predictor F nat := mkPred (fun m _ _ => (S m, None)) (fun _ _ => Ok []) (fun _ => 0) (fun m _ => m) (fun m _ => m).
  Let data (bs : list bool) : expdata F :=
    mkED (Some (mkArr [1] (map (fun _ => [f0]) bs))) (Some (vec (bits (f64 lib) bs))) (Some (vec (map (fun _ => f0) bs))) (length bs) 1.
  Let cf := mkAC 1 2 f0.
  Example C38_case :
    aipw_enough (fits (aipw_fit (f64 lib) pr pr cf) (aipw_new 0 0) [data [true; false; true]]) = false
    /\ aipw_enough (fits (aipw_fit (f64 lib) pr pr cf) (aipw_new 0 0)
         [data [true; false; true]; data [true; false; false; true]; data [true]]) = true.
  Proof.
    assert (Hd : forall bs, length bs <= 4 -> binary_batch (f64 lib) pr pr 1 2 (2 ^ 53) (data bs) bs).
    { intros bs Hb. exists (map (fun _ => [f0]) bs), (map (fun _ => f0) bs). split; [|split].
      - unfold dataset, data, bits. cbn [dcov dexp drsp n_units n_features]. rewrite !map_length. repeat split.
        apply Forall_forall. intros r Hr. apply in_map_iff in Hr as (b & <- & _). reflexivity.
      - assert (Z.of_nat (length bs) <= 4)%Z by lia. cbn [Z.abs]. apply Z.le_trans with 6%Z; [lia|]. vm_compute. discriminate.
      - intros _. split; intros m; reflexivity. }
    split.
    - match goal with |- ?b = false => destruct b eqn:E; [exfalso|reflexivity] end.
      change [data [true; false; true]] with (map fst [(data [true; false; true], [true; false; true])]) in E.
      apply C38_binary64 in E; [|repeat constructor; apply Hd; cbn; lia].
      inversion E as [? ? HL|? ? HL]; [|inversion HL]. destruct HL as [_ HL]. cbn in HL. lia.
    - change [data [true; false; true]; data [true; false; false; true]; data [true]]
        with (map fst [(data [true; false; true], [true; false; true]); (data [true; false; false; true], [true; false; false; true]); (data [true], [true])]).
      apply C38_binary64; [repeat constructor; apply Hd; cbn; lia|]. right. left. split; cbn; lia.
  Qed.
End C38Case.

(** ** C39 *)
Theorem C39_score :
  forall {M P} (pr : predictor X M) (pp : predictor X P) (cf : aipw_conf X) lo s d us mu e,
  ac_overlap cf = Fin lo -> (1 / 10 ^ 15 <= lo <= 1 / 2)%R ->
  of_population us (ac_dim cf) d -> aipw_enough s = true ->
  evaluates pr (ap_resp s) (S (ac_dim cf)) mu -> evaluates pp (ap_prop s) (ac_dim cf) e ->
  aipw_score xreal pr pp cf s d =
  Ok (map (fun a => Fin (dr_score (fun b => mu (b2r b :: a_z a)) (rclip lo (e (a_z a))) (a_x a) (a_y a))) us).
Proof.
  intros M P pr pp cf lo s d us mu e Hlo [H1 H2] Hd Hf Hmu He.
  exact (aipw_score_x pr pp cf lo Hlo H1 H2 a_z a_x a_y s d us mu e Hd Hf Hmu He).
Qed.
Print Assumptions C39_score.

(** the smallest admissible overlap exceeds 1e-15: nothing raises *)
Lemma small_overlap : (1 / 10 ^ 15 <= 1 / 20)%R.
Proof.
  apply Rmult_le_compat_l; [lra|]. apply Rinv_le_contravar; [lra|]. replace 20%R with (20 * 1)%R by lra.
  replace (10 ^ 15)%R with (100 * 10 ^ 13)%R by (cbn; lra). apply Rmult_le_compat; try lra. all: try (apply pow_R1_Rle; lra).
Qed.

Example C39_case :
  let mu r := (2 * hd 0 r + nth 1 r 0)%R in
  aipw_score xreal (funpred mu) (funpred (fun _ => (99 / 100)%R)) (mkAC 1 5 (Fin (1/20))) (mkAipw tt tt true None)
    (dataE (fun x z => (b2r x + z)%R))
  = Ok [Fin (2 + (2 - 3) / (1 - 1/20)); Fin (2 + (1 - 2) / (1 - 1/20)); Fin (2 - (1 - 1) / (1 / 20)); Fin (2 - (0 - 0) / (1 / 20))].
Proof.
  intros mu.
  rewrite (C39_score (funpred mu) (funpred (fun _ => (99/100)%R)) (mkAC 1 5 (Fin (1/20))) (1/20) (mkAipw tt tt true None) _ (popE (fun x z => (b2r x + z)%R)) mu (fun _ => (99/100)%R)).
  - f_equal. unfold popE. cbn [map a_x a_y a_z]. unfold dr_score, rclip, mu, b2r. cbn [hd nth].
    unfold Rmin, Rmax. destruct (Rle_dec (1 / 20) (99 / 100)); [|lra]. destruct (Rle_dec (1 - 1 / 20) (99 / 100)); [|lra].
    repeat (f_equal; [f_equal; first [lra|field]|]); f_equal; f_equal; field.
  - reflexivity.
  - pose proof small_overlap. lra.
  - apply dataE_of.
  - reflexivity.
  - apply funpred_evaluates.
  - apply funpred_evaluates.
Qed.

(** ** C40 *)
Theorem C40_double_robustness :
  forall {M P} (pr : predictor X M) (pp : predictor X P) (cf : aipw_conf X) lo s d pop mu e,
  ac_overlap cf = Fin lo -> (1 / 10 ^ 15 <= lo <= 1 / 2)%R -> population pop ->
  of_population pop (ac_dim cf) d -> aipw_enough s = true ->
  evaluates pr (ap_resp s) (S (ac_dim cf)) mu -> evaluates pp (ap_prop s) (ac_dim cf) e ->
  (forall z x, In z (z_values pop) -> mu (b2r x :: z) = e_y pop x z)
  \/ (forall z, In z (z_values pop) -> e z = propensity pop z /\ (lo <= e z <= 1 - lo)%R) ->
  exists scores, aipw_score xreal pr pp cf s d = Ok (map Fin scores) /\ pop_mean pop scores = ate_backdoor pop.
Proof.
  intros M P pr pp cf lo s d pop mu e Hlo Hl Hpop Hd Hf Hmu He Hor.
  exists (map (fun a => dr_score (fun b => mu (b2r b :: a_z a)) (rclip lo (e (a_z a))) (a_x a) (a_y a)) pop).
  split. { rewrite (C39_score pr pp cf lo s d pop mu e) by assumption. now rewrite map_map. }
  rewrite pop_mean_map. pose proof rtiny_pos as Hp. unfold rtiny in Hp.
  apply (dr_mean pop (fun b z => mu (b2r b :: z)) (fun z => rclip lo (e z)) Hpop).
  - intros z _. pose proof (rclip_range lo (e z) (proj2 Hl)). lra.
  - destruct Hor as [H|H]; [left; auto|right]. intros z Hz. destruct (H z Hz) as [<- G]. now apply rclip_id.
Qed.
Print Assumptions C40_double_robustness.

(** a wrong response model (constantly 7) with the right propensity, and the other way round *)
Example C40_case :
  let f := fun x z => (2 * b2r x + z)%R in
  ate_backdoor (popE f) = 2%R
  /\ (exists scores, aipw_score xreal (funpred (fun _ => 7%R)) (funpred (fun z => (1/4 + hd 0 z / 2)%R)) (mkAC 1 5 (Fin (1/20)))
       (mkAipw tt tt true None) (dataE f) = Ok (map Fin scores) /\ pop_mean (popE f) scores = 2%R)
  /\ (exists scores, aipw_score xreal (funpred (fun r => (2 * hd 0 r + nth 1 r 0)%R)) (funpred (fun z => (9/10)%R)) (mkAC 1 5 (Fin (1/20)))
       (mkAipw tt tt true None) (dataE f) = Ok (map Fin scores) /\ pop_mean (popE f) scores = 2%R).
Proof.
  intros f.
  assert (E : ate_backdoor (popE f) = 2%R).
  { unfold ate_backdoor. rewrite z_values_E. cbn [map rsum]. rewrite pz1, pz0, ey11, ey10, ey01, ey00. unfold f, b2r. lra. }
  pose proof small_overlap as So.
  split; [exact E|]. split.
  - enough (G : forall v, v = ate_backdoor (popE f) -> exists scores, aipw_score xreal (funpred (fun _ => 7%R)) (funpred (fun z => (1/4 + hd 0 z / 2)%R)) (mkAC 1 5 (Fin (1/20))) (mkAipw tt tt true None) (dataE f) = Ok (map Fin scores) /\ pop_mean (popE f) scores = v) by (apply G; now rewrite E).
    intros v ->. apply (C40_double_robustness _ _ _ (1/20) _ _ _ (fun _ => 7%R) (fun z => (1/4 + hd 0 z / 2)%R)); try reflexivity; try apply funpred_evaluates; try lra; try apply popE_population; try apply dataE_of.
    right. intros z Hz. rewrite z_values_E in Hz. destruct Hz as [<-|[<-|[]]]; cbn [hd]; unfold propensity; rewrite ?xz11, ?xz10, ?pz1, ?pz0; lra.
  - enough (G : forall v, v = ate_backdoor (popE f) -> exists scores, aipw_score xreal (funpred (fun r => (2 * hd 0 r + nth 1 r 0)%R)) (funpred (fun z => (9/10)%R)) (mkAC 1 5 (Fin (1/20))) (mkAipw tt tt true None) (dataE f) = Ok (map Fin scores) /\ pop_mean (popE f) scores = v) by (apply G; now rewrite E).
    intros v ->. apply (C40_double_robustness _ _ _ (1/20) _ _ _ (fun r => (2 * hd 0 r + nth 1 r 0)%R) (fun _ => (9/10)%R)); try reflexivity; try apply funpred_evaluates; try lra; try apply popE_population; try apply dataE_of.
    left. intros z x Hz. rewrite z_values_E in Hz. destruct Hz as [<-|[<-|[]]]; destruct x; cbn [hd nth]; rewrite ?ey11, ?ey10, ?ey01, ?ey00; unfold f, b2r; lra.
Qed.

(** ** C41 *)
Theorem C41_unfitted_is_nan :
  forall {N M P} (o : numops N) (pr : predictor N M) (pp : predictor N P) (cf : aipw_conf N) s d x y,
  laws o -> nisnan o (nnan o) = true -> aipw_enough s = false ->
  dexp d = Some (vec x) -> drsp d = Some (vec y) -> length x = n_units d -> length y = n_units d ->
  exists scores, aipw_score o pr pp cf s d = Ok scores /\ length scores = n_units d
    /\ Forall (fun v => nisnan o v = true) scores.
Proof.
  intros N M P o pr pp cf s d x y L Hn Hs Hx Hy Lx Ly. unfold aipw_score, aipw_transform. unfold aipw_enough in Hs. rewrite Hs. cbn [negb bind].
  destruct (aipw_phi_nan o L Hn d x y (n_units d) Hx Hy Lx Ly) as (l & -> & H1 & H2). exists l. repeat split; assumption.
Qed.
Print Assumptions C41_unfitted_is_nan.

Theorem C41_binary64 :
  forall lib {M P} (pr : predictor F M) (pp : predictor F P) (cf : aipw_conf F) s d x y,
  mean_sane lib -> aipw_enough s = false ->
  dexp d = Some (vec x) -> drsp d = Some (vec y) -> length x = n_units d -> length y = n_units d ->
  exists scores, aipw_score (f64 lib) pr pp cf s d = Ok scores /\ length scores = n_units d
    /\ Forall (fun v => fisnan v = true) scores.
Proof. intros lib M P pr pp cf s d x y L. apply (C41_unfitted_is_nan (f64 lib)); [now apply f64_laws|reflexivity]. Qed.
Print Assumptions C41_binary64.

(** set_to_truth is such a case: it does not set the flag *)
Theorem C41_truth_is_nan :
  forall {N M P} (o : numops N) (pr : predictor N M) (pp : predictor N P) (cf : aipw_conf N) resp prop gen d x y,
  laws o -> nisnan o (nnan o) = true ->
  dexp d = Some (vec x) -> drsp d = Some (vec y) -> length x = n_units d -> length y = n_units d ->
  exists scores, aipw_score o pr pp cf (fst (aipw_truth o pr pp cf (aipw_new resp prop) gen)) d = Ok scores /\ length scores = n_units d
    /\ Forall (fun v => nisnan o v = true) scores.
Proof.
  intros N M P o pr pp cf resp prop gen d x y L Hn Hx Hy Lx Ly. eapply C41_unfitted_is_nan; try eassumption.
  unfold aipw_truth, aipw_enough. destruct gen as [g|]; [|reflexivity]. destruct (_ =? _); reflexivity.
Qed.
Print Assumptions C41_truth_is_nan.

(** no covariates at all, two units *)
Example C41_case :
  exists scores, aipw_score xreal (funpred (fun _ => 0%R)) (funpred (fun _ => 0%R)) (mkAC 3 5 (Fin (1/20))) (aipw_new tt tt)
    (mkED None (Some (vec [Fin 1; Fin 0])) (Some (vec [Fin 1; Fin 0])) 2 7) = Ok scores
    /\ length scores = 2 /\ Forall (fun v => nisnan xreal v = true) scores.
Proof.
  apply (C41_unfitted_is_nan xreal _ _ _ _ (mkED None (Some (vec [Fin 1; Fin 0])) (Some (vec [Fin 1; Fin 0])) 2 7) [Fin 1; Fin 0] [Fin 1; Fin 0]); try reflexivity. apply xreal_laws.
Qed.

(** ** C42 *)
Theorem C42_width :
  forall {M P} la (cf : aipw_conf X) (s : aipw X M P) d rows x y sub_g rho delta ov det inv eigenvalues lam,
  let k := ac_dim cf in
  ap_data s = Some d -> dataset d k (map (map Fin) rows) x y ->
  (0 < delta < 1)%R -> (0 < rho)%R -> (0 < sub_g)%R -> ac_overlap cf = Fin ov -> (0 < ov)%R ->
  la_det la (mat k (shifted sub_g rho (gram rows))) = Fin det -> (rho ^ k <= det)%R ->
  la_pow la (Fin rho) k = Fin (rho ^ k) ->
  la_inv la (mat k (shifted 1 (rho / sub_g) (gram rows))) = Ok (mat k inv) ->
  la_eig la (mat k (rprod k (rprod k (gram rows) inv) (gram rows))) = Ok (map Fin eigenvalues) ->
  In lam eigenvalues -> Forall (fun v => (lam <= v)%R) eigenvalues -> (0 < lam)%R ->
  aipw_width xreal la cf s (Fin delta) (Fin sub_g) (Fin rho) = Ok (Fin (width_spec sub_g rho k det lam ov delta)).
Proof. intros. eapply aipw_width_x; eassumption. Qed.
Print Assumptions C42_width.

Theorem C42_nonincreasing :
  forall {M P} la (cf : aipw_conf X) (s : aipw X M P) d rows x y sub_g rho delta delta' ov det inv eigenvalues lam,
  let k := ac_dim cf in
  ap_data s = Some d -> dataset d k (map (map Fin) rows) x y ->
  (0 < delta <= delta')%R -> (delta' < 1)%R -> (0 < rho)%R -> (0 < sub_g)%R -> ac_overlap cf = Fin ov -> (0 < ov <= 1)%R ->
  la_det la (mat k (shifted sub_g rho (gram rows))) = Fin det -> (rho ^ k <= det)%R ->
  la_pow la (Fin rho) k = Fin (rho ^ k) ->
  la_inv la (mat k (shifted 1 (rho / sub_g) (gram rows))) = Ok (mat k inv) ->
  la_eig la (mat k (rprod k (rprod k (gram rows) inv) (gram rows))) = Ok (map Fin eigenvalues) ->
  In lam eigenvalues -> Forall (fun v => (lam <= v)%R) eigenvalues -> (0 < lam)%R ->
  exists w w', aipw_width xreal la cf s (Fin delta) (Fin sub_g) (Fin rho) = Ok (Fin w)
    /\ aipw_width xreal la cf s (Fin delta') (Fin sub_g) (Fin rho) = Ok (Fin w') /\ (0 <= w' <= w)%R.
Proof.
  intros M P la cf s d rows x y sub_g rho delta delta' ov det inv eig lam k Hs Hd Hde Hd1 Hrho Hsg Hov Ho E1 Hdet E2 E3 E4 Hi Hmin Hlam.
  exists (width_spec sub_g rho k det lam ov delta), (width_spec sub_g rho k det lam ov delta').
  split; [eapply C42_width; try eassumption; lra|]. split; [eapply C42_width; try eassumption; lra|].
  assert (Hk : (0 < rho ^ k)%R) by now apply pow_lt. fold k in Hdet.
  assert (Hq : (0 <= 1 / ov - 1)%R).
  { apply Rmult_le_reg_l with ov; [lra|]. replace (ov * (1 / ov - 1))%R with (1 - ov)%R by (field; lra). lra. }
  unfold width_spec. split.
  - apply Rmult_le_pos; [now apply radius_nonneg|exact Hq].
  - apply Rmult_le_compat_r; [exact Hq|]. apply radius_mono; lra.
Qed.
Print Assumptions C42_nonincreasing.

Section C42Case.
  (** linear algebra of 1 by 1 matrices *)
  Let entry (m : list (list X)) : R := real_of (hd XNaN (hd [] m)).
  Let la : linalg X := mkLA X (fun m => Fin (entry m)) (fun m => Ok [[Fin (/ entry m)]]) (fun m => Ok [Fin (entry m)])
                            (fun x n => Fin (real_of x ^ n)).
  Let d : expdata X := mkED (Some (mkArr [1] [[Fin 1]; [Fin 2]])) (Some (vec [Fin 1; Fin 0])) (Some (vec [Fin 1; Fin 0])) 2 1.
  Example C42_case :
    exists w w', aipw_width xreal la (mkAC 1 5 (Fin (1/20))) (mkAipw tt tt true (Some d)) (Fin (1/10)) (Fin 1) (Fin 1) = Ok (Fin w)
      /\ aipw_width xreal la (mkAC 1 5 (Fin (1/20))) (mkAipw tt tt true (Some d)) (Fin (1/5)) (Fin 1) (Fin 1) = Ok (Fin w') /\ (0 <= w' <= w)%R.
  Proof.
    apply (C42_nonincreasing la (mkAC 1 5 (Fin (1/20))) (mkAipw tt tt true (Some d)) d [[1]; [2]]%R [Fin 1; Fin 0] [Fin 1; Fin 0] 1 1 (1/10) (1/5) (1/20) 6
             (fun _ _ => / 6)%R [25/6]%R (25/6)); try lra; try reflexivity.
    - repeat split. repeat constructor.
    - unfold la, entry, mat, shifted, gram. cbn. f_equal. lra.
    - cbn. lra.
    - unfold la, entry, mat, shifted, gram. cbn. do 5 f_equal. lra.
    - unfold la, entry, mat, rprod, gram. cbn. do 3 f_equal. lra.
    - now left.
    - constructor; [lra|constructor].
  Qed.
End C42Case.

(** ** C43 *)
Theorem C43_score :
  forall {M} (pr : predictor X M) (cd : coding X) (cf : fd_conf X) lo px s d us mu tb zs,
  fc_overlap cf = Fin lo -> (0 < lo <= 1 / 2)%R -> (1 <= fc_dim cf)%nat ->
  of_population us (fc_dim cf) d -> fd_fitted s = true -> fd_prob s = Fin px -> (0 < px < 1)%R ->
  evaluates pr (fd_y s) (S (fc_dim cf)) mu -> (forall x z, entry_of (fd_tab s) x z = Fin (tb x z)) ->
  map (zk cd) (t_zs (fd_tab s)) = map (map Fin) zs -> Forall (fun z => length z = fc_dim cf) zs ->
  snd (fd_score xreal pr cd cf s d) =
  Ok (map (fun a =>
        let p b := rclip lo (tb (ki cd b) (kz cd (map Fin (a_z a)))) in
        let first z := kz cd [Fin (hd 0%R z)] in
        Fin (fd_score_spec (a_y a) (mu (b2r (a_x a) :: a_z a)) (p true) (p false)
               (rclip lo (tb (kx cd (bit xreal (a_x a))) (kz cd (map Fin (a_z a)))))
               (f1_spec mu zs (fun z => (tb (ki cd true) (first z) - tb (ki cd false) (first z))%R) (a_x a))
               (f2_spec mu px (a_z a)) (f3_spec mu px zs p) (a_x a) px)) us).
Proof.
  intros M pr cd cf lo px s d us mu tb zs Hlo [Hl1 Hl2] Hk Hd Hf Hpx Hp Hmu Ht Hzs Hlen.
  assert (Hk' : forall a, In a us -> length (a_z a) = fc_dim cf).
  { intros a Ha. destruct Hd as (_ & _ & _ & _ & _ & _ & _ & Hr). rewrite Forall_forall in Hr.
    specialize (Hr (map Fin (a_z a)) (in_map (fun a => map Fin (a_z a)) us a Ha)). now rewrite map_length in Hr. }
  apply (fd_score_x pr cd cf lo px Hlo Hl1 Hl2 Hp a_z a_x a_y us Hk Hk' (fd_y s) mu tb Hmu s d zs Hf eq_refl Hpx); try assumption.
  intros x z. rewrite <- entry_val. apply Ht.
Qed.
Print Assumptions C43_score.

(** ** C44 *)
(** one covariate column: the probabilities of the support values themselves *)
Theorem C44_one_column :
  forall {M} (pr : predictor X M) (cd : coding X) (cf : fd_conf X) lo px s d us mu tb zs,
  fc_overlap cf = Fin lo -> (0 < lo <= 1 / 2)%R -> fc_dim cf = 1 ->
  of_population us 1 d -> fd_fitted s = true -> fd_prob s = Fin px -> (0 < px < 1)%R ->
  evaluates pr (fd_y s) 2 mu -> (forall x z, entry_of (fd_tab s) x z = Fin (tb x z)) ->
  map (zk cd) (t_zs (fd_tab s)) = map (map Fin) zs -> Forall (fun z => length z = 1) zs ->
  snd (fd_score xreal pr cd cf s d) =
  Ok (map (fun a =>
        let q b z := tb (ki cd b) (kz cd (map Fin z)) in
        let p b := rclip lo (q b (a_z a)) in
        Fin (fd_score_spec (a_y a) (mu (b2r (a_x a) :: a_z a)) (p true) (p false)
               (rclip lo (tb (kx cd (bit xreal (a_x a))) (kz cd (map Fin (a_z a)))))
               (f1_spec mu zs (fun z => (q true z - q false z)%R) (a_x a))
               (f2_spec mu px (a_z a)) (f3_spec mu px zs p) (a_x a) px)) us).
Proof.
  intros M pr cd cf lo px s d us mu tb zs Hlo Hl Hk Hd Hf Hpx Hp Hmu Ht Hzs Hlen.
  rewrite (C43_score pr cd cf lo px s d us mu tb zs); rewrite ?Hk; auto.
  f_equal. apply map_ext. intros a. cbv zeta. do 2 f_equal. unfold f1_spec. apply rsum_ext. intros z Hz.
  rewrite Forall_forall in Hlen. specialize (Hlen z Hz). destruct z as [|v [|? ?]]; try discriminate. reflexivity.
Qed.
Print Assumptions C44_one_column.

(** two or more columns: f1 is 0 for every unit, for every parameter that a program can reach.
    Keys have a fixed number w > 0 of bytes per column. *)
Theorem C44_two_or_more_columns :
  forall {M} (pr : predictor X M) (cd : coding X) (ridge : M) (cf : fd_conf X) lo px ratio w s d us mu zs,
  fc_overlap cf = Fin lo -> (0 < lo <= 1 / 2)%R -> fc_ratio cf = Fin ratio -> (2 <= fc_dim cf)%nat ->
  (0 < w)%nat -> (forall r, length (kz cd r) = w * length r)%nat ->
  fd_reached xreal pr cd ridge cf s ->
  of_population us (fc_dim cf) d -> fd_fitted s = true -> fd_prob s = Fin px -> (0 < px < 1)%R ->
  evaluates pr (fd_y s) (S (fc_dim cf)) mu ->
  map (zk cd) (t_zs (fd_tab s)) = map (map Fin) zs -> Forall (fun z => length z = fc_dim cf) zs ->
  snd (fd_score xreal pr cd cf s d) =
  Ok (map (fun a =>
        let q x := real_of (entry_of (fd_tab s) x (kz cd (map Fin (a_z a)))) in
        let p b := rclip lo (q (ki cd b)) in
        Fin (fd_score_spec (a_y a) (mu (b2r (a_x a) :: a_z a)) (p true) (p false)
               (rclip lo (q (kx cd (bit xreal (a_x a))))) 0
               (f2_spec mu px (a_z a)) (f3_spec mu px zs p) (a_x a) px)) us).
Proof.
  intros M pr cd ridge cf lo px ratio w s d us mu zs Hlo Hl Hratio Hk Hw Hkz Hreach Hd Hf Hpx Hp Hmu Hzs Hlen.
  assert (Hfr : fin (fc_ratio cf)) by (exists ratio; exact Hratio).
  rewrite (C43_score pr cd cf lo px s d us mu (fun x z => real_of (entry_of (fd_tab s) x z)) zs); auto; [|lia|].
  2:{ intros x z. eapply reached_entries; eassumption. }
  f_equal. apply map_ext. intros a. cbv zeta. do 2 f_equal. unfold f1_spec.
  rewrite (rsum_ext _ (fun _ => 0%R)); [apply rsum_zero|]. intros z _.
  assert (E : forall x, entry_of (fd_tab s) x (kz cd [Fin (hd 0%R z)]) = Fin 0).
  { intros x. rewrite entry_val, (reached_narrow xreal pr cd ridge cf s w x _ Hreach) by (assumption || lia). apply nint_x. }
  rewrite !E. cbn. lra.
Qed.
Print Assumptions C44_two_or_more_columns.

(** ** C45 *)
Section C45.
  Variable pop : list atom.
  Definition true_f3 (z : list R) : R :=
    rsum (map (fun z' => (e_y pop true z' * p_x pop true * p_z_given pop true z
                          + e_y pop false z' * p_x pop false * p_z_given pop false z)%R) (z_values pop)).
  (** E[f3 | X = b] *)
  Definition mean_f3 (b : bool) : R := rsum (map (fun z => (p_z_given pop b z * true_f3 z)%R) (z_values pop)).
End C45.

(** a parameter in which everything estimated equals the truth *)
Definition fd_truth {M} (pr : predictor X M) (cd : coding X) (s : fdoor X M) (pop : list atom) : Prop :=
  fd_fitted s = true
  /\ (exists mu, evaluates pr (fd_y s) 2 mu /\ forall z x, In z (z_values pop) -> mu (b2r x :: z) = e_y pop x z)
  /\ fd_prob s = Fin (p_x pop true)
  /\ (forall x z, exists r, entry_of (fd_tab s) x z = Fin r)
  /\ (forall b z, In z (z_values pop) -> entry_of (fd_tab s) (ki cd b) (kz cd (map Fin z)) = Fin (p_z_given pop b z))
  /\ (exists zs, map (zk cd) (t_zs (fd_tab s)) = map (map Fin) zs /\ Permutation zs (z_values pop)).

Theorem C45_mean_of_scores :
  forall {M} (pr : predictor X M) (cd : coding X) (cf : fd_conf X) lo s d pop,
  fc_overlap cf = Fin lo -> (0 < lo <= 1 / 2)%R -> fc_dim cf = 1 ->
  population pop -> of_population pop 1 d -> fd_truth pr cd s pop ->
  (forall b z, In z (z_values pop) -> (lo <= p_z_given pop b z <= 1 - lo)%R) ->
  (forall b, kx cd (bit xreal b) = ki cd b) ->
  exists scores, snd (fd_score xreal pr cd cf s d) = Ok (map Fin scores)
    /\ pop_mean pop scores = (2 * ate_frontdoor pop - (mean_f3 pop true - mean_f3 pop false))%R.
Proof.
  intros M pr cd cf lo s d pop Hlo Hl Hk Hpop Hd (Hf & (mu & Hmu & Hey) & Hpx & Hfin & Htab & (zs & Hzs & Hperm)) Hclip Hbit.
  pose proof (p_x_pos pop Hpop true) as P1. pose proof (p_x_pos pop Hpop false) as P0.
  assert (P01 : (p_x pop true + p_x pop false = 1)%R) by (rewrite <- total_x; apply Hpop).
  assert (Hlen : forall z, In z (z_values pop) -> length z = 1).
  { intros z Hz. apply nodup_In in Hz. apply in_map_iff in Hz as (a & <- & Ha). destruct Hd as (_ & _ & _ & _ & _ & _ & _ & Hr). rewrite Forall_forall in Hr.
    specialize (Hr (map Fin (a_z a)) (in_map (fun a => map Fin (a_z a)) pop a Ha)). now rewrite map_length in Hr. }
  set (tb := fun x z => real_of (entry_of (fd_tab s) x z)).
  assert (Ht : forall x z, entry_of (fd_tab s) x z = Fin (tb x z)). { intros x z. unfold tb. destruct (Hfin x z) as [r ->]. reflexivity. }
  assert (Htb : forall b z, In z (z_values pop) -> tb (ki cd b) (kz cd (map Fin z)) = p_z_given pop b z). { intros b z Hz. unfold tb. now rewrite Htab. }
  assert (Hin : forall z, In z zs -> In z (z_values pop)) by (intros z Hz; eapply Permutation_in; eassumption).
  eexists. split.
  { rewrite (C44_one_column pr cd cf lo (p_x pop true) s d pop mu tb zs); auto.
    - rewrite <- (map_map (fun a => _) Fin). reflexivity.
    - lra.
    - apply Forall_forall. auto. }
  cbv zeta. rewrite pop_mean_map.
  assert (G := fd_mean pop (true_f3 pop) Hpop). cbv zeta in G. unfold mean_f3. rewrite <- G. clear G.
  assert (Hz : forall a, In a pop -> In (a_z a) (z_values pop)). { intros a Ha. apply nodup_In. now apply in_map. }
  apply rsum_ext. intros a Ha. specialize (Hz a Ha). f_equal.
  rewrite Hbit, !Htb, !rclip_id by auto. rewrite Hey by assumption. f_equal.
  - unfold f1_spec. transitivity (rsum (map (fun z' => (e_y pop (a_x a) z' * (p_z_given pop true z' - p_z_given pop false z'))%R) zs)).
    + apply rsum_ext. intros z Hin'. rewrite !Htb, Hey by auto. reflexivity.
    + apply rsum_perm, Permutation_map, Hperm.
  - unfold f2_spec. change (1 :: a_z a)%R with (b2r true :: a_z a). change (0 :: a_z a)%R with (b2r false :: a_z a). rewrite !Hey by assumption.
    replace (1 - p_x pop true)%R with (p_x pop false) by lra. reflexivity.
  - unfold f3_spec, true_f3. replace (1 - p_x pop true)%R with (p_x pop false) by lra.
    rewrite <- (rsum_perm _ _ (Permutation_map (fun z' => (e_y pop true z' * p_x pop true * p_z_given pop true (a_z a)
                          + e_y pop false z' * p_x pop false * p_z_given pop false (a_z a))%R) Hperm)).
    apply rsum_ext. intros z Hin'. change (1 :: z)%R with (b2r true :: z). change (0 :: z)%R with (b2r false :: z).
    rewrite !Htb, !rclip_id, !Hey by auto. reflexivity.
Qed.
Print Assumptions C45_mean_of_scores.

(** *** a population without a direct effect: the effect is 1/2, the mean score is 1 *)
Open Scope R_scope.
Definition is_one (x : X) : nat := match x with Fin r => if Req_EM_T r 1 then 1%nat else 0%nat | _ => 0%nat end.
Definition codeE : coding X :=
  mkCoding X (fun x => [is_one x]) (fun b => [if b then 1%nat else 0%nat]) (map is_one)
           (map (fun n => Fin (if (n =? 1)%nat then 1 else 0))).
Definition tabE : tab X :=
  mkTab 4 [([1%nat], [([1%nat], Fin (3/4)); ([0%nat], Fin (1/4))]); ([0%nat], [([1%nat], Fin (1/4)); ([0%nat], Fin (3/4))])]
        [] [[1%nat]; [0%nat]] [[1%nat]; [0%nat]] (Fin 20) None.
Definition fdE : fdoor X unit := mkFd tt tabE (Fin (1/2)) true None.
Definition fcE : fd_conf X := mkFC 1 1 (Fin (1/20)) (Fin 20).
Definition onlyz : bool -> R -> R := fun _ z => z.

Lemma is_one_1 : is_one (Fin 1) = 1%nat.
Proof. unfold is_one. destruct (Req_EM_T 1 1); [reflexivity|lra]. Qed.
Lemma is_one_0 : is_one (Fin 0) = 0%nat.
Proof. unfold is_one. destruct (Req_EM_T 0 1); [lra|reflexivity]. Qed.
Lemma given_E b z : In z (z_values (popE onlyz)) ->
  p_z_given (popE onlyz) b z = if Bool.eqb b (if z_eq z [1] then true else false) then 3/4 else 1/4.
Proof.
  intros Hz. rewrite z_values_E in Hz. unfold p_z_given. destruct Hz as [<-|[<-|[]]].
  - destruct (z_eq [1] [1]) as [_|E]; [|now elim E]. destruct b; cbn [Bool.eqb]; rewrite ?xz11, ?xz01, ?px1, ?px0; lra.
  - destruct (z_eq [0] [1]) as [E|_]; [elim (ne01 E)|]. destruct b; cbn [Bool.eqb]; rewrite ?xz10, ?xz00, ?px1, ?px0; lra.
Qed.
Lemma fdE_truth : fd_truth (funpred (fun r => nth 1 r 0)) codeE fdE (popE onlyz).
Proof.
  split; [reflexivity|]. split.
  { exists (fun r => nth 1 r 0). split; [apply funpred_evaluates|]. intros z x Hz. rewrite z_values_E in Hz.
    destruct Hz as [<-|[<-|[]]]; destruct x; cbn [nth b2r]; rewrite ?ey11, ?ey10, ?ey01, ?ey00; reflexivity. }
  split; [now rewrite px1|]. split.
  { intros x z. unfold entry_of, fdE, tabE. cbn [fd_tab t_table dget]. destruct (key_eq x [1%nat]); [|destruct (key_eq x [0%nat])]; cbn [dget];
      repeat match goal with |- context [key_eq ?a ?b] => destruct (key_eq a b); cbn [dget] end; eexists; reflexivity. }
  split.
  { intros b z Hz. rewrite given_E by assumption. rewrite z_values_E in Hz. destruct Hz as [<-|[<-|[]]].
    - cbn [map codeE kz ki]. rewrite is_one_1. destruct (z_eq [1] [1]) as [_|E]; [|now elim E]. destruct b; reflexivity.
    - cbn [map codeE kz ki]. rewrite is_one_0. destruct (z_eq [0] [1]) as [E|_]; [elim (ne01 E)|]. destruct b; reflexivity. }
  exists [[1]; [0]]. split; [reflexivity|]. now rewrite z_values_E.
Qed.
Close Scope R_scope.

Theorem C45_refuted :
  exists (M : Type) (pr : predictor X M) cd cf s d pop scores,
  population pop /\ of_population pop 1 d /\ fd_truth pr cd s pop
  /\ snd (fd_score xreal pr cd cf s d) = Ok (map Fin scores)
  /\ ate_frontdoor pop = (1 / 2)%R /\ pop_mean pop scores = 1%R.
Proof.
  exists unit, (funpred (fun r => nth 1 r 0%R)), codeE, fcE, fdE, (dataE onlyz), (popE onlyz).
  destruct (C45_mean_of_scores (funpred (fun r => nth 1 r 0%R)) codeE fcE (1/20) fdE (dataE onlyz) (popE onlyz)) as (scores & E1 & E2).
  - reflexivity.
  - lra.
  - reflexivity.
  - apply popE_population.
  - apply dataE_of.
  - apply fdE_truth.
  - intros b z Hz. rewrite given_E by assumption. destruct (Bool.eqb _ _); lra.
  - intros b. rewrite bit_x. destruct b; cbn [codeE kx ki b2r]; [now rewrite is_one_1|now rewrite is_one_0].
  - assert (I1 : In [1%R] (z_values (popE onlyz))) by (rewrite z_values_E; now left).
    assert (I0 : In [0%R] (z_values (popE onlyz))) by (rewrite z_values_E; right; now left).
    assert (G1 : forall b, p_z_given (popE onlyz) b [1%R] = if b then (3/4)%R else (1/4)%R).
    { intros b. rewrite given_E by assumption. destruct (z_eq [1%R] [1%R]) as [_|E]; [|now elim E]. now destruct b. }
    assert (G0 : forall b, p_z_given (popE onlyz) b [0%R] = if b then (1/4)%R else (3/4)%R).
    { intros b. rewrite given_E by assumption. destruct (z_eq [0%R] [1%R]) as [E|_]; [elim (ne01 E)|]. now destruct b. }
    assert (A : ate_frontdoor (popE onlyz) = (1/2)%R).
    { unfold ate_frontdoor. rewrite z_values_E. cbn [map rsum]. rewrite !G1, !G0, ey11, ey10, ey01, ey00, px1, px0. unfold onlyz. lra. }
    exists scores. repeat split; try assumption; try apply dataE_of; try apply popE_population; try apply fdE_truth.
    rewrite E2, A. unfold mean_f3, true_f3. rewrite z_values_E. cbn [map rsum]. rewrite !G1, !G0, ey11, ey10, ey01, ey00, px1, px0. unfold onlyz. lra.
Qed.
Print Assumptions C45_refuted.

(** C43 and C44 in the same situation *)
Example C43_C44_case :
  exists tb, snd (fd_score xreal (funpred (fun r => nth 1 r 0%R)) codeE fcE fdE (dataE onlyz)) =
  Ok (map (fun a =>
        let q b z := tb (ki codeE b) (kz codeE (map Fin z)) in
        let p b := rclip (1/20) (q b (a_z a)) in
        Fin (fd_score_spec (a_y a) (nth 0 (a_z a) 0%R) (p true) (p false)
               (rclip (1/20) (tb (kx codeE (bit xreal (a_x a))) (kz codeE (map Fin (a_z a)))))
               (f1_spec (fun r => nth 1 r 0%R) [[1%R]; [0%R]] (fun z => (q true z - q false z)%R) (a_x a))
               (f2_spec (fun r => nth 1 r 0%R) (1/2) (a_z a)) (f3_spec (fun r => nth 1 r 0%R) (1/2) [[1%R]; [0%R]] p) (a_x a) (1/2))) (popE onlyz)).
Proof.
  exists (fun x z => real_of (entry_of tabE x z)).
  apply (C44_one_column (funpred (fun r => nth 1 r 0%R)) codeE fcE (1/20) (1/2) fdE (dataE onlyz) (popE onlyz) (fun r => nth 1 r 0%R)
    (fun x z => real_of (entry_of tabE x z)) [[1%R]; [0%R]]); try reflexivity; try lra.
  - apply dataE_of.
  - apply funpred_evaluates.
  - intros x z. destruct fdE_truth as (_ & _ & _ & H & _). destruct (H x z) as [r E]. cbn [fd_tab fdE] in *. now rewrite E.
  - repeat constructor.
Qed.

(** two columns: a parameter fitted on four units *)
Section C44Case.
  Let us : list atom := [mkAtom 1 [1; 0]%R true 1; mkAtom 1 [0; 0]%R true 0; mkAtom 1 [1; 1]%R false 1; mkAtom 1 [0; 0]%R false 0].
  Let d : expdata X := mkED (Some (mkArr [2] (map (fun a => map Fin (a_z a)) us))) (Some (vec (bits xreal (map a_x us))))
    (Some (vec (map (fun a => Fin (a_y a)) us))) 4 2.
  Let cf : fd_conf X := mkFC 2 1 (Fin (1/20)) (Fin 20).
  Let pr := funpred (fun r => nth 1 r 0%R).
  Example C44_case : exists s, fd_reached xreal pr codeE tt cf s /\ fd_fitted s = true /\ fd_prob s = Fin (1/2)
    /\ map (zk codeE) (t_zs (fd_tab s)) = map (map Fin) [[1; 0]; [0; 0]; [1; 1]]%R
    /\ snd (fd_score xreal pr codeE cf s d) =
       Ok (map (fun a =>
        let q x := real_of (entry_of (fd_tab s) x (kz codeE (map Fin (a_z a)))) in
        let p b := rclip (1/20) (q (ki codeE b)) in
        Fin (fd_score_spec (a_y a) (nth 0 (a_z a) 0%R) (p true) (p false)
               (rclip (1/20) (q (kx codeE (bit xreal (a_x a))))) 0
               (f2_spec (fun r => nth 1 r 0%R) (1/2) (a_z a)) (f3_spec (fun r => nth 1 r 0%R) (1/2) [[1; 0]; [0; 0]; [1; 1]]%R p) (a_x a) (1/2))) us).
  Proof.
    assert (Hd : of_population us 2 d) by (repeat split; repeat constructor).
    destruct (fd_first_fit pr codeE cf tt d (map (fun a => map Fin (a_z a)) us) (map a_x us) (map (fun a => Fin (a_y a)) us) 20) as (s & E & H1 & H2 & H3 & H4);
      try reflexivity; try lra; try discriminate; try exact Hd.
    { split; cbn; lia. }
    assert (Hr : fd_reached xreal pr codeE tt cf s).
    { change s with (fst (s, @None exn)). rewrite <- E. eapply fr_fit; [apply fr_new|exact Hd]. }
    assert (H3' : fd_prob s = Fin (1/2)).
    { rewrite H3. replace (nmean xreal (bits xreal (map a_x us))) with (Fin (1/2)).
      - cbn [fc_overlap cf]. rewrite nclip_x by lra. f_equal. apply rclip_id. lra.
      - unfold us, bits, bit. cbn [map a_x nmean xreal]. rewrite !nint_x. unfold xmean.
        cbn [xsum length INR fold_right xadd]. rewrite xdiv_fin by lra. f_equal. lra. }
    assert (H4' : map (zk codeE) (t_zs (fd_tab s)) = map (map Fin) [[1; 0]; [0; 0]; [1; 1]]%R).
    { rewrite H4. unfold us. cbn [map a_z codeE kz]. rewrite is_one_1, is_one_0. reflexivity. }
    exists s. repeat split; try assumption.
    apply (C44_two_or_more_columns pr codeE tt cf (1/20) (1/2) 20 1 s d us (fun r => nth 1 r 0%R) [[1; 0]; [0; 0]; [1; 1]]%R); try assumption; try reflexivity; try lra.
    - lia.
    - intros r. cbn [codeE kz]. rewrite map_length. lia.
    - rewrite H2. apply funpred_evaluates.
    - repeat constructor.
  Qed.
End C44Case.

(** ** C46 *)
Definition lr_unit : Type := (list R * R * R)%type.
Definition u_row (u : lr_unit) : list R := snd (fst u) :: fst (fst u).
(** (D'Y)_j *)
Definition dty (us : list lr_unit) (j : nat) : R := rsum (map (fun u => (nth j (u_row u) 0 * snd u)%R) us).
Definition lr_dataset (us : list lr_unit) (dim : nat) (d : expdata X) : Prop :=
  dataset d dim (map (fun u => map Fin (fst (fst u))) us) (map (fun u => Fin (snd (fst u))) us) (map (fun u => Fin (snd u)) us).

Theorem C46_mean_score :
  forall la dim l_reg us d s inv,
  lr_dataset us dim d -> us <> [] ->
  la_inv la (mat (S dim) (shifted 1 l_reg (gram (map u_row us)))) = Ok (mat (S dim) inv) ->
  exists scores, lr_score xreal dim (fst (lr_fit xreal la dim (Fin l_reg) s d)) d = Ok (map Fin scores)
    /\ snd (lr_fit xreal la dim (Fin l_reg) s d) = None
    /\ (rsum scores / INR (length us) = rsum (map (fun j => inv 0%nat j * dty us j) (seq 0 (S dim))))%R.
Proof.
  intros la dim l_reg us d s inv Hd Hne Hi.
  rewrite (lr_fit_x la dim l_reg (fun u : lr_unit => fst (fst u)) (fun u => snd (fst u)) (fun u => snd u) us d Hd s inv Hne Hi). cbn [fst snd].
  set (g := fun i j => (inv i j * INR (length us))%R).
  exists (map (fun u => rsum (map (fun j => (g 0%nat j * (nth j (u_row u) 0 * snd u))%R) (seq 0 (S dim)))) us). split; [|split; [reflexivity|]].
  - rewrite (lr_score_x dim (fun u : lr_unit => fst (fst u)) (fun u => snd (fst u)) (fun u => snd u) us d Hd _ g) by reflexivity. now rewrite map_map.
  - assert (Hn : INR (length us) <> 0%R) by (apply not_0_INR; destruct us; [congruence|discriminate]).
    rewrite (rsum_swap (fun u j => (g 0%nat j * (nth j (u_row u) 0 * snd u))%R) us (seq 0 (S dim))).
    unfold Rdiv. rewrite Rmult_comm, <- rsum_scale. apply rsum_ext. intros j _. rewrite rsum_scale. fold (dty us j). unfold g. field. exact Hn.
Qed.
Print Assumptions C46_mean_score.

(** with a true inverse: the first coefficient of the solution of (D'D + l I) beta = D'Y *)
Theorem C46_exposure_coefficient :
  forall la dim l_reg us d s inv,
  lr_dataset us dim d -> us <> [] ->
  let a := shifted 1 l_reg (gram (map u_row us)) in
  la_inv la (mat (S dim) a) = Ok (mat (S dim) inv) ->
  (forall i j, i < S dim -> j < S dim -> rprod (S dim) a inv i j = if i =? j then 1%R else 0%R) ->
  exists scores beta, lr_score xreal dim (fst (lr_fit xreal la dim (Fin l_reg) s d)) d = Ok (map Fin scores)
    /\ (rsum scores / INR (length us) = beta 0%nat)%R
    /\ forall i, i < S dim -> rsum (map (fun j => (a i j * beta j)%R) (seq 0 (S dim))) = dty us i.
Proof.
  intros la dim l_reg us d s inv Hd Hne a Hi Hinv.
  destruct (C46_mean_score la dim l_reg us d s inv Hd Hne Hi) as (scores & E1 & _ & E2).
  exists scores, (fun i => rsum (map (fun j => (inv i j * dty us j)%R) (seq 0 (S dim)))). split; [exact E1|]. split; [exact E2|].
  intros i Hi'. rewrite (rsum_ext _ (fun j => rsum (map (fun j' => (a i j * inv j j' * dty us j')%R) (seq 0 (S dim))))).
  2:{ intros j _. rewrite <- rsum_scale. apply rsum_ext. intros; lra. }
  rewrite (rsum_swap (fun j j' => (a i j * inv j j' * dty us j')%R) (seq 0 (S dim)) (seq 0 (S dim))).
  rewrite (rsum_ext _ (fun j' => (dty us j' * (if j' =? i then 1 else 0))%R)).
  - now apply one_index.
  - intros j' Hj'. apply in_seq in Hj'. specialize (Hinv i j' Hi' ltac:(lia)). unfold rprod in Hinv. rewrite Nat.eqb_sym, <- Hinv.
    rewrite <- rsum_scale. apply rsum_ext. intros; lra.
Qed.
Print Assumptions C46_exposure_coefficient.

(** no covariates, exposures 1 and 2, responses 3 and 5, no regularisation: the coefficient is 13/5 *)
Section C46Case.
  Let la : linalg X := mkLA X (fun _ => XNaN) (fun m => Ok [[Fin (/ real_of (hd XNaN (hd [] m)))]]) (fun _ => Ok []) (fun x _ => x).
  Let us : list lr_unit := [([], 1, 3); ([], 2, 5)]%R.
  Let d : expdata X := mkED (Some (mkArr [0] [[]; []])) (Some (vec [Fin 1; Fin 2])) (Some (vec [Fin 3; Fin 5])) 2 0.
  Example C46_case : exists scores,
    lr_score xreal 0 (fst (lr_fit xreal la 0 (Fin 0) (lr_new xreal 0) d)) d = Ok (map Fin scores) /\ (rsum scores / 2 = 13 / 5)%R.
  Proof.
    destruct (C46_mean_score la 0 0 us d (lr_new xreal 0) (fun _ _ => / 5)%R) as (scores & E1 & _ & E2).
    - repeat split. repeat constructor.
    - discriminate.
    - unfold la, us, mat, shifted, gram, u_row. cbn. do 5 f_equal. lra.
    - exists scores. split; [exact E1|]. cbn [length INR us] in E2. replace (1 + 1)%R with 2%R in E2 by lra. rewrite E2. unfold dty, us, u_row. cbn. lra.
  Qed.
End C46Case.

(** ** C47 *)
Theorem C47_reset_changes_nothing :
  forall {N G} (o : numops N) la dim l_reg (a : arm N N (linreg N)),
  ar_eta (arm_reset (lr_ops (G := G) o la dim l_reg) a) = ar_eta a
  /\ e_enough (lr_ops (G := G) o la dim l_reg) (ar_eta (arm_reset (lr_ops (G := G) o la dim l_reg) a))
     = e_enough (lr_ops (G := G) o la dim l_reg) (ar_eta a)
  /\ forall d, lr_score o dim (ar_eta (arm_reset (lr_ops (G := G) o la dim l_reg) a)) d = lr_score o dim (ar_eta a) d.
Proof. intros. repeat split. Qed.
Print Assumptions C47_reset_changes_nothing.

(** a batch without units: the fresh arm returns (0, inf), the arm that was fitted and reset raises *)
Theorem C47_reset_arm_differs :
  forall {N G} (o : numops N) la dim l_reg vnone (w : arm_world N G) tr opts (a : arm N N (linreg N)) d t delta g,
  fair_perm w -> valid_delta o delta = true -> tr d = Ok t -> dataset t dim [] [] [] -> nisnan o (nmean o []) = true ->
  e_enough (lr_ops (G := G) o la dim l_reg) (ar_eta a) = true ->
  snd (ss_update o vnone (lr_ops o la dim l_reg) w tr opts (arm_new o (lr_new o dim)) d delta g) = Ok (nint o 0, ninf o)
  /\ exists e, snd (ss_update o vnone (lr_ops o la dim l_reg) w tr opts (arm_reset (lr_ops (G := G) o la dim l_reg) a) d delta g) = Err e.
Proof.
  intros N G o la dim l_reg vnone w tr opts a d t delta g Hw Hd Ht He Hn Ha. rewrite (empty_data dim t He) in Ht. split.
  - now apply lr_empty_fresh.
  - now apply lr_empty_reset.
Qed.
Print Assumptions C47_reset_arm_differs.

(** the next successful fit on at least one unit forgets the old state *)
Theorem C47_refit_forgets :
  forall {N} (o : numops N) la dim l_reg s s' d,
  1 <= n_units d -> snd (lr_fit o la dim l_reg s d) = None -> lr_fit o la dim l_reg s' d = lr_fit o la dim l_reg s d.
Proof. intros. now apply lr_refit. Qed.
Print Assumptions C47_refit_forgets.

Section C47Case.
  Let la : linalg X := mkLA X (fun _ => XNaN) (fun m => Ok m) (fun _ => Ok []) (fun x _ => x).
  Let w : arm_world X unit := mkArmWorld X unit (fun g l => (l, g)) (fun g _ => ([], g)) (fun x _ => x) (fun x => x).
  Let d : expdata X := mkED (Some (mkArr [0] [[]; []])) (Some (vec [Fin 1; Fin 2])) (Some (vec [Fin 3; Fin 5])) 2 0.
  Let part (x y : R) : expdata X := mkED (Some (mkArr [0] [[]])) (Some (vec [Fin x])) (Some (vec [Fin y])) 1 0.
  Let e : expdata X := mkED (Some (mkArr [0] [])) (Some (vec [])) (Some (vec [])) 0 0.
  Let ops := lr_ops (G := unit) xreal la 0 (Fin 0).
  Let arm1 := fst (fst (ss_update xreal XNaN ops w Ok (ss_default xreal) (arm_new xreal (lr_new xreal 0)) d (Fin (1/2)) tt)).
  Example C47_case :
    e_enough ops (ar_eta arm1) = true
    /\ snd (ss_update xreal XNaN ops w Ok (ss_default xreal) (arm_new xreal (lr_new xreal 0)) e (Fin (1/2)) tt) = Ok (Fin 0, PInf)
    /\ exists x, snd (ss_update xreal XNaN ops w Ok (ss_default xreal) (arm_reset ops arm1) e (Fin (1/2)) tt) = Err x.
  Proof.
    assert (Hv : valid_delta xreal (Fin (1/2)) = true).
    { unfold valid_delta. rewrite !nint_x. cbn [nltb xreal xltb]. destruct (Rlt_dec 0 (1/2)); [|lra]. destruct (Rlt_dec (1/2) 1); [reflexivity|lra]. }
    assert (Ha : e_enough ops (ar_eta arm1) = true).
    { unfold arm1, ss_update, absorb. unfold valid_delta in Hv. rewrite Hv. cbn [negb].
      replace (split_new w Ok d tt) with (Ok [part 1 3; part 2 5], tt) by reflexivity.
      cbn [arm_new ar_split set_split ar_eta fold nth_error e_fit ops lr_ops].
      rewrite (lr_fit_x la 0 0 (fun u : lr_unit => fst (fst u)) (fun u => snd (fst u)) (fun u => snd u) [([], 1, 3)]%R (part 1 3)
                 ltac:(repeat split; repeat constructor) (lr_new xreal 0) (fun _ _ => 1)%R ltac:(discriminate)).
      2:{ unfold la, mat, shifted, gram. cbn. do 4 f_equal. lra. }
      cbn [fst snd]. cbn [e_enough ops lr_ops lr_fitted negb].
      unfold score1. cbn [fold ar_split set_eta nth_error e_score ops lr_ops ar_eta].
      repeat match goal with
      | |- context [if ?b then _ else _] => destruct b; try reflexivity
      | |- context [match ?b with Ok _ => _ | Err _ => _ end] => destruct b; try reflexivity
      end. }
    split; [exact Ha|].
    replace (Fin 0) with (nint xreal 0) by apply nint_x.
    apply (C47_reset_arm_differs xreal la 0 (Fin 0) XNaN w Ok (ss_default xreal) arm1 e e (Fin (1/2)) tt); try assumption.
    - intros g l. apply Permutation_refl.
    - reflexivity.
    - repeat split. constructor.
    - cbn. destruct (Req_EM_T 0 0); [|lra]. unfold xsigned. destruct (Rlt_dec 0 0); [lra|reflexivity].
  Qed.
End C47Case.

(** ** C48 *)
Theorem C48_never_estimates :
  forall {N M G} (o : numops N) (pr : predictor N M) ridge dim vnone (w : arm_world N G) tr opts a g h,
  Forall (fun r => r = Ok (nint o 0, ninf o) \/ exists e, r = Err e)
    (snd (feed (ss_update o vnone (lpbt_ops o pr ridge dim) w tr opts) a g h)).
Proof.
  intros N M G o pr ridge dim vnone w tr opts a g h. revert a g. induction h as [|[d delta] h IH]; intros a g; cbn [feed]; [constructor|].
  pose proof (lpbt_update o pr ridge dim vnone w tr opts a d delta g) as H.
  destruct (ss_update o vnone (lpbt_ops o pr ridge dim) w tr opts a d delta g) as [[a1 g1] r].
  specialize (IH a1 g1). destruct (feed _ a1 g1 h) as [[a2 g2] rs]. cbn in *. constructor; assumption.
Qed.
Print Assumptions C48_never_estimates.

(** the two models are fitted on the units with exposure 1 and on all the others *)
Theorem C48_fits_the_two_groups :
  forall {N M} (o : numops N) (pr : predictor N M) dim s d rows x y,
  dataset d dim rows x y ->
  let t := map (fun v => neqb o v (nint o 1)) x in
  (forall m, snd (pr_fit pr m (mkArr [dim] (pick t rows)) (pick t y)) = None) ->
  (forall m, snd (pr_fit pr m (mkArr [dim] (pick (map negb t) rows)) (pick (map negb t) y)) = None) ->
  lpbt_fit o pr dim s d =
  (mkLpbt (fst (pr_fit pr (lp_treat s) (mkArr [dim] (pick t rows)) (pick t y)))
          (fst (pr_fit pr (lp_cont s) (mkArr [dim] (pick (map negb t) rows)) (pick (map negb t) y))) true (Some d), None).
Proof.
  intros N M o pr dim s d rows x y Hd t H1 H2. rewrite (lpbt_fit_dataset o pr dim s d rows x y Hd). fold t.
  specialize (H1 (lp_treat s)). specialize (H2 (lp_cont s)).
  destruct (pr_fit pr (lp_treat s) _ _) as [m e]. cbn in H1. subst e. destruct (pr_fit pr (lp_cont s) _ _) as [m' e]. cbn in H2. now subst e.
Qed.
Print Assumptions C48_fits_the_two_groups.

(** estimators reject empty training data; so a missing group raises *)
Theorem C48_missing_group_raises :
  forall {N M} (o : numops N) (pr : predictor N M) dim s d rows x y,
  dataset d dim rows x y -> (forall m, snd (pr_fit pr m (mkArr [dim] []) []) <> None) ->
  Forall (fun v => neqb o v (nint o 1) = false) x \/ Forall (fun v => neqb o v (nint o 1) = true) x ->
  snd (lpbt_fit o pr dim s d) <> None /\ lp_fit (fst (lpbt_fit o pr dim s d)) = lp_fit s.
Proof.
  intros N M o pr dim s d rows x y Hd Hrej Hg. rewrite (lpbt_fit_dataset o pr dim s d rows x y Hd).
  set (t := map (fun v => neqb o v (nint o 1)) x). destruct Hg as [Hg|Hg].
  - assert (Ht : Forall (fun b => b = false) t). { apply Forall_map. exact Hg. }
    rewrite !(pick_none t) by assumption. specialize (Hrej (lp_treat s)). destruct (pr_fit pr (lp_treat s) _ _) as [m [e|]]; [|now elim Hrej].
    cbn. split; [discriminate|reflexivity].
  - assert (Ht : Forall (fun b => b = false) (map negb t)). { apply Forall_map, Forall_map. eapply Forall_impl; [|exact Hg]. intros v Hv. cbn. now rewrite Hv. }
    destruct (pr_fit pr (lp_treat s) _ _) as [m [e|]]; [cbn; split; [discriminate|reflexivity]|].
    rewrite !(pick_none (map negb t)) by assumption. specialize (Hrej (lp_cont s)). destruct (pr_fit pr (lp_cont s) _ _) as [m' [e|]]; [|now elim Hrej].
    cbn. split; [discriminate|reflexivity].
Qed.
Print Assumptions C48_missing_group_raises.

Section C48Case.
  (** an estimator that counts its training units and rejects empty data *)
  Let pr : predictor X nat := mkPred (fun m a _ => match arows a with [] => (m, Some ValueError) | l => (length l, None) end)
    (fun m a => Ok (map (fun _ => Fin (INR m)) (arows a))) (fun m => m) (fun m _ => m) (fun m _ => m).
  Let d (x : list X) : expdata X := mkED (Some (mkArr [1] (map (fun _ => [Fin 0]) x))) (Some (vec x)) (Some (vec x)) (length x) 1.
  Example C48_case :
    lpbt_fit xreal pr 1 (lpbt_new 0) (d [Fin 1; Fin 0; Fin 1]) = (mkLpbt 2 1 true (Some (d [Fin 1; Fin 0; Fin 1])), None)
    /\ snd (lpbt_fit xreal pr 1 (lpbt_new 0) (d [Fin 0; Fin 0])) <> None.
  Proof.
    assert (E1 : neqb xreal (Fin 1) (nint xreal 1) = true) by (rewrite nint_x; cbn; destruct (Req_EM_T 1 1); [reflexivity|lra]).
    assert (E0 : neqb xreal (Fin 0) (nint xreal 1) = false) by (rewrite nint_x; cbn; destruct (Req_EM_T 0 1); [lra|reflexivity]).
    assert (Hd : forall x, dataset (d x) 1 (map (fun _ => [Fin 0]) x) x x).
    { intros x. unfold dataset, d. cbn [dcov dexp drsp n_units n_features]. rewrite map_length. repeat split.
      apply Forall_forall. intros r Hr. apply in_map_iff in Hr as (? & <- & _). reflexivity. }
    split.
    - rewrite (C48_fits_the_two_groups xreal pr 1 (lpbt_new 0) _ _ _ _ (Hd [Fin 1; Fin 0; Fin 1])); cbn [map]; rewrite E1, E0; [reflexivity|intros m; reflexivity|intros m; reflexivity].
    - apply (C48_missing_group_raises xreal pr 1 (lpbt_new 0) _ _ _ _ (Hd [Fin 0; Fin 0])).
      + intros m. discriminate.
      + left. repeat constructor; exact E0.
  Qed.
End C48Case.
