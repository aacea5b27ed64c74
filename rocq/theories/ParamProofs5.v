(** Matrices in exact arithmetic, confidence widths, the linear-regression parameter. *)
From Coq Require Import List Arith ZArith Reals Bool Lia Lra.
From Verif Require Import PyBase PyLemmas Num NumOps NumLaws DataModel ScmModel TabModel TabSpec TabReal ArmModel ParamModel ParamSpec ParamProofs ParamProofs2 ParamProofs3.
Import ListNotations.
Open Scope R_scope.

Lemma nth_map_in {A B} (f : A -> B) l i da db : (i < length l)%nat -> nth i (map f l) db = f (nth i l da).
Proof. intros H. rewrite (nth_indep _ db (f da)) by now rewrite map_length. apply map_nth. Qed.
Lemma nsum_x (l : list R) : nsum xreal (map Fin l) = Fin (rsum l).
Proof.
  unfold nsum. rewrite nint_x. replace (rsum l) with (0 + rsum l) by lra. generalize 0 as a.
  induction l as [|b l IH]; intros a; cbn [map fold_left rsum]; [f_equal; lra|].
  change (nadd xreal (Fin a) (Fin b)) with (Fin (a + b)). rewrite IH. f_equal. lra.
Qed.
Lemma dot_x {T} (f g : T -> R) l :
  nsum xreal (map2 (nmul xreal) (map (fun t => Fin (f t)) l) (map (fun t => Fin (g t)) l)) = Fin (rsum (map (fun t => f t * g t) l)).
Proof. rewrite map2_diag. rewrite <- nsum_x, map_map. reflexivity. Qed.

Section K.
  Variable k : nat.
  Lemma seq_in i : In i (seq 0 k) -> (i < k)%nat.
  Proof. rewrite in_seq. lia. Qed.
  (** columns of a list of rows *)
  Lemma mT_rows {T} (f : T -> list R) (us : list T) n : (forall u, In u us -> length (f u) = n) -> (k <= n)%nat ->
    mT xreal k (map (fun u => map Fin (f u)) us) = map (fun j => map (fun u => Fin (nth j (f u) 0)) us) (seq 0 k).
  Proof.
    intros Hl Hk. unfold mT. apply map_ext_in. intros j Hj. apply seq_in in Hj. rewrite map_map. apply map_ext_in. intros u Hu.
    apply nth_map_in. rewrite Hl by assumption. lia.
  Qed.
  Lemma mT_mat f : mT xreal k (mat k f) = map (fun j => map (fun i => Fin (f i j)) (seq 0 k)) (seq 0 k).
  Proof.
    unfold mT, mat. apply map_ext_in. intros j Hj. apply seq_in in Hj. rewrite map_map. apply map_ext. intros i.
    rewrite (nth_map_in _ _ _ 0%nat) by now rewrite seq_length. rewrite seq_nth by assumption. reflexivity.
  Qed.
  Lemma mdot_mat f g : mdot xreal k (mat k f) (mat k g) = mat k (rprod k f g).
  Proof.
    unfold mdot. rewrite mT_mat. unfold mat at 1. rewrite map_map. apply map_ext. intros i. rewrite map_map. apply map_ext. intros j.
    apply dot_x.
  Qed.
  Lemma gram_x {T} (f : T -> list R) (us : list T) : (forall u, In u us -> length (f u) = k) ->
    mdot xreal k (mT xreal k (map (fun u => map Fin (f u)) us)) (map (fun u => map Fin (f u)) us) = mat k (gram (map f us)).
  Proof.
    intros Hl. unfold mdot. rewrite (mT_rows f us k Hl (le_n k)). rewrite map_map. apply map_ext. intros i. rewrite map_map. apply map_ext. intros j.
    rewrite dot_x. unfold gram. now rewrite map_map.
  Qed.
  Lemma shift_x c r f : madd xreal (mscale xreal (Fin c) (mat k f)) (mscale xreal (Fin r) (identity xreal k)) = mat k (shifted c r f).
  Proof.
    unfold madd, mscale, mat, identity. rewrite !map_map. rewrite map2_diag. apply map_ext. intros i. rewrite !map_map, map2_diag. apply map_ext.
    intros j. unfold shifted. destruct (i =? j)%nat; rewrite nint_x; cbn; f_equal; lra.
  Qed.
  Lemma shift_x1 r f : madd xreal (mat k f) (mscale xreal (Fin r) (identity xreal k)) = mat k (shifted 1 r f).
  Proof.
    unfold madd, mscale, mat, identity. rewrite !map_map. rewrite map2_diag. apply map_ext. intros i. rewrite !map_map, map2_diag. apply map_ext.
    intros j. unfold shifted. destruct (i =? j)%nat; rewrite nint_x; cbn; f_equal; lra.
  Qed.
End K.

(** ** the radius *)
Lemma ln_quot det rho d delta : 0 < rho -> 0 < delta -> 0 < det ->
  ln (det / (rho ^ d * delta ^ 2)) = ln det - ln (rho ^ d * delta ^ 2).
Proof.
  intros Hr Hd Hdet. assert (0 < rho ^ d * delta ^ 2) by (apply Rmult_lt_0_compat; apply pow_lt; assumption).
  unfold Rdiv. rewrite ln_mult, ln_Rinv; [lra|assumption|assumption|]. now apply Rinv_0_lt_compat.
Qed.

Lemma mu_radius_x la k v sub_g rho delta det g w lam : 0 < delta < 1 -> 0 < rho -> 0 < sub_g -> rho ^ k <= det -> 0 < lam ->
  la_det la (mat k (shifted sub_g rho v)) = Fin det -> la_pow la (Fin rho) k = Fin (rho ^ k) ->
  la_inv la (mat k (shifted 1 (rho / sub_g) v)) = Ok (mat k g) ->
  la_eig la (mat k (rprod k (rprod k v g) v)) = Ok w -> py_min xltb w = Ok (Fin lam) ->
  mu_radius xreal la k (mat k v) (Fin delta) (Fin sub_g) (Fin rho) = Ok (Some (Fin (radius_spec sub_g rho k det lam delta)))
  /\ 0 < sub_g * ln (det / (rho ^ k * delta ^ 2)).
Proof.
  intros Hd Hr Hs Hdet Hlam E1 E2 E3 E4 E5. assert (Hrk : 0 < rho ^ k) by now apply pow_lt.
  assert (Hd2 : 0 < delta ^ 2 < 1). { split; [apply pow_lt; lra|]. replace 1 with (1 * 1) by lra. cbn. rewrite Rmult_1_r. apply Rmult_le_0_lt_compat; lra. }
  assert (Hlt : rho ^ k * delta ^ 2 < det). { apply Rlt_le_trans with (rho ^ k * 1); [apply Rmult_lt_compat_l|]; lra. }
  assert (Hp : 0 < rho ^ k * delta ^ 2) by (apply Rmult_lt_0_compat; lra).
  assert (Hln : ln (rho ^ k * delta ^ 2) < ln det) by now apply ln_increasing.
  assert (Hpos : 0 < sub_g * ln (det / (rho ^ k * delta ^ 2))). { rewrite ln_quot by lra. apply Rmult_lt_0_compat; lra. }
  split; [|exact Hpos]. unfold mu_radius. rewrite shift_x, E1, E2. unfold nsq. cbn [nmul xreal xmul].
  replace (rho ^ k * (delta * delta)) with (rho ^ k * delta ^ 2) by (cbn; lra).
  cbn [nlog xreal xlog]. destruct (Rlt_dec 0 det); [|lra]. destruct (Rlt_dec 0 (rho ^ k * delta ^ 2)); [|lra]. cbn [xmul nleb xreal].
  destruct (xleb (Fin (sub_g * ln det)) (Fin (sub_g * ln (rho ^ k * delta ^ 2)))) eqn:El.
  { apply xleb_fin in El. apply Rmult_le_reg_l in El; lra. }
  unfold py_div. rewrite nint_x. cbn [neqb xreal xeqb]. destruct (Req_EM_T sub_g 0); [lra|]. cbn [bind ndiv xreal]. rewrite xdiv_fin by lra.
  rewrite shift_x1, E3. cbn [bind]. rewrite !mdot_mat, E4. cbn [bind nltb xreal]. rewrite E5. cbn [bind]. do 2 f_equal.
  cbn [nsub xreal xsub xneg xadd nsqrt xsqrt]. rewrite ln_quot in Hpos by lra.
  destruct (Rlt_dec (sub_g * ln det + - (sub_g * ln (rho ^ k * delta ^ 2))) 0); [lra|]. destruct (Rlt_dec lam 0); [lra|].
  rewrite xdiv_fin. 2:{ apply Rgt_not_eq, sqrt_lt_R0. lra. }
  unfold radius_spec. rewrite ln_quot by lra. do 3 f_equal. lra.
Qed.

Lemma radius_nonneg sub_g rho d det lam delta : 0 < lam -> 0 <= radius_spec sub_g rho d det lam delta.
Proof.
  intros H. unfold radius_spec. apply Rmult_le_pos; [apply sqrt_pos|]. left. apply Rinv_0_lt_compat, sqrt_lt_R0, H.
Qed.
Lemma radius_mono sub_g rho d det lam delta delta' : 0 < sub_g -> 0 < rho -> 0 < det -> 0 < lam -> 0 < delta <= delta' ->
  radius_spec sub_g rho d det lam delta' <= radius_spec sub_g rho d det lam delta.
Proof.
  intros Hs Hr Hd Hl He. unfold radius_spec. apply Rmult_le_compat_r; [left; apply Rinv_0_lt_compat, sqrt_lt_R0, Hl|].
  apply sqrt_le_1_alt. apply Rmult_le_compat_l; [lra|]. rewrite !ln_quot by lra.
  assert (0 < rho ^ d) by now apply pow_lt.
  assert (0 < delta ^ 2) by (apply pow_lt; lra).
  assert (delta ^ 2 <= delta' ^ 2) by (apply pow_incr; lra).
  assert (ln (rho ^ d * delta ^ 2) <= ln (rho ^ d * delta' ^ 2)); [|lra].
  destruct (Req_dec (delta ^ 2) (delta' ^ 2)) as [E|E]; [rewrite E; lra|]. left. apply ln_increasing; [now apply Rmult_lt_0_compat|].
  apply Rmult_lt_compat_l; lra.
Qed.

(** ** the linear-regression parameter *)
Section LR.
  Context (la : linalg X) (dim : nat) (l_reg : R).
  Context {T : Type} (tz : T -> list R) (tx ty : T -> R) (us : list T).
  Let k := S dim.
  Definition rdesign (u : T) : list R := tx u :: tz u.
  Variable d : expdata X.
  Hypothesis Hd : dataset d dim (map (fun u => map Fin (tz u)) us) (map (fun u => Fin (tx u)) us) (map (fun u => Fin (ty u)) us).

  Lemma lr_len u : In u us -> length (rdesign u) = k.
  Proof.
    intros Hu. destruct Hd as (_ & _ & _ & _ & _ & _ & _ & Hr). rewrite Forall_forall in Hr.
    specialize (Hr (map Fin (tz u)) (in_map (fun u => map Fin (tz u)) us u Hu)). rewrite map_length in Hr. cbn. now rewrite Hr.
  Qed.
  Lemma lr_design : design d = Ok (mkArr [k] (map (fun u => map Fin (rdesign u)) us)).
  Proof.
    destruct Hd as (Hc & Hx & Hy & Hn & Hf & Lx & Ly & Hr). unfold design. rewrite Hx, vec_of_vec. cbn [bind].
    rewrite (with_cov_ok d dim _ _ Hc Lx). unfold with_exposure. now rewrite map2_diag.
  Qed.
  Lemma lr_fit_x s g : us <> [] ->
    la_inv la (mat k (shifted 1 l_reg (gram (map rdesign us)))) = Ok (mat k g) ->
    lr_fit xreal la dim (Fin l_reg) s d = (mkLr (mat k (fun i j => g i j * INR (length us))) true (Some d), None).
  Proof.
    intros Hne Hi. unfold lr_fit. destruct Hd as (_ & _ & _ & Hn & _). rewrite map_length in Hn. rewrite Hn.
    destruct us as [|u0 us0] eqn:E; [congruence|]. rewrite <- E in *. replace (length us <? 1)%nat with false by (rewrite E; reflexivity).
    fold k. rewrite lr_design. cbn [bind]. unfold matrix_of. cbn [atail arows]. rewrite Nat.eqb_refl. cbn [bind].
    rewrite (gram_x k rdesign us lr_len), shift_x1, Hi. do 2 f_equal. unfold mat. rewrite map_map. apply map_ext. intros i. rewrite map_map. apply map_ext. intros j.
    rewrite nnat_x. reflexivity.
  Qed.
  Lemma diag_x : diag xreal (map (fun u => Fin (ty u)) us)
    = map (fun i => map (fun j => Fin (if (i =? j)%nat then nth i (map ty us) 0 else 0)) (seq 0 (length us))) (seq 0 (length us)).
  Proof.
    unfold diag. rewrite map_length. apply map_ext_in. intros i Hi. apply in_seq in Hi. apply map_ext. intros j. rewrite nint_x.
    destruct (i =? j)%nat; [|reflexivity]. rewrite <- (map_map ty Fin). apply nth_map_in. rewrite map_length. lia.
  Qed.
  Lemma one_index (f : nat -> R) n j : (j < n)%nat -> rsum (map (fun i => f i * (if (i =? j)%nat then 1 else 0)) (seq 0 n)) = f j.
  Proof.
    intros H. replace n with (j + (1 + (n - j - 1)))%nat by lia. rewrite seq_app, map_app, rsum_app. cbn [seq Nat.add map rsum]. rewrite Nat.eqb_refl.
    rewrite (rsum_ext _ (fun _ => 0) (seq 0 j)). 2:{ intros i Hi. apply in_seq in Hi. destruct (Nat.eqb_spec i j); [lia|lra]. }
    rewrite (rsum_ext _ (fun _ => 0) (seq (S j) _)). 2:{ intros i Hi. apply in_seq in Hi. destruct (Nat.eqb_spec i j); [lia|lra]. }
    rewrite !rsum_zero. lra.
  Qed.
  Lemma lr_score_x s g : lr_model s = mat k g ->
    lr_score xreal dim s d = Ok (map (fun u => Fin (rsum (map (fun j => g 0%nat j * (nth j (rdesign u) 0 * ty u)) (seq 0 k)))) us).
  Proof.
    intros Hm. destruct Hd as (Hc & Hx & Hy & Hn & Hf & Lx & Ly & Hr). unfold lr_score. rewrite lr_design. cbn [bind].
    rewrite Hy, vec_of_vec. cbn [bind]. unfold matrix_of. cbn [atail arows]. fold k. rewrite Nat.eqb_refl. cbn [bind].
    rewrite !map_length, Nat.eqb_refl. cbn [negb]. rewrite Hm.
    assert (E : mdot xreal (length us) (mT xreal k (map (fun u => map Fin (rdesign u)) us)) (diag xreal (map (fun u => Fin (ty u)) us))
      = map (fun j => map (fun u => Fin (nth j (rdesign u) 0 * ty u)) us) (seq 0 k)).
    { rewrite (mT_rows k rdesign us k lr_len (le_n k)). unfold mdot. rewrite map_map. apply map_ext. intros j. rewrite diag_x.
      unfold mT. rewrite map_map. destruct us as [|u0 us0] eqn:Eu; [reflexivity|]. rewrite <- Eu in *. clear Eu.
      apply nth_ext with (d := Fin 0) (d' := Fin 0); [now rewrite !map_length, seq_length|].
      intros i Hi. rewrite map_length, seq_length in Hi. rewrite (nth_map_in _ _ _ 0%nat) by now rewrite seq_length. rewrite seq_nth by assumption. cbn [Nat.add].
      rewrite map_map. rewrite (nth_map_in _ _ _ u0) by assumption.
      replace (map (fun u => Fin (nth j (rdesign u) 0)) us) with (map (fun a => Fin (nth j (rdesign (nth a us u0)) 0)) (seq 0 (length us))).
      2:{ clear. rewrite <- (map_map (fun a => nth a us u0) (fun u => Fin (nth j (rdesign u) 0))). f_equal.
          pose proof (seq_nth_map (fun u : T => u) us u0) as G. rewrite map_id in G. exact G. }
      rewrite (map_ext_in (fun a => nth i (map (fun b => Fin (if (a =? b)%nat then nth a (map ty us) 0 else 0)) (seq 0 (length us))) (nint xreal 0)) (fun a => Fin (if (a =? i)%nat then nth a (map ty us) 0 else 0))).
      2:{ intros a Ha. cbv beta. rewrite (nth_map_in _ _ _ 0%nat) by now rewrite seq_length. now rewrite seq_nth. }
      rewrite dot_x. f_equal.
      rewrite (rsum_ext _ (fun a => (nth j (rdesign (nth a us u0)) 0 * nth a (map ty us) 0) * (if (a =? i)%nat then 1 else 0))).
      2:{ intros a _. destruct (a =? i)%nat; lra. }
      rewrite one_index by assumption. f_equal. apply nth_map_in. assumption. }
    rewrite E. unfold k at 1. unfold mat. cbn [seq map]. unfold mdot. cbn [map]. f_equal.
    change (Fin (g 0%nat 0%nat) :: map (fun j => Fin (g 0%nat j)) (seq 1 dim)) with (map (fun j => Fin (g 0%nat j)) (seq 0 k)).
    change (map (fun u => Fin (nth 0 (rdesign u) 0 * ty u)) us :: map (fun j => map (fun u => Fin (nth j (rdesign u) 0 * ty u)) us) (seq 1 dim))
      with (map (fun j => map (fun u => Fin (nth j (rdesign u) 0 * ty u)) us) (seq 0 k)).
    unfold mT. rewrite map_map. destruct us as [|u0 us0] eqn:Eu; [reflexivity|]. rewrite <- Eu in *. clear Eu.
    apply nth_ext with (d := Fin 0) (d' := Fin 0); [now rewrite !map_length, seq_length|].
    intros i Hi. rewrite map_length, seq_length in Hi. rewrite (nth_map_in _ _ _ 0%nat) by now rewrite seq_length. rewrite seq_nth by assumption. cbn [Nat.add].
    rewrite (nth_map_in _ _ _ u0) by assumption. rewrite map_map.
    rewrite (map_ext (fun j => nth i (map (fun u => Fin (nth j (rdesign u) 0 * ty u)) us) (nint xreal 0)) (fun j => Fin (nth j (rdesign (nth i us u0)) 0 * ty (nth i us u0)))).
    2:{ intros j. rewrite (nth_map_in _ _ _ u0) by assumption. reflexivity. }
    apply dot_x.
  Qed.
End LR.
