(** Reachable front-door tables; arms over the regression parameters. *)
From Coq Require Import List Arith ZArith Bool Lia Permutation.
From Verif Require Import PyBase PyLemmas Num NumOps DataModel ScmModel TabModel TabSpec TabProofs TabProofs2 ArmModel ArmSpec ParamModel ParamSpec ParamProofs ParamProofs2 ParamProofs4.
Import ListNotations.
Open Scope nat_scope.

(** ** fits of AIPW over a history *)
Section History.
  Context {N M P : Type} (o : numops N) (pr : predictor N M) (pp : predictor N P) (cf : aipw_conf N) (B : Z).
  Hypothesis Hc : counting o B.

  Lemma aipw_fit_binary s d rows bs y : dataset d (ac_dim cf) rows (bits o bs) y ->
    (Z.of_nat (length bs) + Z.abs (ac_min cf) <= B)%Z ->
    (large_enough (ac_min cf) bs -> trainable pr pp (ac_dim cf) rows (bits o bs) y ->
     aipw_fit o pr pp cf s d =
     (mkAipw (fst (pr_fit pr (ap_resp s) (with_exposure (bits o bs) (ac_dim cf) rows) y))
             (fst (pr_fit pp (ap_prop s) (mkArr [ac_dim cf] rows) (bits o bs))) true (Some d), None))
    /\ (~ large_enough (ac_min cf) bs ->
        aipw_fit o pr pp cf s d = (mkAipw (ap_resp s) (ap_prop s) (ap_fit s) (Some d), None)).
  Proof.
    intros Hd HB. rewrite (aipw_fit_dataset o pr pp cf s d rows (bits o bs) y Hd).
    assert (El : length rows = length bs). { destruct Hd as (_ & _ & _ & _ & _ & L & _). unfold bits in L. rewrite map_length in L. now rewrite L. }
    rewrite El. pose proof (too_few_bits o B (ac_min cf) bs Hc HB) as T. split.
    - intros HL [Ht1 Ht2]. apply T in HL. rewrite HL.
      specialize (Ht1 (ap_resp s)). specialize (Ht2 (ap_prop s)).
      destruct (pr_fit pr _ _ _) as [m e]. cbn in Ht1. subst e. destruct (pr_fit pp _ _ _) as [p e]. cbn in Ht2. now subst e.
    - intros HL. destruct (too_few _ _ _ _); [reflexivity|]. exfalso. apply HL, T. reflexivity.
  Qed.

  Lemma aipw_history (h : list (expdata N * list bool)) : forall s,
    Forall (fun q => binary_batch o pr pp (ac_dim cf) (ac_min cf) B (fst q) (snd q)) h ->
    ap_fit (fits (aipw_fit o pr pp cf) s (map fst h)) = true
    <-> ap_fit s = true \/ Exists (fun q => large_enough (ac_min cf) (snd q)) h.
  Proof.
    induction h as [|[d bs] h IH]; intros s Hh.
    - cbn. split; [tauto|]. intros [H|H]; [exact H|inversion H].
    - inversion Hh as [|? ? (rows & y & Hd & HB & Ht) Hh']; subst. cbn [fst snd map] in *.
      destruct (aipw_fit_binary s d rows bs y Hd HB) as [F1 F2]. cbn [fits fold_left]. unfold fits in IH. rewrite IH by assumption.
      destruct (large_dec (ac_min cf) bs) as [HL|HL].
      + rewrite (F1 HL (Ht HL)). cbn. split; [intros _; right; now left|tauto].
      + rewrite (F2 HL). cbn. rewrite Exists_cons. cbn. tauto.
  Qed.

  Lemma large_prefix m bs rest : large_enough m bs -> large_enough m (bs ++ rest).
  Proof. unfold large_enough, treated, control. rewrite !count_occ_app. lia. Qed.
End History.

(** ** the table of a reachable front-door parameter *)
Section Reach.
  Context {N M : Type} (o : numops N) (pr : predictor N M) (cd : coding N) (ridge : M) (cf : fd_conf N).
  Definition full_keys (t : tab N) : Prop :=
    only_known o t /\ forall z, In z (t_zs t) -> exists r, length r = fc_dim cf /\ z = kz cd r.

  Lemma full_predict t xs zs : full_keys t -> full_keys (fst (tab_predict o t xs zs)).
  Proof.
    intros [H1 H2]. split; [now apply only_known_predict|].
    destruct (predict_fields o xs zs t _ eq_refl) as (_ & E & _). now rewrite E.
  Qed.
  Lemma full_predict' t xs zs t' v : tab_predict o t xs zs = (t', v) -> full_keys t -> full_keys t'.
  Proof. intros E H. change t' with (fst (t', v)). rewrite <- E. now apply full_predict. Qed.
  Lemma full_step m p x n p1 p0 z t f1 f3 : full_keys t -> full_keys (fst (support_step o pr cd m p x n p1 p0 z t f1 f3)).
  Proof.
    intros H. unfold support_step. destruct (do a <- _; _); [|exact H].
    destruct (tab_predict o t _ _) as [t1 a1] eqn:E1. destruct (tab_predict o t1 _ _) as [t2 a0] eqn:E2. cbn [fst].
    eapply full_predict'; [exact E2|]. eapply full_predict'; [exact E1|exact H].
  Qed.
  Lemma full_loop m p x n p1 p0 zs : forall t f1 f3, full_keys t -> full_keys (fst (support_loop o pr cd m p x n p1 p0 zs t f1 f3)).
  Proof.
    induction zs as [|z zs IH]; intros t f1 f3 H; [exact H|]. cbn [support_loop].
    pose proof (full_step m p x n p1 p0 (zk cd z) t f1 f3 H) as G. destruct (support_step _ _ _ _ _ _ _ _ _ _ _ _ _) as [t' [[a b]|e]]; [|exact G].
    apply IH, G.
  Qed.
  Lemma full_score s d : full_keys (fd_tab s) -> full_keys (fd_tab (fst (fd_score o pr cd cf s d))).
  Proof.
    intros H. unfold fd_score.
    assert (G : full_keys (fd_tab (fst (fd_transform o pr cd cf s d)))).
    { unfold fd_transform. destruct (negb _); [exact H|]. destruct (negb _); [exact H|]. cbv zeta.
      destruct (do x <- vec_of (dexp d); _) as [[[x mu] c]|]; [|exact H].
      destruct (tab_predict o (fd_tab s) _ _) as [t1 q1] eqn:E1. destruct (tab_predict o t1 _ _) as [t2 q0] eqn:E2. destruct (tab_predict o t2 _ _) as [t3 q] eqn:E3.
      assert (H3 : full_keys t3). { eapply full_predict'; [exact E3|]. eapply full_predict'; [exact E2|]. eapply full_predict'; [exact E1|exact H]. }
      destruct (do a1 <- with_cov _ d; _); [|exact H3].
      match goal with |- context [support_loop ?a ?b ?c ?e ?f ?g ?h ?i ?j ?k ?l ?m ?n] =>
        pose proof (full_loop e f g h i j k l m n H3) as G; destruct (support_loop a b c e f g h i j k l m n) as [t4 [[f1 f3]|]] end; exact G. }
    destruct (fd_transform o pr cd cf s d) as [s' [eta|e]]; exact G.
  Qed.
  Lemma full_fit s d rows x y : full_keys (fd_tab s) -> dataset d (fc_dim cf) rows x y ->
    full_keys (fd_tab (fst (fd_fit o pr cd cf s d))).
  Proof.
    intros H (Hcv & Hx & Hy & Hn & Hf & Lx & Ly & Hr). unfold fd_fit. destruct (negb _); [exact H|]. cbv zeta.
    rewrite Hx, vec_of_vec. destruct (too_few _ _ _ _); [exact H|]. rewrite (with_cov_ok d _ _ _ Hcv Lx), Hy, vec_of_vec, Hcv. cbn [bind arr_of arows].
    destruct (pr_fit pr _ _ _) as [m [e|]]; [exact H|]. cbn [fd_tab].
    destruct (tab_fit o (fd_tab s) (map (kx cd) x) (map (kz cd) rows)) as [t e] eqn:E.
    assert (G : full_keys t).
    { destruct H as [H1 H2]. split; [eapply only_known_fit; eassumption|].
      destruct (fit_fields o _ _ _ _ _ E) as (_ & F & _). rewrite !map_length in F. destruct (F Lx) as [_ ->]. intros z Hz.
      apply remember_all_in in Hz as [Hz|Hz]; [|now apply H2]. apply in_map_iff in Hz as (r & <- & Hin). exists r. split; [|reflexivity].
      rewrite Forall_forall in Hr. now apply Hr. }
    destruct e; exact G.
  Qed.
  Lemma reached_full s : fd_reached o pr cd ridge cf s -> full_keys (fd_tab s).
  Proof.
    induction 1 as [|s d rows x y _ IH Hd|s d _ IH|s _ IH].
    - split; [intros x z _; reflexivity|intros z []].
    - eapply full_fit; eassumption.
    - now apply full_score.
    - split; [intros x z _; reflexivity|intros z []].
  Qed.
  Lemma reached_narrow s w x v : fd_reached o pr cd ridge cf s -> 1 < fc_dim cf -> 0 < w -> (forall r, length (kz cd r) = w * length r) ->
    val o (fd_tab s) x (kz cd [v]) = nint o 0.
  Proof.
    intros H Hd Hw Hl. destruct (reached_full s H) as [H1 H2]. apply H1. intros Hin. apply H2 in Hin as (r & Hr & E).
    apply (f_equal (@length nat)) in E. rewrite !Hl, Hr in E. cbn in E. nia.
  Qed.
End Reach.

(** ** arms over the parameters without has_enough_samples or reset *)
Section LpbtArm.
  Context {N M G : Type} (o : numops N) (pr : predictor N M) (ridge : M) (dim : nat) (vnone : N) (w : arm_world N G)
    (tr : expdata N -> res (expdata N)) (opts : ss_opts N).

  Lemma lpbt_update a d delta g :
    snd (ss_update o vnone (lpbt_ops o pr ridge dim) w tr opts a d delta g) = Ok (nint o 0, ninf o)
    \/ exists e, snd (ss_update o vnone (lpbt_ops o pr ridge dim) w tr opts a d delta g) = Err e.
  Proof.
    unfold ss_update. destruct (absorb _ _ _ _ _ _ _ _ _) as [[a1 g1] [e|]]; [right; eexists; reflexivity|].
    destruct (fold a1 0) as [f0|e]; [|right; eexists; reflexivity].
    destruct (e_fit _ _ _ _) as [[h g2] [e|]]; [right; eexists; reflexivity|]. left. reflexivity.
  Qed.

  Lemma groups_split : forall rows x y px py, length px = length py -> length x = length rows -> length y = length rows ->
    let t := map (fun v => neqb o v (nint o 1)) x in
    split_groups o rows (vec (px ++ x)) (vec (py ++ y)) (length px)
    = Ok ((pick t rows, pick t y), (pick (map negb t) rows, pick (map negb t) y)).
  Proof.
    induction rows as [|r rows IH]; intros [|v x] [|l y] px py Hp Hx Hy; cbn zeta; try discriminate; [reflexivity|].
    cbn [split_groups]. unfold aitem, vec. cbn [arows atail]. rewrite !nth_error_map.
    rewrite (nth_error_app2 px), (nth_error_app2 py), Nat.sub_diag, Hp, Nat.sub_diag by lia. cbn [nth_error option_map bind i_data].
    specialize (IH x y (px ++ [v]) (py ++ [l])). cbn zeta in IH. rewrite !app_length in IH. cbn [length] in IH. rewrite <- !app_assoc in IH. cbn [app] in IH.
    rewrite Hp, Nat.add_1_r in IH. unfold vec in IH. rewrite IH; [|lia|cbn in Hx; lia|cbn in Hy; lia]. cbn [bind map].
    destruct (neqb o v (nint o 1)); cbn [negb pick map combine filter fst snd]; reflexivity.
  Qed.
  Lemma lpbt_fit_dataset s d rows x y : dataset d dim rows x y ->
    let t := map (fun v => neqb o v (nint o 1)) x in
    lpbt_fit o pr dim s d =
    match pr_fit pr (lp_treat s) (mkArr [dim] (pick t rows)) (pick t y) with
    | (m, Some e) => (mkLpbt m (lp_cont s) (lp_fit s) (Some d), Some e)
    | (m, None) =>
        match pr_fit pr (lp_cont s) (mkArr [dim] (pick (map negb t) rows)) (pick (map negb t) y) with
        | (m', Some e) => (mkLpbt m m' (lp_fit s) (Some d), Some e)
        | (m', None) => (mkLpbt m m' true (Some d), None)
        end
    end.
  Proof.
    intros (Hc & Hx & Hy & Hn & Hf & Lx & Ly & Hr) t. unfold lpbt_fit. rewrite Hf, Nat.eqb_refl, Hc, Hx, Hy. cbn [negb arows atail].
    pose proof (groups_split rows x y [] [] eq_refl Lx Ly) as E. cbn [app length] in E.
    assert (E' : match rows with [] => Ok ([], [], ([], [])) | _ :: _ => split_groups o rows (vec x) (vec y) 0 end
      = Ok ((pick t rows, pick t y), (pick (map negb t) rows, pick (map negb t) y))).
    { destruct rows; [|exact E]. destruct x; [|discriminate]. destruct y; [|discriminate]. reflexivity. }
    rewrite E'. reflexivity.
  Qed.
  Lemma pick_none {A} (bs : list bool) (l : list A) : Forall (fun b => b = false) bs -> pick bs l = [].
  Proof. intros H. revert l. induction H as [|b bs -> _ IH]; intros [|a l]; cbn; try reflexivity. apply IH. Qed.
End LpbtArm.

Section LrArm.
  Context {N G : Type} (o : numops N) (la : linalg N) (dim : nat) (l_reg : N) (vnone : N) (w : arm_world N G)
    (tr : expdata N -> res (expdata N)) (opts : ss_opts N).
  Let E0 : expdata N := mkED (Some (mkArr [dim] [])) (Some (vec [])) (Some (vec [])) 0 dim.
  Lemma empty_data t : dataset t dim [] [] [] -> t = E0.
  Proof.
    intros (Hc & Hx & Hy & Hn & Hf & _). destruct t as [c e y n f]. cbn in *. subst. reflexivity.
  Qed.
  Lemma k_fold_empty perm : (perm [] = []) -> k_fold perm E0 2 = Ok [E0; E0].
  Proof. intros H. unfold k_fold. cbn. rewrite H. reflexivity. Qed.
  Lemma split_new_empty d g : fair_perm w -> tr d = Ok E0 -> exists g1, split_new w tr d g = (Ok [E0; E0], g1).
  Proof.
    intros Hw Ht. unfold split_new. rewrite Ht. eexists. f_equal. apply k_fold_empty.
    apply Permutation_nil, Permutation_sym, Hw.
  Qed.
  Lemma lr_score_empty s : exists r, lr_score o dim s E0 = r /\ (r = Ok [] \/ exists e, r = Err e).
  Proof.
    eexists. split; [reflexivity|]. unfold lr_score. destruct (design E0) as [a|e]; [|right; eexists; reflexivity].
    cbn [bind drsp E0]. unfold vec_of, vec at 1. cbn [map arows atail mapM bind].
    destruct (matrix_of (S dim) a) as [x|e]; [|right; eexists; reflexivity]. cbn [bind].
    destruct x as [|x0 x]; [|right; eexists; reflexivity]. 
    destruct (lr_model s) as [|r0 l0]; [right; eexists; reflexivity|left; reflexivity].
  Qed.
  Lemma lr_empty_fresh d delta g : fair_perm w -> valid_delta o delta = true -> tr d = Ok E0 ->
    snd (ss_update o vnone (lr_ops o la dim l_reg) w tr opts (arm_new o (lr_new o dim)) d delta g) = Ok (nint o 0, ninf o).
  Proof.
    intros Hw Hd Ht. unfold ss_update, absorb, valid_delta in *. rewrite Hd. cbn [negb].
    destruct (split_new_empty d g Hw Ht) as [g1 ->]. cbn [ar_split arm_new]. reflexivity.
  Qed.
  Lemma lr_empty_reset a d delta g : fair_perm w -> valid_delta o delta = true -> tr d = Ok E0 -> nisnan o (nmean o []) = true ->
    lr_fitted (ar_eta a) = true ->
    exists e, snd (ss_update o vnone (lr_ops o la dim l_reg) w tr opts (arm_reset (lr_ops (G := G) o la dim l_reg) a) d delta g) = Err e.
  Proof.
    intros Hw Hd Ht Hn Ha. unfold ss_update, absorb, valid_delta in *. rewrite Hd. cbn [negb].
    destruct (split_new_empty d g Hw Ht) as [g1 ->].
    set (eo := lr_ops (G := G) o la dim l_reg). destruct a as [ci h at' v pu sp de]. cbn [ar_eta] in Ha.
    destruct (so_stable opts); cbn -[lr_score].
    all: rewrite Ha; cbn -[lr_score]; unfold score1; cbn -[lr_score].
    all: destruct (lr_score_empty h) as (r & Er & [->|[e ->]]); rewrite Er; cbn -[lr_score]; [|eexists; reflexivity].
    all: rewrite ?Er; cbn -[lr_score]; rewrite Hn; eexists; reflexivity.
  Qed.
  Lemma lr_refit s s' d : 1 <= n_units d -> snd (lr_fit o la dim l_reg s d) = None ->
    lr_fit o la dim l_reg s' d = lr_fit o la dim l_reg s d.
  Proof.
    intros Hn. unfold lr_fit. destruct (Nat.ltb_spec (n_units d) 1); [lia|]. destruct (do a <- design d; _); [reflexivity|discriminate].
  Qed.
End LrArm.
