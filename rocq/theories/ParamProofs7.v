(** Exact arithmetic: tables of reachable front-door parameters hold real numbers; widths. *)
From Coq Require Import List Arith ZArith Reals Bool Lia Lra Permutation.
From Verif Require Import PyBase PyLemmas Num NumOps NumLaws DataModel ScmModel TabModel TabSpec TabProofs TabProofs2 TabReal ArmModel ParamModel ParamSpec ParamProofs ParamProofs2 ParamProofs3 ParamProofs4 ParamProofs5 ParamProofs6.
Import ListNotations.
Open Scope R_scope.

Definition fin (x : X) : Prop := exists r, x = Fin r.
Lemma fin_add a b : fin a -> fin b -> fin (nadd xreal a b).
Proof. intros [x ->] [y ->]. eexists. reflexivity. Qed.
Lemma fin_sub a b : fin a -> fin b -> fin (nsub xreal a b).
Proof. intros [x ->] [y ->]. eexists. reflexivity. Qed.
Lemma fin_nint z : fin (nint xreal z).
Proof. rewrite nint_x. eexists. reflexivity. Qed.
Lemma fin_nnat n : fin (nnat xreal n).
Proof. rewrite nnat_x. eexists. reflexivity. Qed.
Lemma fin_div a b v : fin a -> fin b -> py_div xreal a b = Ok v -> fin v.
Proof.
  intros [x ->] [y ->]. unfold py_div. rewrite nint_x. cbn [neqb xreal xeqb]. destruct (Req_EM_T y 0); [discriminate|].
  intros E. assert (Hv : v = xdiv (Fin x) (Fin y)) by (change (Ok (xdiv (Fin x) (Fin y)) = Ok v) in E; congruence).
  rewrite Hv, xdiv_fin by assumption. eexists. reflexivity.
Qed.
#[local] Hint Resolve fin_add fin_sub fin_nint fin_nnat : fin.

Section Fin.
  Definition fin_row (r : dict X) : Prop := forall z, fin (cell xreal r z).
  Definition fin_table (t : dict (dict X)) : Prop := forall x, fin_row (row_of t x) /\ fin (row_sum xreal (row_of t x)).
  Definition fin_cells (t : dict (dict X)) : Prop := forall x, fin_row (row_of t x).

  Lemma fin_dset r z v : fin_row r -> fin v -> fin_row (dset r z v).
  Proof. intros Hr Hv z'. rewrite cell_dset. destruct (key_eq z' z); [exact Hv|apply Hr]. Qed.
  Definition all_fin (r : dict X) : Prop := Forall (fun q => fin (snd q)) r.
  Lemma all_dset r z v : all_fin r -> fin v -> all_fin (dset r z v).
  Proof.
    intros Hr Hv. induction Hr as [|[k w] r Hw Hr IH]; cbn; [repeat constructor; exact Hv|].
    destruct (key_eq z k); constructor; auto.
  Qed.
  Lemma all_cell r z : all_fin r -> fin (cell xreal r z).
  Proof.
    intros Hr. unfold cell. induction Hr as [|[k w] r Hw Hr IH]; cbn [dget]; [apply fin_nint|]. destruct (key_eq z k); [exact Hw|exact IH].
  Qed.
  Lemma all_sum r : all_fin r -> fin (row_sum xreal r).
  Proof.
    intros Hr. unfold row_sum. assert (H0 : fin (nint xreal 0)) by apply fin_nint. revert H0. generalize (nint xreal 0).
    induction Hr as [|[k w] r Hw Hr IH]; intros a Ha; cbn [map fold_left snd]; [exact Ha|]. apply IH. now apply fin_add.
  Qed.
  Definition all_table (t : dict (dict X)) : Prop := Forall (fun q => all_fin (snd q)) t.
  Lemma all_row_of t x : all_table t -> all_fin (row_of t x).
  Proof.
    intros H. unfold row_of. induction H as [|[k r] t Hr Ht IH]; cbn [dget]; [constructor|]. destruct (key_eq x k); [exact Hr|exact IH].
  Qed.
  Lemma table_dset t x r : all_table t -> all_fin r -> all_table (dset t x r).
  Proof.
    intros Ht Hr. induction Ht as [|[k w] t Hw Ht IH]; cbn; [repeat constructor; exact Hr|]. destruct (key_eq x k); constructor; auto.
  Qed.
  Lemma count_all us : forall t, all_table t -> all_table (fold_left (count_unit xreal) us t).
  Proof.
    induction us as [|u us IH]; intros t Ht; [exact Ht|]. cbn [fold_left]. apply IH. unfold count_unit. apply table_dset; [exact Ht|].
    apply all_dset; [now apply all_row_of|]. apply fin_add; [|apply fin_nint]. now apply all_cell, all_row_of.
  Qed.
  Lemma norm_cells_all m s zs : fin m -> fin s -> forall row nv tot row' r, all_fin row -> fin tot ->
    norm_cells xreal m s zs row nv tot = (row', r) -> all_fin row' /\ match r with Ok (_, t) => fin t | Err _ => True end.
  Proof.
    intros Hm Hs. induction zs as [|z zs IH]; intros row nv tot row' r Hr Ht; cbn [norm_cells].
    - intros E. injection E as <- <-. split; assumption.
    - destruct (py_div xreal (cell xreal row z) s) as [v|e] eqn:Ed.
      + assert (Hv : fin v) by (eapply fin_div; [| |exact Ed]; [now apply all_cell|exact Hs]).
        destruct (nltb xreal v m); [|destruct (nltb xreal (nsub xreal (nint xreal 1) m) v)]; apply IH; auto using all_dset with fin.
      + intros E. injection E as <- <-. split; [|exact I]. apply all_dset; [exact Hr|now apply all_cell].
  Qed.
  Lemma adjust_all row nv tot : all_fin row -> fin tot -> all_fin (adjust xreal row nv tot).
  Proof.
    intros Hr Ht. unfold adjust. destruct nv as [|z0 nv0]; [exact Hr|].
    assert (Hq : fin (ndiv xreal tot (nnat xreal (length (z0 :: nv0))))).
    { destruct Ht as [t ->]. rewrite nnat_x. cbn [ndiv xreal]. rewrite xdiv_fin; [eexists; reflexivity|]. apply not_0_INR. discriminate. }
    generalize (length (z0 :: nv0)) Hq. generalize (z0 :: nv0). clear Hq. intros l n Hq.
    revert row Hr. induction l as [|z l IH]; intros row Hr; [exact Hr|]. cbn [fold_left]. apply IH. apply all_dset; [exact Hr|].
    apply fin_sub; [now apply all_cell|exact Hq].
  Qed.
  Lemma norm_rows_all m xs : fin m -> forall t t' e, all_table (t_table t) -> norm_rows xreal t m xs = (t', e) -> all_table (t_table t').
  Proof.
    intros Hm. induction xs as [|x xs IH]; intros t t' e Ht; cbn [norm_rows].
    - intros E. injection E as <- <-. exact Ht.
    - assert (G : all_table (t_table (fst (norm_row xreal t m x)))).
      { unfold norm_row. set (row := row_of (t_table t) x). assert (Hr : all_fin row) by now apply all_row_of.
        destruct (py_div xreal (row_sum xreal row) (nnat xreal (t_units t))); [|now apply table_dset].
        destruct (norm_cells xreal m (row_sum xreal row) (t_zs t) row [] (nint xreal 0)) as [row' [[nv tot]|e']] eqn:E;
          destruct (norm_cells_all m (row_sum xreal row) (t_zs t) Hm (all_sum _ Hr) row [] (nint xreal 0) row' _ Hr (fin_nint 0) E) as [H1 H2];
          cbn [fst t_table]; apply table_dset; auto. now apply adjust_all. }
      destruct (norm_row xreal t m x) as [t1 [e1|]]; [intros E; injection E as <- <-; exact G|]. apply IH, G.
  Qed.
  Lemma tab_fit_all t xs zs t' e : fin (t_ratio t) -> all_table (t_table t) -> tab_fit xreal t xs zs = (t', e) -> all_table (t_table t').
  Proof.
    intros Hr Ht. unfold tab_fit. destruct (negb _); [intros E; injection E as <- <-; exact Ht|]. cbv zeta. cbn [t_zs t_ratio].
    destruct (min_prob xreal _ _) as [m|e1] eqn:Em.
    - intros E. eapply norm_rows_all; [|  |exact E]; cbn [t_table].
      + unfold min_prob in Em. destruct (py_div xreal (nint xreal 1) _) as [u|] eqn:E1; [|discriminate]. cbn [bind] in Em.
        destruct (py_div xreal u (t_ratio t)) as [q|] eqn:E2; [|discriminate]. cbn [bind] in Em. injection Em as <-.
        assert (fin q). { eapply fin_div; [| |exact E2]; [|exact Hr]. eapply fin_div; [| |exact E1]; auto with fin. }
        match goal with |- fin (if ?b then _ else _) => destruct b end; [eexists; reflexivity|assumption].
      + apply count_all. constructor.
    - intros E. injection E as <- <-. cbn. apply count_all. constructor.
  Qed.
  Lemma lookup_all t x z : all_table (t_table t) -> all_table (t_table (fst (lookup xreal t x z))).
  Proof.
    intros H. unfold lookup. cbn. apply table_dset; [exact H|]. apply all_dset; [now apply all_row_of|]. now apply all_cell, all_row_of.
  Qed.
  Lemma predict_all xs : forall zs t t' v, all_table (t_table t) -> tab_predict xreal t xs zs = (t', v) -> all_table (t_table t').
  Proof.
    induction xs as [|x xs IH]; intros [|z zs] t t' v H; cbn [tab_predict]; try (intros E; injection E as <- <-; exact H).
    pose proof (lookup_all t x z H) as G. destruct (lookup xreal t x z) as [t1 v1].
    destruct (tab_predict xreal t1 xs zs) as [t2 vs] eqn:E2. intros E. injection E as <- <-. eapply IH; [exact G|exact E2].
  Qed.
End Fin.

Section FinReach.
  Context {M : Type} (pr : predictor X M) (cd : coding X) (ridge : M) (cf : fd_conf X).
  Hypothesis Hratio : fin (fc_ratio cf).
  Definition good (t : tab X) : Prop := all_table (t_table t) /\ fin (t_ratio t).
  Lemma good_predict t xs zs t' v : tab_predict xreal t xs zs = (t', v) -> good t -> good t'.
  Proof.
    intros E [H1 H2]. split; [eapply predict_all; eassumption|].
    destruct (predict_fields xreal xs zs t t') as (_ & _ & -> & _); [now rewrite E|exact H2].
  Qed.
  Lemma good_step m p x n p1 p0 z t f1 f3 : good t -> good (fst (support_step xreal pr cd m p x n p1 p0 z t f1 f3)).
  Proof.
    intros H. unfold support_step. destruct (do a <- _; _); [|exact H].
    destruct (tab_predict xreal t _ _) as [t1 a1] eqn:E1. destruct (tab_predict xreal t1 _ _) as [t2 a0] eqn:E2. cbn [fst].
    eapply good_predict; [exact E2|]. eapply good_predict; [exact E1|exact H].
  Qed.
  Lemma good_loop m p x n p1 p0 zs : forall t f1 f3, good t -> good (fst (support_loop xreal pr cd m p x n p1 p0 zs t f1 f3)).
  Proof.
    induction zs as [|z zs IH]; intros t f1 f3 H; [exact H|]. cbn [support_loop].
    pose proof (good_step m p x n p1 p0 (zk cd z) t f1 f3 H) as G. destruct (support_step _ _ _ _ _ _ _ _ _ _ _ _ _) as [t' [[a b]|e]]; [|exact G].
    apply IH, G.
  Qed.
  Lemma good_score s d : good (fd_tab s) -> good (fd_tab (fst (fd_score xreal pr cd cf s d))).
  Proof.
    intros H. unfold fd_score.
    assert (G : good (fd_tab (fst (fd_transform xreal pr cd cf s d)))).
    { unfold fd_transform. destruct (negb _); [exact H|]. destruct (negb _); [exact H|]. cbv zeta.
      destruct (do x <- vec_of (dexp d); _) as [[[x mu] c]|]; [|exact H].
      destruct (tab_predict xreal (fd_tab s) _ _) as [t1 q1] eqn:E1. destruct (tab_predict xreal t1 _ _) as [t2 q0] eqn:E2. destruct (tab_predict xreal t2 _ _) as [t3 q] eqn:E3.
      assert (H3 : good t3). { eapply good_predict; [exact E3|]. eapply good_predict; [exact E2|]. eapply good_predict; [exact E1|exact H]. }
      destruct (do a1 <- with_cov _ d; _); [|exact H3].
      match goal with |- context [support_loop ?a ?b ?c ?e ?f ?g ?h ?i ?j ?k ?l ?m ?n] =>
        pose proof (good_loop e f g h i j k l m n H3) as G; destruct (support_loop a b c e f g h i j k l m n) as [t4 [[f1 f3]|]] end; exact G. }
    destruct (fd_transform xreal pr cd cf s d) as [s' [eta|e]]; exact G.
  Qed.
  Lemma good_fit s d : good (fd_tab s) -> good (fd_tab (fst (fd_fit xreal pr cd cf s d))).
  Proof.
    intros H. unfold fd_fit. destruct (negb _); [exact H|]. cbv zeta. destruct (vec_of (dexp d)) as [x|]; [|exact H].
    destruct (too_few _ _ _ _); [exact H|]. destruct (do a <- with_cov x d; _) as [[[a y] c]|]; [|exact H].
    destruct (pr_fit pr _ _ _) as [m [e|]]; [exact H|]. cbn [fd_tab].
    destruct (tab_fit xreal (fd_tab s) (map (kx cd) x) (map (kz cd) (arows c))) as [t e] eqn:E.
    assert (G : good t). { destruct H as [H1 H2]. split; [eapply tab_fit_all; eassumption|]. destruct (fit_fields xreal _ _ _ _ _ E) as (-> & _). exact H2. }
    destruct e; exact G.
  Qed.
  Lemma reached_good s : fd_reached xreal pr cd ridge cf s -> good (fd_tab s).
  Proof.
    induction 1 as [|s d rows x y _ IH Hd|s d _ IH|s _ IH].
    - split; [constructor|exact Hratio].
    - now apply good_fit.
    - now apply good_score.
    - split; [constructor|exact Hratio].
  Qed.
  Lemma reached_entries s x z : fd_reached xreal pr cd ridge cf s -> entry_of (fd_tab s) x z = Fin (real_of (entry_of (fd_tab s) x z)).
  Proof.
    intros H. destruct (reached_good s H) as [G _]. rewrite entry_val. unfold val.
    destruct (all_cell (row_of (t_table (fd_tab s)) x) z (all_row_of _ x G)) as [r ->]. reflexivity.
  Qed.
End FinReach.

(** ** the first fit of a front-door parameter *)
Lemma fd_first_fit {M} (pr : predictor X M) (cd : coding X) (cf : fd_conf X) (ridge : M) d rows bs y ratio :
  fc_ratio cf = Fin ratio -> ratio <> 0 -> rows <> [] ->
  dataset d (fc_dim cf) rows (bits xreal bs) y -> large_enough (fc_min cf) bs ->
  (forall m, snd (pr_fit pr m (with_exposure (bits xreal bs) (fc_dim cf) rows) y) = None) ->
  exists s, fd_fit xreal pr cd cf (fd_new xreal ridge cf) d = (s, None) /\ fd_fitted s = true
    /\ fd_y s = fst (pr_fit pr ridge (with_exposure (bits xreal bs) (fc_dim cf) rows) y)
    /\ fd_prob s = nclip xreal (fc_overlap cf) (nsub xreal (nint xreal 1) (fc_overlap cf)) (nmean xreal (bits xreal bs))
    /\ t_zs (fd_tab s) = fold_left remember (map (kz cd) rows) [].
Proof.
  intros Er Hr Hne (Hcv & Hx & Hy & Hn & Hf & Lx & Ly & Hrow) HL Hfit. unfold fd_fit. rewrite Hf, Nat.eqb_refl, Hx, vec_of_vec, Hn. cbn [negb]. cbv zeta.
  assert (El : length rows = length bs) by (unfold bits in Lx; now rewrite map_length in Lx).
  rewrite El, (proj2 (too_few_bits xreal (Z.of_nat (length bs) + Z.abs (fc_min cf)) (fc_min cf) bs (xreal_counting _) (Z.le_refl _)) HL).
  rewrite (with_cov_ok d _ _ _ Hcv Lx), Hy, vec_of_vec, Hcv. cbn [bind arr_of arows fd_y fd_new].
  specialize (Hfit ridge). destruct (pr_fit pr ridge _ _) as [m e]. cbn in Hfit. subst e.
  assert (Em : exists q, min_prob xreal (length (fold_left remember (map (kz cd) rows) [])) (Fin ratio) = Ok q).
  { unfold min_prob, py_div. rewrite !nint_x, nnat_x. cbn [neqb xreal xeqb].
    destruct (Req_EM_T (INR (length (fold_left remember (map (kz cd) rows) []))) 0) as [E|E].
    - exfalso. apply INR_eq in E || apply (INR_eq _ 0) in E. apply length_zero_iff_nil in E.
      destruct rows as [|r rows]; [congruence|]. assert (Hi : In (kz cd r) (fold_left remember (map (kz cd) (r :: rows)) [])) by (apply remember_all_in; left; now left).
      rewrite E in Hi. destruct Hi.
    - cbn [bind]. destruct (Req_EM_T ratio 0); [congruence|]. cbn [bind]. eexists. reflexivity. }
  destruct Em as [q Em]. cbn [fd_tab fd_new].
  destruct (fit_ok xreal (length rows) (xreal_exact (length rows)) (tab_new (fc_ratio cf)) (map (kx cd) (bits xreal bs)) (map (kz cd) rows) q) as (t & E & _ & Ez & _).
  - rewrite !map_length. lia.
  - rewrite map_length. lia.
  - constructor.
  - constructor.
  - intros x [].
  - cbn. rewrite Er. exact Em.
  - rewrite E. eexists. split; [reflexivity|]. cbn. repeat split. exact Ez.
Qed.

(** ** minima of real numbers *)
Lemma py_min_x ws lam : In lam ws -> Forall (fun v => lam <= v) ws -> py_min xltb (map Fin ws) = Ok (Fin lam).
Proof.
  destruct ws as [|w ws]; [intros []|]. cbn [map py_min]. intros Hi Hf. f_equal.
  assert (H : forall l a, In lam (a :: l) -> lam <= a -> Forall (fun v => lam <= v) l -> fold_left (min_step xltb) (map Fin l) (Fin a) = Fin lam).
  { induction l as [|b l IH]; intros a Hin Ha Hl; cbn [map fold_left].
    - destruct Hin as [->|[]]. reflexivity.
    - inversion Hl; subst. unfold min_step at 2. cbn [xltb]. destruct (Rlt_dec b a); apply IH; auto.
      + destruct Hin as [->|Hin]; [lra|exact Hin].
      + destruct Hin as [->|[->|Hin]]; [now left| |now right]. left. lra. }
  inversion Hf; subst. now apply H.
Qed.

Lemma aipw_width_x {M P} la (cf : aipw_conf X) (s : aipw X M P) d rows x y sub_g rho delta ov det g ws lam :
  ap_data s = Some d -> dataset d (ac_dim cf) (map (map Fin) rows) x y ->
  0 < delta < 1 -> 0 < rho -> 0 < sub_g -> ac_overlap cf = Fin ov -> 0 < ov ->
  la_det la (mat (ac_dim cf) (shifted sub_g rho (gram rows))) = Fin det -> rho ^ ac_dim cf <= det ->
  la_pow la (Fin rho) (ac_dim cf) = Fin (rho ^ ac_dim cf) ->
  la_inv la (mat (ac_dim cf) (shifted 1 (rho / sub_g) (gram rows))) = Ok (mat (ac_dim cf) g) ->
  la_eig la (mat (ac_dim cf) (rprod (ac_dim cf) (rprod (ac_dim cf) (gram rows) g) (gram rows))) = Ok (map Fin ws) ->
  In lam ws -> Forall (fun v => lam <= v) ws -> 0 < lam ->
  aipw_width xreal la cf s (Fin delta) (Fin sub_g) (Fin rho) = Ok (Fin (width_spec sub_g rho (ac_dim cf) det lam ov delta)).
Proof.
  intros Hs Hd Hde Hrho Hsg Hov Ho E1 Hdet E2 E3 E4 Hi Hmin Hlam. destruct Hd as (Hc & _ & _ & _ & _ & _ & _ & Hr).
  unfold aipw_width. rewrite Hs, Hc. cbn [arr_of bind]. unfold matrix_of. cbn [atail arows]. rewrite Nat.eqb_refl. cbn [bind].
  assert (Hl : forall u, In u rows -> length u = ac_dim cf).
  { intros u Hu. rewrite Forall_forall in Hr. specialize (Hr (map Fin u) (in_map _ _ _ Hu)). now rewrite map_length in Hr. }
  pose proof (gram_x (ac_dim cf) (fun u : list R => u) rows Hl) as Eg. rewrite map_id in Eg.
  change (map (fun u : list R => map Fin u) rows) with (map (map Fin) rows) in Eg. rewrite Eg.
  destruct (mu_radius_x la (ac_dim cf) (gram rows) sub_g rho delta det g (map Fin ws) lam Hde Hrho Hsg Hdet Hlam E1 E2 E3 E4 (py_min_x ws lam Hi Hmin)) as [-> _].
  cbn [bind]. unfold py_div. rewrite Hov, !nint_x. cbn [neqb xreal xeqb]. destruct (Req_EM_T ov 0); [lra|]. cbn [bind ndiv xreal]. rewrite xdiv_fin by assumption.
  cbn [nsub xreal xsub xneg xadd nmul xmul nadd]. do 2 f_equal. unfold width_spec. lra.
Qed.
