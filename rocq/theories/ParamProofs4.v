(** Lemmas about the front-door parameter. *)
From Coq Require Import List Arith ZArith Reals Bool Lia Lra.
From Verif Require Import PyBase PyLemmas Num NumOps NumLaws DataModel ScmModel TabModel TabSpec TabProofs TabProofs2 TabReal ArmModel ParamModel ParamSpec ParamProofs ParamProofs2.
Import ListNotations.
Open Scope R_scope.

Lemma entry_val t x z : entry_of t x z = val xreal t x z.
Proof. unfold entry_of, val, cell, row_of. destruct (dget (t_table t) x) as [r|]; rewrite nint_x; [|reflexivity]. destruct (dget r z); reflexivity. Qed.

Section Exact.
  Context {M : Type} (pr : predictor X M) (cd : coding X) (cf : fd_conf X) (lo px : R).
  Hypotheses (Hlo : fc_overlap cf = Fin lo) (Hl1 : 0 < lo) (Hl2 : lo <= 1 / 2) (Hp : 0 < px < 1).
  Context {T : Type} (tz : T -> list R) (tx : T -> bool) (ty : T -> R) (us : list T).
  Let k := fc_dim cf.
  Hypotheses (Hk1 : (1 <= k)%nat) (Hk : forall u, In u us -> length (tz u) = k).
  Variables (m : M) (mu : list R -> R) (tb : key -> key -> R).
  Hypothesis Hmu : evaluates pr m (S k) mu.

  Lemma ev_col' (g : T -> R) (h : T -> list R) : (forall u, In u us -> length (h u) = k) ->
    pr_predict pr m (with_exposure (map (fun u => Fin (g u)) us) k (map (fun u => map Fin (h u)) us))
    = Ok (map (fun u => Fin (mu (g u :: h u))) us).
  Proof.
    intros Hh. unfold with_exposure. rewrite map2_diag.
    replace (map (fun a => Fin (g a) :: map Fin (h a)) us) with (map (map Fin) (map (fun a => g a :: h a) us)) by now rewrite map_map.
    rewrite Hmu. { now rewrite map_map. }
    apply Forall_forall. intros r Hr. apply in_map_iff in Hr as (u & <- & Hu). cbn. now rewrite Hh.
  Qed.
  Lemma ev_one r : length r = S k -> pr_predict pr m (mkArr [S k] [map Fin r]) = Ok [Fin (mu r)].
  Proof. intros H. apply (Hmu [r]). repeat constructor. exact H. Qed.

  Definition known (t : tab X) : Prop := forall x z, val xreal t x z = Fin (tb x z).
  Lemma known_predict t xs zs : known t -> known (fst (tab_predict xreal t xs zs)).
  Proof. intros H x z. rewrite (proj2 (predict_vals xreal xs zs t)). apply H. Qed.

  Let q (b : bool) (u : T) : R := rclip lo (tb (ki cd b) (kz cd (map Fin (tz u)))).
  Let dp (z : list R) : R :=
    tb (ki cd true) (kz cd [Fin (hd 0 z)]) - tb (ki cd false) (kz cd [Fin (hd 0 z)]).

  Lemma step_x z t (g1 g3 : T -> R) : length z = k -> known t ->
    exists t', known t' /\ t_zs t' = t_zs t /\
    support_step xreal pr cd m (Fin px) (map (fun u => Fin (b2r (tx u))) us) (length us)
      (map (fun u => Fin (q true u)) us) (map (fun u => Fin (q false u)) us) (map Fin z) t
      (map (fun u => Fin (g1 u)) us) (map (fun u => Fin (g3 u)) us)
    = (t', Ok (map (fun u => Fin (g1 u + mu (b2r (tx u) :: z) * dp z)) us,
               map (fun u => Fin (g3 u + (mu (1 :: z) * px * q true u + mu (0 :: z) * (1 - px) * q false u))) us)).
  Proof.
    intros Hz Ht. unfold support_step. rewrite map_length, Hz.
    rewrite stack_vec by now rewrite map_length, repeat_length. cbn [bind]. rewrite repeat_map.
    rewrite (ev_col' (fun u => b2r (tx u)) (fun _ => z)) by auto.
    destruct z as [|v z']; [cbn in Hz; lia|]. cbn [map]. cbn [tab_predict].
    set (kk := kz cd [Fin v]).
    destruct (lookup xreal t (ki cd true) kk) as [t1 v1] eqn:E1. destruct (lookup_val _ _ _ _ _ _ E1) as [-> V1].
    destruct (lookup xreal t1 (ki cd false) kk) as [t2 v2] eqn:E2. destruct (lookup_val _ _ _ _ _ _ E2) as [-> V2].
    rewrite V1, !Ht. exists t2. split; [intros x z; now rewrite V2, V1|].
    split. { unfold lookup in E1, E2. injection E1 as <-. injection E2 as <-. reflexivity. }
    f_equal. cbn [bzip length Nat.eqb map2 bind]. rewrite bzip_one_r. cbn [bind]. rewrite map_map.
    rewrite baccum_map. cbn [bind].
    rewrite nint_x. change (Fin 1 :: Fin v :: map Fin z') with (map Fin (1 :: v :: z')).
    rewrite ev_one by (cbn [length] in *; lia). cbn [bind map]. rewrite bzip_one_l. cbn [bind]. rewrite map_map.
    rewrite (nint_x 0). change (Fin 0 :: Fin v :: map Fin z') with (map Fin (0 :: v :: z')).
    rewrite ev_one by (cbn [length] in *; lia). cbn [bind map]. rewrite bzip_one_l. cbn [bind]. rewrite map_map.
    rewrite bzip_map. cbn [bind]. rewrite baccum_map. cbn [bind]. do 2 f_equal; apply map_ext; intros u; cbn; f_equal; unfold dp, kk; cbn [hd]; lra.
  Qed.

  Lemma loop_x zs : forall ks t g1 g3, map (zk cd) ks = map (map Fin) zs -> Forall (fun z => length z = k) zs -> known t ->
    exists t', support_loop xreal pr cd m (Fin px) (map (fun u => Fin (b2r (tx u))) us) (length us)
      (map (fun u => Fin (q true u)) us) (map (fun u => Fin (q false u)) us) ks t
      (map (fun u => Fin (g1 u)) us) (map (fun u => Fin (g3 u)) us)
    = (t', Ok (map (fun u => Fin (g1 u + f1_spec mu zs dp (tx u))) us,
               map (fun u => Fin (g3 u + f3_spec mu px zs (fun b => q b u))) us)).
  Proof.
    induction zs as [|z zs IH]; intros [|c ks] t g1 g3 Hks Hf Ht; try discriminate.
    - cbn. exists t. do 3 f_equal; apply map_ext; intros u; unfold f1_spec, f3_spec; cbn; f_equal; lra.
    - cbn [map] in Hks. injection Hks as E1 E2. inversion Hf as [|? ? Hz Hf']; subst. cbn [support_loop]. rewrite E1.
      destruct (step_x z t g1 g3 Hz Ht) as (t' & Ht' & _ & ->).
      destruct (IH ks t' (fun u => g1 u + mu (b2r (tx u) :: z) * dp z) (fun u => g3 u + (mu (1 :: z) * px * q true u + mu (0 :: z) * (1 - px) * q false u)) E2 Hf' Ht') as [t2 ->].
      exists t2. do 3 f_equal; apply map_ext; intros u; unfold f1_spec, f3_spec; cbn [map rsum]; f_equal; lra.
  Qed.

  Lemma predict_known t (a b : T -> key) : known t ->
    exists t', known t' /\ t_zs t' = t_zs t /\
      tab_predict xreal t (map a us) (map b us) = (t', map (fun u => Fin (tb (a u) (b u))) us).
  Proof.
    intros Ht. destruct (tab_predict xreal t (map a us) (map b us)) as [t' vs] eqn:E.
    pose proof (predict_vals xreal (map a us) (map b us) t) as [V1 V2]. rewrite E in V1, V2. cbn [fst snd] in V1, V2.
    destruct (predict_fields xreal (map a us) (map b us) t t') as (_ & Hz & _); [now rewrite E|].
    exists t'. split; [intros x z; rewrite V2; apply Ht|]. split; [exact Hz|]. f_equal. rewrite V1. clear -Ht.
    induction us as [|u l IH]; [reflexivity|]. cbn [map combine]. rewrite IH. cbn [fst snd]. now rewrite Ht.
  Qed.

  Lemma fd_score_x s d zs : fd_fitted s = true -> fd_y s = m -> fd_prob s = Fin px -> known (fd_tab s) ->
    map (zk cd) (t_zs (fd_tab s)) = map (map Fin) zs -> Forall (fun z => length z = k) zs ->
    dataset d k (map (fun u => map Fin (tz u)) us) (bits xreal (map tx us)) (map (fun u => Fin (ty u)) us) ->
    snd (fd_score xreal pr cd cf s d) =
    Ok (map (fun u => Fin (fd_score_spec (ty u) (mu (b2r (tx u) :: tz u)) (q true u) (q false u)
                             (rclip lo (tb (kx cd (bit xreal (tx u))) (kz cd (map Fin (tz u)))))
                             (f1_spec mu zs dp (tx u)) (f2_spec mu px (tz u)) (f3_spec mu px zs (fun b => q b u)) (tx u) px)) us).
  Proof.
    intros Hfit Hm Hpx Ht Hzs Hf (Hc & Hx & Hy & Hn & Hfe & Lx & Ly & Hr). rewrite map_length in Hn.
    unfold fd_score, fd_transform. fold k. rewrite Hfe, Nat.eqb_refl, Hfit. cbn [negb]. cbv zeta.
    rewrite Hx, vec_of_vec. cbn [bind]. rewrite (with_cov_ok d k _ _ Hc Lx). cbn [bind].
    assert (Eb : bits xreal (map tx us) = map (fun u => Fin (b2r (tx u))) us) by (unfold bits; rewrite map_map; apply map_ext; intros; now rewrite bit_x).
    rewrite Hm, Eb. rewrite (ev_col' (fun u => b2r (tx u)) tz Hk). cbn [bind]. rewrite Hc. cbn [arr_of bind arows].
    rewrite Hn, !repeat_map, !map_map.
    destruct (predict_known (fd_tab s) (fun _ => ki cd true) (fun u => kz cd (map Fin (tz u))) Ht) as (t1 & T1 & Z1 & ->).
    destruct (predict_known t1 (fun _ => ki cd false) (fun u => kz cd (map Fin (tz u))) T1) as (t2 & T2 & Z2 & ->).
    destruct (predict_known t2 (fun u => kx cd (Fin (b2r (tx u)))) (fun u => kz cd (map Fin (tz u))) T2) as (t3 & T3 & Z3 & ->).
    rewrite !map_map.
    rewrite (with_cov_ok d k _ (map (fun _ => nint xreal 1) us) Hc) by now rewrite !map_length. cbn [bind].
    rewrite (nint_x 1), (nint_x 0). rewrite (ev_col' (fun _ => 1) tz Hk). cbn [bind].
    rewrite (with_cov_ok d k _ (map (fun _ => Fin 0) us) Hc) by now rewrite !map_length. cbn [bind].
    rewrite (ev_col' (fun _ => 0) tz Hk). cbn [bind]. rewrite !map_map, bzip_map. rewrite Hpx, Hlo.
    rewrite <- (nint_x 1).
    assert (Ec : forall g : T -> R, map (fun u => nclip xreal (Fin lo) (nsub xreal (nint xreal 1) (Fin lo)) (Fin (g u))) us = map (fun u => Fin (rclip lo (g u))) us).
    { intros g. apply map_ext. intros u. now apply nclip_x. }
    rewrite !Ec.
    assert (Ez : map (zk cd) (z_support t3) = map (map Fin) zs) by (unfold z_support; now rewrite Z3, Z2, Z1).
    destruct (loop_x zs (z_support t3) t3 (fun _ => 0) (fun _ => 0) Ez Hf T3) as [t4 L]. unfold q in L at 1 2. rewrite L. clear L.
    cbn [snd].
    set (h0 := fun u => Fin (mu (b2r (tx u) :: tz u))). set (h1 := fun u => Fin (q true u)). set (h2 := fun u => Fin (q false u)).
    set (h3 := fun u => Fin (rclip lo (tb (kx cd (Fin (b2r (tx u)))) (kz cd (map Fin (tz u)))))).
    set (h5 := fun u => Fin (0 + f1_spec mu zs dp (tx u))). set (h7 := fun u => Fin (0 + f3_spec mu px zs (fun b => q b u))).
    set (h6 := fun u => nadd xreal (nmul xreal (Fin px) (Fin (mu (1 :: tz u)))) (nmul xreal (nsub xreal (nint xreal 1) (Fin px)) (Fin (mu (0 :: tz u))))).
    set (h4 := fun u => fd_weight xreal (Fin px) (Fin (b2r (tx u)))).
    match goal with |- context [stack_columns xreal ?l] => change l with (map (fun g => map g us) [h0; h1; h2; h3; h4; h5; h6; h7]) end.
    rewrite stack_map by discriminate. unfold fd_phi. rewrite width_map by reflexivity.
    rewrite (col_map xreal 0 _ us h0), (col_map xreal 1 _ us h1), (col_map xreal 2 _ us h2), (col_map xreal 3 _ us h3), (col_map xreal 4 _ us h4),
      (col_map xreal 5 _ us h5), (col_map xreal 6 _ us h6), (col_map xreal 7 _ us h7) by reflexivity.
    rewrite Hy, vec_of_vec. cbn [bind]. repeat (rewrite bzip_map; cbn [bind]).
    cbn [snd]. f_equal. apply map_ext. intros u. rewrite bit_x.
    assert (Rg : forall p, lo <= rclip lo p <= 1 - lo) by (intros; now apply rclip_range).
    unfold h0, h1, h2, h3, h4, h5, h6, h7, fd_weight. rewrite !nint_x. cbn [ndiv nsub nadd nmul xreal]. unfold xsub.
    cbn [xneg]. change (xadd (Fin 1) (Fin (- px))) with (Fin (1 + - px)). change (xadd (Fin 1) (Fin (- b2r (tx u)))) with (Fin (1 + - b2r (tx u))).
    pose proof (Rg (tb (kx cd (Fin (b2r (tx u)))) (kz cd (map Fin (tz u))))) as R3.
    rewrite !xdiv_fin by lra. cbn [xneg xadd xmul]. f_equal. unfold fd_score_spec, f2_spec. destruct (tx u); unfold b2r; field; unfold b2r in R3; lra.
  Qed.
End Exact.

(** ** the keys of the table *)
Section Keys.
  Context {N M : Type} (o : numops N) (pr : predictor N M) (cd : coding N) (ridge : M) (cf : fd_conf N).

  (** only remembered values have entries other than 0 *)
  Definition only_known (t : tab N) : Prop := forall x z, ~ In z (t_zs t) -> val o t x z = nint o 0.
  Lemma only_known_predict t xs zs : only_known t -> only_known (fst (tab_predict o t xs zs)).
  Proof.
    intros H x z Hz. rewrite (proj2 (predict_vals o xs zs t)). apply H.
    destruct (predict_fields o xs zs t _ eq_refl) as (_ & E & _). now rewrite E in Hz.
  Qed.
  Lemma only_known_fit t xs zs t' e : only_known t -> tab_fit o t xs zs = (t', e) -> only_known t'.
  Proof.
    intros H E. destruct (Nat.eq_dec (length xs) (length zs)) as [El|El].
    - pose proof (fit_wf o t xs zs t' e El E) as W. intros x z Hz. unfold val, cell.
      destruct (dget (row_of (t_table t') x) z) eqn:Ed; [|reflexivity]. exfalso. apply Hz.
      apply (wf_row_of _ _ _ x W). apply dget_in in Ed. apply (in_map fst) in Ed. exact Ed.
    - destruct (fit_fields o t xs zs t' e E) as (_ & _ & F). destruct (F El) as [-> _]. exact H.
  Qed.
End Keys.
