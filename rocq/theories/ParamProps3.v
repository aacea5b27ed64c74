(** Property C87: what fitting the front-door parameter learns. *)
From Coq Require Import List Arith ZArith Reals Bool Lia Lra Permutation.
From Verif Require Import PyBase PyLemmas Num NumOps NumLaws DataModel ScmModel TabModel TabSpec TabProofs TabProofs2 TabReal TabProps ArmModel
  ParamModel ParamSpec ParamSpec2 ParamProofs ParamProofs2 ParamProofs3 ParamProofs4 ParamProofs5 ParamProofs6 ParamProofs7 ParamProps ParamProps2.
Import ListNotations.
Open Scope nat_scope.

(** ** the table of a reachable parameter is a reachable table *)
Section Reach.
  Context {N M : Type} (o : numops N) (pr : predictor N M) (cd : coding N) (ridge : M) (cf : fd_conf N).
  Notation ok := (reach o (fc_ratio cf)).
  Lemma ok_predict t xs zs t' q : tab_predict o t xs zs = (t', q) -> ok t -> ok t'.
  Proof. intros E H. change t' with (fst (t', q)). rewrite <- E. now apply r_predict. Qed.
  Lemma ok_loop m p x n p1 p0 zs : forall t f1 f3, ok t -> ok (fst (support_loop o pr cd m p x n p1 p0 zs t f1 f3)).
  Proof.
    induction zs as [|z zs IH]; intros t f1 f3 H; [exact H|]. cbn [support_loop].
    assert (G : ok (fst (support_step o pr cd m p x n p1 p0 (zk cd z) t f1 f3))).
    { unfold support_step. destruct (do a <- _; _); [|exact H].
      destruct (tab_predict o t _ _) as [t1 a1] eqn:E1. destruct (tab_predict o t1 _ _) as [t2 a0] eqn:E2. cbn [fst].
      eapply ok_predict; [exact E2|]. eapply ok_predict; [exact E1|exact H]. }
    destruct (support_step _ _ _ _ _ _ _ _ _ _ _ _ _) as [t' [[a b]|e]]; [|exact G]. apply IH, G.
  Qed.
  Lemma ok_score s d : ok (fd_tab s) -> ok (fd_tab (fst (fd_score o pr cd cf s d))).
  Proof.
    intros H. unfold fd_score.
    assert (G : ok (fd_tab (fst (fd_transform o pr cd cf s d)))).
    { unfold fd_transform. destruct (negb _); [exact H|]. destruct (negb _); [exact H|]. cbv zeta.
      destruct (do x <- vec_of (dexp d); _) as [[[x mu] c]|]; [|exact H].
      destruct (tab_predict o (fd_tab s) _ _) as [t1 q1] eqn:E1. destruct (tab_predict o t1 _ _) as [t2 q0] eqn:E2. destruct (tab_predict o t2 _ _) as [t3 q] eqn:E3.
      assert (H3 : ok t3). { eapply ok_predict; [exact E3|]. eapply ok_predict; [exact E2|]. eapply ok_predict; [exact E1|exact H]. }
      destruct (do a1 <- with_cov _ d; _); [|exact H3].
      match goal with |- context [support_loop ?a ?b ?c ?e ?f ?g ?h ?i ?j ?k ?l ?m ?n] =>
        pose proof (ok_loop e f g h i j k l m n H3) as G; destruct (support_loop a b c e f g h i j k l m n) as [t4 [[f1 f3]|]] end; exact G. }
    destruct (fd_transform o pr cd cf s d) as [s' [eta|e]]; exact G.
  Qed.
  Lemma ok_fit s d : ok (fd_tab s) -> ok (fd_tab (fst (fd_fit o pr cd cf s d))).
  Proof.
    intros H. unfold fd_fit. destruct (negb _); [exact H|]. cbv zeta. destruct (vec_of (dexp d)) as [x|]; [|exact H].
    destruct (too_few _ _ _ _); [exact H|]. destruct (do a <- with_cov x d; _) as [[[a y] c]|]; [|exact H].
    destruct (pr_fit pr _ _ _) as [m [e|]]; [exact H|]. cbn [fd_tab].
    pose proof (r_fit o (fc_ratio cf) (fd_tab s) (map (kx cd) x) (map (kz cd) (arows c)) H) as G.
    destruct (tab_fit o (fd_tab s) _ _) as [t [e|]]; exact G.
  Qed.
  Lemma reached_ok s : fd_reached o pr cd ridge cf s -> ok (fd_tab s).
  Proof.
    induction 1 as [|s d rows x y _ IH Hd|s d _ IH|s _ IH].
    - constructor.
    - now apply ok_fit.
    - now apply ok_score.
    - constructor.
  Qed.
End Reach.

(** ** counting *)
(** the keys of a dataset's exposures and rows tell values apart, and rows can be read back *)
Definition faithful (cd : coding X) (us : list atom) : Prop :=
  kx cd (bit xreal true) <> kx cd (bit xreal false)
  /\ (forall z z', In z (z_values us) -> In z' (z_values us) -> kz cd (map Fin z) = kz cd (map Fin z') -> z = z')
  /\ (forall z, In z (z_values us) -> zk cd (kz cd (map Fin z)) = map Fin z).

Definition xkeys (cd : coding X) (us : list atom) : list key := map (fun a => kx cd (bit xreal (a_x a))) us.
Definition zkeys (cd : coding X) (us : list atom) : list key := map (fun a => kz cd (map Fin (a_z a))) us.

Lemma mass_equal c us ev : Forall (fun a => a_w a = c) us -> mass us ev = (c * INR (length (filter ev us)))%R.
Proof.
  intros H. unfold mass. induction H as [|a us Ha _ IH]; [cbn; lra|]. cbn [filter]. destruct (ev a); [|exact IH].
  cbn [map rsum length]. rewrite IH, Ha, S_INR. lra.
Qed.
Lemma in_zvalues us a : In a us -> In (a_z a) (z_values us).
Proof. intros H. apply nodup_In. now apply in_map. Qed.
Lemma n_x_filter cd us b : kx cd (bit xreal true) <> kx cd (bit xreal false) ->
  n_x (xkeys cd us) (kx cd (bit xreal b)) = length (filter (has_x b) us).
Proof.
  intros H. unfold n_x, xkeys. induction us as [|a us IH]; [reflexivity|]. cbn [map count_occ filter]. unfold has_x at 1.
  destruct (key_eq (kx cd (bit xreal (a_x a))) (kx cd (bit xreal b))) as [E|E]; destruct (a_x a), b; cbn [Bool.eqb length]; try congruence; exact (f_equal S IH).
Qed.
Lemma n_xz_filter cd us : faithful cd us -> forall b z vs, (forall a, In a vs -> In a us) -> In z (z_values us) ->
  n_xz (xkeys cd vs) (zkeys cd vs) (kx cd (bit xreal b)) (kz cd (map Fin z)) = length (filter (fun a => has_x b a && has_z z a) vs).
Proof.
  intros (H1 & H2 & _) b z vs Hv Hz. unfold n_xz, xkeys, zkeys. induction vs as [|a vs IH]; [reflexivity|].
  cbn [map combine count_occ filter]. specialize (IH (fun a h => Hv a (or_intror h))).
  assert (Ea : has_x b a = true <-> kx cd (bit xreal (a_x a)) = kx cd (bit xreal b)).
  { unfold has_x. destruct (a_x a), b; cbn [Bool.eqb]; split; congruence. }
  assert (Ez : has_z z a = true <-> kz cd (map Fin (a_z a)) = kz cd (map Fin z)).
  { unfold has_z. destruct (z_eq (a_z a) z) as [->|Hn]; [easy|]. split; [discriminate|]. intros E. elim Hn. apply H2; [|exact Hz|exact E]. apply in_zvalues, Hv. now left. }
  destruct (pair_eq _ _) as [E|E].
  - injection E as E1 E2. apply Ea in E1. apply Ez in E2. rewrite E1, E2. cbn [andb length]. now rewrite IH.
  - destruct (has_x b a) eqn:Eb; [|exact IH]. destruct (has_z z a) eqn:Ec; [|exact IH]. elim E. f_equal; [now apply Ea|now apply Ez].
Qed.
Lemma rfreq_given cd us c b z : faithful cd us -> Forall (fun a => a_w a = c) us -> (0 < c)%R -> In b (map a_x us) -> In z (z_values us) ->
  rfreq (xkeys cd us) (zkeys cd us) (kx cd (bit xreal b)) (kz cd (map Fin z)) = p_z_given us b z.
Proof.
  intros Hf Hw Hc Hb Hz. unfold rfreq, p_z_given, p_xz, p_x. rewrite (n_xz_filter cd us Hf) by auto. rewrite n_x_filter by apply Hf.
  rewrite !(mass_equal c) by assumption.
  assert (Hp : (0 < INR (length (filter (has_x b) us)))%R).
  { apply in_map_iff in Hb as (a & Ha & Hin). assert (Hi : In a (filter (has_x b) us)) by (apply filter_In; split; [exact Hin|]; unfold has_x; rewrite Ha; apply Bool.eqb_reflx).
    destruct (filter (has_x b) us); [destruct Hi|]. apply lt_0_INR. cbn. lia. }
  field. split; lra.
Qed.
Lemma treated_mass c us : Forall (fun a => a_w a = c) us -> p_x us true = (c * INR (treated (map a_x us)))%R.
Proof.
  intros H. unfold p_x. rewrite (mass_equal c) by assumption. do 2 f_equal. unfold treated.
  clear H. induction us as [|a us IH]; [reflexivity|]. cbn [map count_occ filter]. unfold has_x at 1. destruct (a_x a); cbn [Bool.eqb]; destruct (bool_dec _ _); try congruence.
  cbn [length]. now rewrite IH.
Qed.
Lemma mean_bits bs : bs <> [] -> nmean xreal (bits xreal bs) = Fin (INR (treated bs) / INR (length bs)).
Proof.
  intros H. assert (E : bits xreal bs = map Fin (map b2r bs)).
  { unfold bits. rewrite map_map. apply map_ext. intros b. unfold bit. rewrite nint_x. destruct b; reflexivity. }
  assert (S : xsum (map Fin (map b2r bs)) = Fin (INR (treated bs))).
  { clear. unfold treated. induction bs as [|b bs IH]; [reflexivity|]. cbn [map xsum fold_right]. unfold xsum in *. cbn [fold_right]. rewrite IH. cbn [xadd count_occ].
    destruct (bool_dec b true) as [->|]; [rewrite S_INR; cbn; f_equal; lra|]. destruct b; [congruence|]. cbn. f_equal. lra. }
  rewrite E. cbn [nmean xreal]. unfold xmean. rewrite S, !map_length. apply xdiv_fin.
  apply not_0_INR. now rewrite length_zero_iff_nil.
Qed.

(** ** C87 *)
(** from any reachable state: a fit that returns normally on a sample with enough units in both
    groups trains the outcome model on (exposure, covariates) with the responses, sets the treatment
    probability to the clipped share of treated units, and the conditional probability of z given x
    to the sample's, moved into the band [m, 1 - m], minus a common amount. *)
Theorem C87_learns :
  forall {M} (pr : predictor X M) (cd : coding X) (ridge : M) (cf : fd_conf X) lo r c s d us s',
  fc_overlap cf = Fin lo -> (0 < lo <= 1 / 2)%R -> fc_ratio cf = Fin r -> (1 <= r)%R ->
  fd_reached xreal pr cd ridge cf s ->
  of_population us (fc_dim cf) d -> us <> [] -> Forall (fun a => a_w a = c) us -> (0 < c)%R ->
  faithful cd us -> large_enough (fc_min cf) (map a_x us) ->
  fd_fit xreal pr cd cf s d = (s', None) ->
  fd_fitted s' = true /\ fd_data s' = Some d
  /\ fd_y s' = fst (pr_fit pr (fd_y s) (with_exposure (bits xreal (map a_x us)) (fc_dim cf) (map (fun a => map Fin (a_z a)) us)) (map (fun a => Fin (a_y a)) us))
  /\ fd_prob s' = Fin (rclip lo (INR (treated (map a_x us)) / INR (length us)))
  /\ t_zs (fd_tab s') = fold_left remember (zkeys cd us) (t_zs (fd_tab s))
  /\ let m := (1 / (INR (length (t_zs (fd_tab s'))) * r))%R in
     forall b, In b (map a_x us) -> exists common,
       (forall z, In z (z_values us) ->
          let v := p_z_given us b z in
          entry_of (fd_tab s') (kx cd (bit xreal b)) (kz cd (map Fin z)) =
          Fin (if Rlt_dec v m then m else if Rlt_dec (1 - m) v then 1 - m else v - common)%R)
       (* nothing has to be moved: no correction *)
       /\ ((forall z, In z (t_zs (fd_tab s')) -> m <= rfreq (xkeys cd us) (zkeys cd us) (kx cd (bit xreal b)) z <= 1 - m) -> common = 0)%R.
Proof.
  intros M pr cd ridge cf lo r c s d us s' Elo Hlo Er Hr Hreach Hd Hne Hw Hc Hfa HL E.
  pose proof (reached_ok xreal pr cd ridge cf s Hreach) as Hok. rewrite Er in Hok.
  pose proof Hd as (Hcv & Hx & Hy & Hn & Hf & Lx & Ly & Hrow).
  assert (Ef : fd_data s' = Some d). { pose proof (fd_fit_data xreal pr cd cf s d Hf) as G. rewrite E in G. exact G. }
  unfold fd_fit in E. rewrite Hf, Nat.eqb_refl, Hx, vec_of_vec, Hn in E. cbn [negb] in E. cbv zeta in E.
  assert (El : length (map (fun a => map Fin (a_z a)) us) = length (map a_x us)) by now rewrite !map_length.
  rewrite El, (proj2 (too_few_bits xreal (Z.of_nat (length (map a_x us)) + Z.abs (fc_min cf)) (fc_min cf) (map a_x us) (xreal_counting _) (Z.le_refl _)) HL) in E.
  rewrite (with_cov_ok d _ _ _ Hcv Lx), Hy, vec_of_vec, Hcv in E. cbn [bind arr_of arows fd_y] in E.
  unfold with_exposure. destruct (pr_fit pr (fd_y s) _ _) as [m1 [e|]]; [discriminate|].
  cbn [fd_tab fd_data fd_fitted] in E.
  assert (Ek1 : map (kx cd) (bits xreal (map a_x us)) = xkeys cd us) by (unfold bits, xkeys; now rewrite !map_map).
  assert (Ek2 : map (kz cd) (map (fun a => map Fin (a_z a)) us) = zkeys cd us) by (unfold zkeys; now rewrite map_map).
  rewrite Ek1, Ek2 in E. destruct (tab_fit xreal (fd_tab s) (xkeys cd us) (zkeys cd us)) as [t [e|]] eqn:Et; [discriminate|].
  injection E as <-. cbn [fd_fitted fd_data fd_y fd_prob fd_tab fst] in *.
  split; [reflexivity|]. split; [exact Ef|]. split; [reflexivity|]. split.
  { rewrite Elo, mean_bits by (destruct us; [congruence|discriminate]). rewrite map_length, nclip_x by lra. reflexivity. }
  destruct (fit_x _ _ _ _ _ Hr Hok Et) as (m & Hm & Em & Hm0 & Hm1 & Hl & Hnd & Hin & Hzs & _ & Hcell & _).
  split; [exact Hzs|]. intros b Hb.
  assert (Hbk : In (kx cd (bit xreal b)) (xkeys cd us)).
  { apply in_map_iff in Hb as (a & <- & Ha). unfold xkeys. apply (in_map (fun a => kx cd (bit xreal (a_x a)))), Ha. }
  destruct (C15_common_amount r _ _ _ _ (kx cd (bit xreal b)) ltac:(lra) Hok Et Hbk) as (m' & dd & Hm' & Hans & Hdd & _).
  assert (m' = m) as -> by congruence. exists dd. rewrite <- Em. split.
  - intros z Hz. cbv zeta.
    assert (Hzk : In (kz cd (map Fin z)) (z_support t)).
    { unfold z_support. apply Hin. apply nodup_In in Hz. apply in_map_iff in Hz as (a & <- & Ha). unfold zkeys. apply (in_map (fun a => kz cd (map Fin (a_z a)))), Ha. }
    rewrite entry_val. specialize (Hans _ Hzk). cbv zeta in Hans. rewrite answer_val in Hans. apply (f_equal (hd XNaN)) in Hans. cbn [hd] in Hans. rewrite Hans.
    now rewrite (rfreq_given cd us c).
  - intros Hk. rewrite Hdd, (rsum_ext _ (fun _ => 0%R)).
    + rewrite rsum_zero. unfold Rdiv. apply Rmult_0_l.
    + intros q Hq. specialize (Hk q Hq). unfold viol. destruct (Rlt_dec _ m); [lra|]. destruct (Rlt_dec _ _); [lra|reflexivity].
Qed.
Print Assumptions C87_learns.

Lemma lift_map {A B} (f : A -> B) (P : A -> Prop) l : (forall b, In b l -> exists a, P a /\ b = f a) ->
  exists l0, l = map f l0 /\ forall a, In a l0 -> P a.
Proof.
  induction l as [|b l IH]; intros H; [exists []; split; [reflexivity|intros ? []]|].
  destruct IH as (l0 & -> & H0); [intros; apply H; now right|]. destruct (H b (or_introl eq_refl)) as (a & Ha & ->).
  exists (a :: l0). split; [reflexivity|]. intros q [<-|Hq]; auto.
Qed.

(** one covariate column: after the first fit on a sample whose conditional frequencies stay in both
    bands, with an outcome model that reproduces the cell means, the parameter holds exactly the
    sample's distribution, and C45 applies *)
Theorem C87_sample_truth :
  forall {M} (pr : predictor X M) (cd : coding X) (ridge : M) (cf : fd_conf X) lo r d us s' mu,
  fc_overlap cf = Fin lo -> (0 < lo <= 1 / 2)%R -> fc_ratio cf = Fin r -> (1 <= r)%R -> fc_dim cf = 1 ->
  of_population us 1 d -> population us -> Forall (fun a => a_w a = / INR (length us))%R us ->
  faithful cd us -> (forall b, kx cd (bit xreal b) = ki cd b) -> large_enough (fc_min cf) (map a_x us) ->
  fd_fit xreal pr cd cf (fd_new xreal ridge cf) d = (s', None) ->
  evaluates pr (fd_y s') 2 mu -> (forall z x, In z (z_values us) -> mu (b2r x :: z) = e_y us x z) ->
  (lo <= p_x us true <= 1 - lo)%R ->
  (let m := 1 / (INR (length (z_values us)) * r) in
   forall b z, In z (z_values us) -> Rmax lo m <= p_z_given us b z <= 1 - Rmax lo m)%R ->
  fd_truth pr cd s' us
  /\ exists scores, snd (fd_score xreal pr cd cf s' d) = Ok (map Fin scores)
     /\ pop_mean us scores = (2 * ate_frontdoor us - (mean_f3 us true - mean_f3 us false))%R.
Proof.
  intros M pr cd ridge cf lo r d us s' mu Elo Hlo Er Hr Hk Hd Hpop Hw Hfa Hbit HL E Hmu Hey Hpx Hband.
  assert (Hne : us <> []). { intros ->. destruct Hpop as (_ & H & _). cbn in H. lra. }
  assert (Hn : (0 < INR (length us))%R) by (apply lt_0_INR; destruct us; [congruence|cbn; lia]).
  assert (Hreach : fd_reached xreal pr cd ridge cf s').
  { change s' with (fst (s', @None exn)). rewrite <- E. eapply fr_fit; [apply fr_new|]. rewrite Hk. exact Hd. }
  assert (Hd' : of_population us (fc_dim cf) d) by now rewrite Hk.
  destruct (C87_learns pr cd ridge cf lo r (/ INR (length us)) (fd_new xreal ridge cf) d us s' Elo Hlo Er Hr (fr_new _ _ _ _ _) Hd' Hne Hw
             (Rinv_0_lt_compat _ Hn) Hfa HL E) as (Hfit & _ & _ & Hprob & Hzs & Hcells).
  cbn [fd_tab fd_new t_zs tab_new] in Hzs.
  destruct Hfa as (Hf1 & Hf2 & Hf3).
  assert (Hdup : NoDup (t_zs (fd_tab s'))).
  { destruct (reach_nodup xreal (fc_ratio cf) (fd_tab s') (reached_ok xreal pr cd ridge cf s' Hreach)) as (_ & H & _). exact H. }
  destruct (lift_map (fun z => kz cd (map Fin z)) (fun z => In z (z_values us)) (t_zs (fd_tab s'))) as (zs & Ezs & Hzin).
  { intros k Hin. rewrite Hzs in Hin. apply remember_all_in in Hin as [Hin|[]]. unfold zkeys in Hin. apply in_map_iff in Hin as (a & <- & Ha).
    exists (a_z a). split; [now apply in_zvalues|reflexivity]. }
  assert (Hperm : Permutation zs (z_values us)).
  { apply NoDup_Permutation.
    - rewrite Ezs in Hdup. now apply NoDup_map_inv in Hdup.
    - apply NoDup_nodup.
    - intros z. split; [apply Hzin|]. intros Hz.
      assert (Hi : In (kz cd (map Fin z)) (t_zs (fd_tab s'))).
      { rewrite Hzs. apply remember_all_in. left. apply nodup_In in Hz. apply in_map_iff in Hz as (a & <- & Ha). apply (in_map (fun a => kz cd (map Fin (a_z a)))), Ha. }
      rewrite Ezs in Hi. apply in_map_iff in Hi as (z' & Eq & Hz'). apply Hf2 in Eq; [now subst|now apply Hzin|exact Hz]. }
  assert (Elen : length (t_zs (fd_tab s')) = length (z_values us)) by (rewrite Ezs, map_length; now apply Permutation_length).
  cbv zeta in Hcells. rewrite Elen in Hcells. cbv zeta in Hband. set (m := (1 / (INR (length (z_values us)) * r))%R) in *.
  assert (Hmm : (m <= Rmax lo m)%R) by apply Rmax_r. assert (Hml : (lo <= Rmax lo m)%R) by apply Rmax_l.
  assert (Hx : forall b, In b (map a_x us)).
  { intros b. destruct us as [|a us'] eqn:Eu; [congruence|]. rewrite <- Eu in *.
    assert (Hz : In (a_z a) (z_values us)) by (apply in_zvalues; rewrite Eu; now left).
    destruct Hpop as (_ & _ & Hp). specialize (Hp (a_z a) b Hz). unfold p_xz in Hp. rewrite (mass_equal _ us _ Hw) in Hp.
    destruct (filter (fun a0 => has_x b a0 && has_z (a_z a) a0) us) as [|q l] eqn:Ef; [cbn in Hp; lra|].
    assert (Hq : In q (q :: l)) by now left. rewrite <- Ef in Hq. apply filter_In in Hq as [Hq Hb]. apply andb_true_iff in Hb as [Hb _].
    unfold has_x in Hb. apply eqb_prop in Hb. rewrite <- Hb. now apply in_map. }
  assert (Hcell : forall b z, In z (z_values us) -> entry_of (fd_tab s') (ki cd b) (kz cd (map Fin z)) = Fin (p_z_given us b z)).
  { intros b z Hz. destruct (Hcells b (Hx b)) as (common & Hc & H0). rewrite <- Hbit, (Hc z Hz).
    rewrite H0.
    - pose proof (Hband b z Hz). destruct (Rlt_dec _ m); [lra|]. destruct (Rlt_dec _ _); [lra|]. f_equal. lra.
    - intros q Hq. rewrite Ezs in Hq. apply in_map_iff in Hq as (z' & <- & Hz'). apply Hzin in Hz'.
      rewrite (rfreq_given cd us (/ INR (length us))); try assumption; try apply Hx; [|exact (conj Hf1 (conj Hf2 Hf3))|now apply Rinv_0_lt_compat].
      pose proof (Hband b z' Hz'). lra. }
  assert (T : fd_truth pr cd s' us).
  { split; [exact Hfit|]. split; [exists mu; auto|]. split.
    { rewrite Hprob. f_equal. replace (INR (treated (map a_x us)) / INR (length us))%R with (p_x us true) by (rewrite (treated_mass _ us Hw); unfold Rdiv; lra).
      apply rclip_id. lra. }
    split; [intros x z; eexists; eapply reached_entries; [exists r; exact Er|eassumption]|]. split; [exact Hcell|].
    exists zs. split; [|exact Hperm]. rewrite Ezs, !map_map. apply map_ext_in. intros z Hz. apply Hf3. now apply Hzin. }
  split; [exact T|]. apply (C45_mean_of_scores pr cd cf lo s' d us Elo Hlo Hk Hpop Hd T); [|exact Hbit].
  intros b z Hz. pose proof (Hband b z Hz). lra.
Qed.
Print Assumptions C87_sample_truth.

(** six units: P(Z=1|X=1) = 2/3, P(Z=1|X=0) = 1/3, Y = Z; the mean score of the training data is
    the front-door effect 1/3 doubled *)
Section C87Case.
  Let u x z : atom := mkAtom (/ 6) [z] x z.
  Let us : list atom := [u true 1%R; u true 1%R; u true 0%R; u false 1%R; u false 0%R; u false 0%R].
  Let d : expdata X := mkED (Some (mkArr [1] (map (fun a => map Fin (a_z a)) us))) (Some (vec (bits xreal (map a_x us))))
    (Some (vec (map (fun a => Fin (a_y a)) us))) 6 1.
  Let pr := funpred (fun r => nth 1 r 0%R).
  Lemma case_values : z_values us = [[1]; [0]]%R.
  Proof.
    unfold z_values, us, u. cbn [map a_z]. cbn [nodup].
    repeat match goal with |- context [in_dec z_eq ?a ?l] => let h := fresh in destruct (in_dec z_eq a l) as [h|h];
      [try (exfalso; cbn [In] in h; decompose [or] h; (contradiction || match goal with E : _ = _ |- _ => (exact (ne10 E) || exact (ne01 E)) end))|try (exfalso; apply h; cbn [In]; tauto)] end;
    reflexivity.
  Qed.
  Lemma case_px b : p_x us b = (1/2)%R.
  Proof. unfold us, u. destruct b; popc. Qed.
  Lemma case_pxz b z : In z (z_values us) -> p_xz us b z = (if Bool.eqb b (if z_eq z [1%R] then true else false) then 1/3 else 1/6)%R.
  Proof.
    intros Hz. rewrite case_values in Hz. unfold us, u. destruct Hz as [<-|[<-|[]]]; destruct b; popc.
  Qed.
  Lemma case_ey b z : In z (z_values us) -> e_y us b z = nth 0 z 0%R.
  Proof.
    intros Hz. unfold e_y. rewrite case_pxz by assumption. rewrite case_values in Hz. unfold us, u. destruct Hz as [<-|[<-|[]]]; destruct b; popc; cbn [nth]; try field.
  Qed.
  Example C87_case : exists s', fd_fit xreal pr codeE fcE (fd_new xreal tt fcE) d = (s', None) /\ fd_truth pr codeE s' us
    /\ ate_frontdoor us = (1/3)%R
    /\ exists scores, snd (fd_score xreal pr codeE fcE s' d) = Ok (map Fin scores) /\ pop_mean us scores = (2/3)%R.
  Proof.
    assert (Hd : of_population us 1 d) by (repeat split; repeat constructor).
    destruct (fd_first_fit pr codeE fcE tt d (map (fun a => map Fin (a_z a)) us) (map a_x us) (map (fun a => Fin (a_y a)) us) 20) as (s' & E & _ & Hy & _ & _);
      try reflexivity; try lra; try discriminate; try exact Hd.
    { split; cbn; lia. }
    exists s'. split; [exact E|].
    assert (Hg : forall b z, In z (z_values us) -> p_z_given us b z = (if Bool.eqb b (if z_eq z [1%R] then true else false) then 2/3 else 1/3)%R).
    { intros b z Hz. unfold p_z_given. rewrite case_px, case_pxz by assumption. destruct (Bool.eqb _ _); lra. }
    destruct (C87_sample_truth pr codeE tt fcE (1/20) 20 d us s' (fun r => nth 1 r 0%R)) as (T & scores & E1 & E2); try reflexivity; try lra; try assumption.
    - split; [|split].
      + intros a [<-|[<-|[<-|[<-|[<-|[<-|[]]]]]]]; cbn; lra.
      + unfold us, u. cbn [map a_w rsum]. lra.
      + intros z x Hz. rewrite case_pxz by assumption. destruct (Bool.eqb _ _); lra.
    - unfold us, u. repeat constructor; cbn [a_w length INR]; f_equal; lra.
    - split; [|split].
      + unfold bit. rewrite !nint_x. cbn [codeE kx]. rewrite is_one_1, is_one_0. discriminate.
      + rewrite case_values. intros z z' [<-|[<-|[]]] [<-|[<-|[]]]; cbn [map codeE kz]; rewrite ?is_one_1, ?is_one_0; congruence.
      + rewrite case_values. intros z [<-|[<-|[]]]; cbn [map codeE kz zk]; rewrite ?is_one_1, ?is_one_0; reflexivity.
    - intros b. rewrite bit_x. destruct b; cbn [codeE kx ki b2r]; [now rewrite is_one_1|now rewrite is_one_0].
    - split; cbn; lia.
    - rewrite Hy. apply funpred_evaluates.
    - intros z x Hz. now rewrite case_ey.
    - rewrite case_px. lra.
    - intros m b z Hz. rewrite Hg by assumption. subst m. rewrite case_values. cbn [length INR].
      unfold Rmax. destruct (Rle_dec _ _); destruct (Bool.eqb _ _); lra.
    - assert (I1 : In [1%R] (z_values us)) by (rewrite case_values; now left).
      assert (I0 : In [0%R] (z_values us)) by (rewrite case_values; right; now left).
      assert (G1 : forall b, p_z_given us b [1%R] = if b then (2/3)%R else (1/3)%R).
      { intros b. rewrite Hg by assumption. destruct (z_eq [1%R] [1%R]) as [_|Ex]; [|now elim Ex]. now destruct b. }
      assert (G0 : forall b, p_z_given us b [0%R] = if b then (1/3)%R else (2/3)%R).
      { intros b. rewrite Hg by assumption. destruct (z_eq [0%R] [1%R]) as [Ex|_]; [elim (ne01 Ex)|]. now destruct b. }
      assert (A : ate_frontdoor us = (1/3)%R).
      { unfold ate_frontdoor. rewrite case_values. cbn [map rsum]. rewrite !G1, !G0, !case_px, !case_ey by assumption. cbn [nth]. lra. }
      split; [exact T|]. split; [exact A|]. exists scores. split; [exact E1|].
      rewrite E2, A. unfold mean_f3, true_f3. rewrite case_values. cbn [map rsum]. rewrite !G1, !G0, !case_px, !case_ey by assumption. cbn [nth]. lra.
  Qed.
End C87Case.
