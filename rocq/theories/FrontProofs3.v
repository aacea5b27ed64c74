(** Fitting the front-door parameter on a sample whose frequencies are the truth, for any number of columns; a fitted
    parameter for the two-column instance of C127. *)
From Coq Require Import List Arith ZArith Bool String Reals Lra Lia Permutation.
From Verif Require Import PyBase PyLemmas Num NumOps NumLaws DataModel ScmModel TabModel TabSpec TabProofs TabProofs2 TabReal TabProps ArmModel
  ParamModel ParamSpec ParamSpec2 ParamProofs ParamProofs2 ParamProofs3 ParamProofs4 ParamProofs5 ParamProofs6 ParamProofs7 ParamProps ParamProps2 ParamProps3 FrontSpec.
Import ListNotations.
Open Scope nat_scope.
Open Scope list_scope.

Lemma sample_right :
  forall {M} (pr : predictor X M) (cd : coding X) (ridge : M) (cf : fd_conf X) lo r d us s' mu,
  fc_overlap cf = Fin lo -> (0 < lo <= 1 / 2)%R -> fc_ratio cf = Fin r -> (1 <= r)%R ->
  of_population us (fc_dim cf) d -> population us -> Forall (fun a => a_w a = / INR (List.length us))%R us ->
  faithful cd us -> (forall b, kx cd (bit xreal b) = ki cd b) -> large_enough (fc_min cf) (map a_x us) ->
  fd_fit xreal pr cd cf (fd_new xreal ridge cf) d = (s', None) ->
  evaluates pr (fd_y s') (S (fc_dim cf)) mu -> (forall z x, In z (z_values us) -> mu (b2r x :: z) = e_y us x z) ->
  (lo <= p_x us true <= 1 - lo)%R ->
  (let m := 1 / (INR (List.length (z_values us)) * r) in
   forall b z, In z (z_values us) -> Rmax lo m <= p_z_given us b z <= 1 - Rmax lo m)%R ->
  right_front pr cd (fc_dim cf) s' us.
Proof.
  intros M pr cd ridge cf lo r d us s' mu Elo Hlo Er Hr Hd Hpop Hw Hfa Hbit HL E Hmu Hey Hpx Hband.
  assert (Hne : us <> []). { intros ->. destruct Hpop as (_ & H & _). cbn in H. lra. }
  assert (Hn : (0 < INR (List.length us))%R) by (apply lt_0_INR; destruct us; [congruence|cbn; lia]).
  assert (Hreach : fd_reached xreal pr cd ridge cf s').
  { change s' with (fst (s', @None exn)). rewrite <- E. eapply fr_fit; [apply fr_new|]. exact Hd. }
  destruct (C87_learns pr cd ridge cf lo r (/ INR (List.length us)) (fd_new xreal ridge cf) d us s' Elo Hlo Er Hr (fr_new _ _ _ _ _) Hd Hne Hw
             (Rinv_0_lt_compat _ Hn) Hfa HL E) as (Hfit & _ & _ & Hprob & Hzs & Hcells).
  cbn [fd_tab fd_new t_zs tab_new] in Hzs.
  destruct Hfa as (Hf1 & Hf2 & Hf3).
  assert (Hdup : NoDup (t_zs (fd_tab s'))).
  { destruct (reach_nodup xreal (fc_ratio cf) (fd_tab s') (reached_ok xreal pr cd ridge cf s' Hreach)) as (_ & H & _). exact H. }
  destruct (lift_map (fun z => kz cd (map Fin z)) (fun z => In z (z_values us)) (t_zs (fd_tab s'))) as (zs & Ezs & Hzin).
  { intros k Hin. rewrite Hzs in Hin. apply remember_all_in in Hin as [Hin|[]]. unfold zkeys in Hin. apply in_map_iff in Hin as (a & <- & Ha).
    exists (a_z a). split; [now apply in_zvalues|reflexivity]. }
  assert (Hperm : Permutation zs (z_values us)).
  { apply NoDup_Permutation.
    - rewrite Ezs in Hdup. now apply NoDup_map_inv in Hdup.
    - apply NoDup_nodup.
    - intros z. split; [apply Hzin|]. intros Hz.
      assert (Hi : In (kz cd (map Fin z)) (t_zs (fd_tab s'))).
      { rewrite Hzs. apply remember_all_in. left. apply nodup_In in Hz. apply in_map_iff in Hz as (a & <- & Ha). apply (in_map (fun a => kz cd (map Fin (a_z a)))), Ha. }
      rewrite Ezs in Hi. apply in_map_iff in Hi as (z' & Eq & Hz'). apply Hf2 in Eq; [now subst|now apply Hzin|exact Hz]. }
  assert (Elen : List.length (t_zs (fd_tab s')) = List.length (z_values us)) by (rewrite Ezs, map_length; now apply Permutation_length).
  cbv zeta in Hcells. rewrite Elen in Hcells. cbv zeta in Hband. set (m := (1 / (INR (List.length (z_values us)) * r))%R) in *.
  assert (Hmm : (m <= Rmax lo m)%R) by apply Rmax_r. assert (Hml : (lo <= Rmax lo m)%R) by apply Rmax_l.
  assert (Hx : forall b, In b (map a_x us)).
  { intros b. destruct us as [|a us'] eqn:Eu; [congruence|]. rewrite <- Eu in *.
    assert (Hz : In (a_z a) (z_values us)) by (apply in_zvalues; rewrite Eu; now left).
    destruct Hpop as (_ & _ & Hp). specialize (Hp (a_z a) b Hz). unfold p_xz in Hp. rewrite (mass_equal _ us _ Hw) in Hp.
    destruct (filter (fun a0 => has_x b a0 && has_z (a_z a) a0) us) as [|q l] eqn:Ef; [cbn in Hp; lra|].
    assert (Hq : In q (q :: l)) by now left. rewrite <- Ef in Hq. apply filter_In in Hq as [Hq Hb]. apply andb_true_iff in Hb as [Hb _].
    unfold has_x in Hb. apply eqb_prop in Hb. rewrite <- Hb. now apply in_map. }
  assert (Hcell : forall b z, In z (z_values us) -> entry_of (fd_tab s') (ki cd b) (kz cd (map Fin z)) = Fin (p_z_given us b z)).
  { intros b z Hz. destruct (Hcells b (Hx b)) as (common & Hc & H0). rewrite <- Hbit, (Hc z Hz).
    rewrite H0.
    - pose proof (Hband b z Hz). destruct (Rlt_dec _ m); [lra|]. destruct (Rlt_dec _ _); [lra|]. f_equal. lra.
    - intros q Hq. rewrite Ezs in Hq. apply in_map_iff in Hq as (z' & <- & Hz'). apply Hzin in Hz'.
      rewrite (rfreq_given cd us (/ INR (List.length us))); try assumption; try apply Hx; [|exact (conj Hf1 (conj Hf2 Hf3))|now apply Rinv_0_lt_compat].
      pose proof (Hband b z' Hz'). lra. }
  assert (T : right_front pr cd (fc_dim cf) s' us).
  { split; [exact Hfit|]. split; [exists mu; auto|]. split.
    { rewrite Hprob. f_equal. replace (INR (treated (map a_x us)) / INR (List.length us))%R with (p_x us true) by (rewrite (treated_mass _ us Hw); unfold Rdiv; lra).
      apply rclip_id. lra. }
    split; [intros x z; eexists; eapply reached_entries; [exists r; exact Er|eassumption]|]. split; [exact Hcell|].
    exists zs. split; [|exact Hperm]. rewrite Ezs, !map_map. apply map_ext_in. intros z Hz. apply Hf3. now apply Hzin. }
  exact T.
Qed.

(** a parameter that is right for a population is right for another one with the same distribution *)
Lemma right_front_same {M} (pr : predictor X M) (cd : coding X) dim (st : fdoor X M) pop pop' :
  Permutation (z_values pop) (z_values pop') -> p_x pop true = p_x pop' true ->
  (forall b z, In z (z_values pop) -> e_y pop b z = e_y pop' b z /\ p_z_given pop b z = p_z_given pop' b z) ->
  right_front pr cd dim st pop -> right_front pr cd dim st pop'.
Proof.
  intros Hp Hx Hz (Hf & (mu & Hmu & Hey) & Hpx & Hfin & Htab & (zs & Hzs & Hperm)).
  assert (Hin : forall z, In z (z_values pop') -> In z (z_values pop)) by (intros z H; apply (Permutation_in z (Permutation_sym Hp)), H).
  split; [exact Hf|]. split.
  { exists mu. split; [exact Hmu|]. intros z x H. rewrite Hey by auto. now apply Hz, Hin. }
  split; [now rewrite <- Hx|]. split; [exact Hfin|]. split.
  { intros b z H. rewrite Htab by auto. f_equal. now apply Hz, Hin. }
  exists zs. split; [exact Hzs|]. now apply Permutation_trans with (z_values pop).
Qed.
