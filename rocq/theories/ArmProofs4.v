(** Arms: the log of nuisance fits and scores over a history (C26, C37). *)
From Coq Require Import List Arith ZArith Bool Permutation Lia.
From Verif Require Import PyBase PyLemmas Num NumOps DataModel DataSpec DataProofs DataProofs2 ArmModel ArmSpec ArmProofs1 ArmProofs2 ArmProofs3.
Import ListNotations.

Section Logs.
  Context {N V H G : Type} (o : numops N) (vnone : V) (eo : eta_ops N V H G) (w : arm_world N G)
          (tr : expdata V -> res (expdata V)).
  Notation larm := (arm N V (H * list (event V))).
  Notation lo := (logged_eta eo).

  (** ** the instrumented arm behaves like the plain one *)
  Lemma erase_absorb stable (a : larm) d delta g :
    absorb o vnone w tr stable (erase_arm a) d delta g =
    let '((a1, g1), e) := absorb o vnone w tr stable a d delta g in ((erase_arm a1, g1), e).
  Proof.
    unfold absorb. destruct (negb _); [reflexivity|]. destruct (split_new w tr d g) as [[ns|e] g1]; [|reflexivity].
    cbn [ar_split erase_arm]. destruct (ar_split a) as [fs|]; [destruct stable|]; try reflexivity.
    destruct (append_folds vnone fs ns) as [fs' e]. reflexivity.
  Qed.

  Lemma erase_score1 (a : larm) : score1 eo (erase_arm a) = let '(a', r) := score1 lo a in (erase_arm a', r).
  Proof.
    unfold score1. change (fold (erase_arm a) 1) with (fold a 1). destruct (fold a 1) as [f|e]; [|reflexivity].
    cbn [erase_arm ar_eta e_score logged_eta]. destruct (e_score eo (fst (ar_eta a)) f). reflexivity.
  Qed.

  Lemma erase_update opts (a : larm) d delta g :
    ss_update o vnone eo w tr opts (erase_arm a) d delta g =
    let '((a', g'), r) := ss_update o vnone lo w tr opts a d delta g in ((erase_arm a', g'), r).
  Proof.
    unfold ss_update. rewrite erase_absorb.
    destruct (absorb o vnone w tr (so_stable opts) a d delta g) as [[a1 g1] [e|]]; [reflexivity|].
    change (fold (erase_arm a1) 0) with (fold a1 0). destruct (fold a1 0) as [f0|]; [|reflexivity].
    cbn [erase_arm ar_eta e_fit logged_eta].
    destruct (e_fit eo (fst (ar_eta a1)) f0 g1) as [[h g2] [e|]]; [reflexivity|].
    cbn [e_enough logged_eta fst]. destruct (e_enough eo h); cbn [negb]; [|reflexivity].
    pose proof (erase_score1 (set_eta a1 (h, snd (ar_eta a1) ++ [EFit f0]))) as E.
    unfold logged_eta in E at 1. fold lo in E.
    match type of E with score1 eo ?x = _ => match goal with |- context [score1 eo ?y] => change y with x end end. rewrite E.
    destruct (score1 lo (set_eta a1 _)) as [a3 [s1|e]]; [|reflexivity]. clear E.
    pose proof (erase_score1 (set_ate a3 (nmean o s1))) as E.
    match type of E with score1 eo ?x = _ => match goal with |- context [score1 eo ?y] => change y with x end end. rewrite E.
    destruct (score1 lo (set_ate a3 _)) as [a5 [s2|e]]; [|reflexivity]. clear E.
    destruct (nisnan o _); [reflexivity|].
    match goal with |- context [fold (set_var (erase_arm a5) ?v) 1] => change (fold (set_var (erase_arm a5) v) 1) with (fold (set_var a5 v) 1) end.
    destruct (fold (set_var a5 _) 1) as [f1|]; [|reflexivity].
    destruct (so_ci opts).
    - destruct (chi2_ci o w _ delta _) as [l u]. reflexivity.
    - pose proof (erase_score1 (set_var a5 (nmean o (map (fun s => nsq o (nsub o s (nmean o s1))) s2)))) as E.
      match type of E with score1 eo ?x = _ => match goal with |- context [score1 eo ?y] => change y with x end end. rewrite E.
      destruct (score1 lo (set_var a5 _)) as [a7 [s3|e]]; [|reflexivity]. cbn [ar_pulled erase_arm].
      destruct (clt_ci o w _ _ _ _ _) as [l u]. reflexivity.
    - destruct (_ || _ || _); [reflexivity|]. cbn [ar_eta set_var erase_arm e_width logged_eta fst].
      destruct (e_width eo _ _ _ _) as [ew|]; [|reflexivity]. destruct (nltb o _ (so_burn opts)); [reflexivity|].
      destruct ew as [x|]; [|reflexivity]. destruct (fs_ci o _ _) as [l u]. reflexivity.
    - reflexivity.
  Qed.

  Lemma erase_feed opts h : forall (a : larm) g,
    feed (ss_update o vnone eo w tr opts) (erase_arm a) g h =
    let '((a', g'), rs) := feed (ss_update o vnone lo w tr opts) a g h in ((erase_arm a', g'), rs).
  Proof.
    induction h as [|[d delta] h IH]; intros a g; [reflexivity|]. cbn [feed]. rewrite erase_update.
    destruct (ss_update o vnone lo w tr opts a d delta g) as [[a1 g1] r]. rewrite IH.
    destruct (feed _ a1 g1 h) as [[a2 g2] rs]. reflexivity.
  Qed.

  (** ** the log over a history *)
  Notation U := (option (list V) * option (option (list V)) * option (option (list V)))%type.
  Definition log_ok (p : list (list U * list U)) (l : list (event V)) : Prop :=
    Forall (fun e => match e with
                     | EFit d => exists k, k <= length p /\ units d = concat (map fst (firstn k p))
                     | EScore d => exists k, k <= length p /\ units d = concat (map snd (firstn k p))
                     end) l.

  Lemma log_ok_grow p q l : log_ok p l -> log_ok (p ++ q) l.
  Proof.
    unfold log_ok. rewrite !Forall_forall. intros Hl e He. specialize (Hl e He).
    destruct e; destruct Hl as (k & Hk & Hu); exists k; (split; [rewrite app_length; lia|]);
      rewrite firstn_app; replace (k - length p) with 0 by lia; rewrite firstn_O, app_nil_r; exact Hu.
  Qed.

  Lemma log_step opts t0 (a : larm) p d delta g : fair_perm w -> so_stable opts = true -> folds_are t0 a p ->
    (valid_delta o delta = true -> forall t, tr d = Ok t -> aligned t /\ same_shape t0 t) ->
    forall a' g' r, ss_update o vnone lo w tr opts a d delta g = ((a', g'), r) ->
    exists q, Forall2 halves (transformed o tr [(d, delta)]) q /\ folds_are t0 a' (p ++ q) /\
      (log_of a' = log_of a \/
       exists f0 f1 k, ar_split a' = Some [f0; f1] /\ k <= 3 /\ log_of a' = log_of a ++ EFit f0 :: repeat (EScore f1) k) /\
      (log_of a' = log_of a <-> transformed o tr [(d, delta)] = []).
  Proof.
    intros Hp Hst Hf Hs a' g' r Eu.
    destruct (upd_step o vnone w tr _ _ (ss_frame' o vnone lo w tr opts) (ss_inv' o vnone lo w tr opts) Hp t0 a p d delta g Hf Hs) as (q & Hq & Hf').
    rewrite Hst, Eu in Hf'. cbn [fst] in Hf'. exists q. split; [exact Hq|]. split; [exact Hf'|].
    clear Hq Hf' q. unfold transformed. cbn [flat_map fst snd]. rewrite app_nil_r.
    destruct (valid_delta o delta) eqn:Hd.
    2:{ rewrite (ss_invalid_l o vnone lo w tr opts a d delta g Hd) in Eu. injection Eu as <- <- <-. tauto. }
    assert (Hinv : match ar_split a with
                   | None => True
                   | Some fs => exists f0 f1, fs = [f0; f1] /\ aligned f0 /\ aligned f1 /\ same_shape t0 f0 /\ same_shape t0 f1
                   end).
    { unfold folds_are in Hf. destruct (ar_split a); [|exact I]. destruct Hf as (_ & f0 & f1 & -> & ? & ? & ? & ? & _ & _).
      exists f0, f1. auto 6. }
    pose proof (absorb_data o vnone w tr (so_stable opts) a d delta g t0 Hp Hd (Hs eq_refl) Hinv) as Hab.
    destruct (tr d) as [t|e].
    - destruct Hab as (a1 & g1 & f0 & f1 & n0 & n1 & Ea & Esp & _).
      destruct (ss_log o vnone eo w tr opts a d delta g a1 g1 None f0 f1 Ea (fun _ => Esp) _ _ _ Eu) as [_ Hl].
      destruct (Hl eq_refl) as (k & Hk & El). split.
      + right. exists f0, f1, k. split; [rewrite (ss_frame' o vnone lo w tr opts _ _ _ _ _ _ _ Ea _ _ _ Eu); exact Esp|]. auto.
      + rewrite El. split; [|discriminate]. intros E. exfalso. rewrite <- (app_nil_r (log_of a)) in E at 2.
        apply app_inv_head in E. discriminate.
    - destruct Hab as (a1 & Ea & Esp).
      destruct (ss_frame o vnone lo w tr opts a d delta g _ _ _ Ea _ _ _ Eu) as (_ & _ & _ & Hx).
      destruct (Hx e eq_refl) as (-> & _ & _). pose proof (absorb_log o vnone w tr _ _ _ _ _ _ _ _ Ea) as El. rewrite El. tauto.
  Qed.

  Lemma log_hist opts t0 : fair_perm w -> so_stable opts = true -> forall h (a : larm) g p,
    folds_are t0 a p -> log_ok p (log_of a) -> well_shaped o tr t0 h ->
    let a' := fst (fst (feed (ss_update o vnone lo w tr opts) a g h)) in
    exists q, Forall2 halves (transformed o tr h) q /\ folds_are t0 a' (p ++ q) /\ log_ok (p ++ q) (log_of a').
  Proof.
    intros Hp Hst. cbv zeta. induction h as [|[d delta] h IH]; intros a g p Hf Hl Hw.
    - exists []. rewrite app_nil_r. split; [constructor|]. auto.
    - cbn [feed]. destruct (ss_update o vnone lo w tr opts a d delta g) as [[a1 g1] r] eqn:Eu.
      destruct (log_step opts t0 a p d delta g Hp Hst Hf (shaped_head o tr _ _ _ _ Hw) _ _ _ Eu) as (q1 & F1 & P1 & Hlog & _).
      assert (Hl1 : log_ok (p ++ q1) (log_of a1)).
      { destruct Hlog as [->|(f0 & f1 & k & Es & _ & ->)]; [apply log_ok_grow; exact Hl|].
        unfold folds_are in P1. rewrite Es in P1. destruct P1 as (_ & x0 & x1 & E & _ & _ & _ & _ & U0 & U1). injection E as <- <-.
        unfold log_ok. apply Forall_app. split; [apply log_ok_grow; exact Hl|]. constructor.
        - exists (length (p ++ q1)). rewrite firstn_all. auto.
        - apply Forall_forall. intros e He. apply repeat_spec in He. subst e. exists (length (p ++ q1)). rewrite firstn_all. auto. }
      destruct (IH a1 g1 _ P1 Hl1 (shaped_tail o tr _ _ _ Hw)) as (q2 & F2 & P2 & L2).
      destruct (feed _ a1 g1 h) as [[a2 g2] rs]. cbn [fst] in *. exists (q1 ++ q2).
      split; [rewrite transformed_cons; apply Forall2_app; assumption|]. rewrite app_assoc. auto.
  Qed.

  (** [l] and [m] concatenated over prefixes stay disjoint when everything is distinct *)
  Lemma concat_firstn_in {X} (k : nat) (l : list (list X)) x : In x (concat (firstn k l)) -> In x (concat l).
  Proof. rewrite <- (firstn_skipn k l) at 2. rewrite concat_app. intros Hx. apply in_or_app. left. exact Hx. Qed.

  Lemma separation opts t0 h (a : larm) g : fair_perm w -> so_stable opts = true -> ar_split a = None -> log_of a = [] ->
    well_shaped o tr t0 h ->
    let a' := fst (fst (feed (ss_update o vnone lo w tr opts) a g h)) in
    exists parts, Forall2 halves (transformed o tr h) parts /\
      Forall (fun e => match e with
                       | EFit d => exists k, k <= length parts /\ units d = concat (map fst (firstn k parts))
                       | EScore d => exists k, k <= length parts /\ units d = concat (map snd (firstn k parts))
                       end) (log_of a') /\
      (NoDup (concat (map units (transformed o tr h))) ->
       forall d d' u, In (EFit d) (log_of a') -> In (EScore d') (log_of a') -> In u (units d) -> ~ In u (units d')).
  Proof.
    intros Hp Hst Hn Hl0 Hw. cbv zeta.
    destruct (log_hist opts t0 Hp Hst h a g []) as (q & Hq & Hf & Hl).
    { unfold folds_are. rewrite Hn. reflexivity. } { rewrite Hl0. constructor. } { exact Hw. }
    simpl in Hf, Hl. exists q. split; [exact Hq|]. split; [exact Hl|].
    intros Hnd d d' u Hd Hd' Hu Hu'. unfold log_ok in Hl. rewrite Forall_forall in Hl.
    destruct (Hl _ Hd) as (k & _ & Ek). destruct (Hl _ Hd') as (k' & _ & Ek').
    rewrite Ek, <- firstn_map in Hu. rewrite Ek', <- firstn_map in Hu'. apply concat_firstn_in in Hu. apply concat_firstn_in in Hu'.
    pose proof (Permutation_NoDup (Permutation_sym (units_total _ _ Hq)) Hnd) as Hnd'.
    revert Hu Hu' Hnd'. generalize (concat (map fst q)) (concat (map snd q)). intros l m. induction l as [|x l IHl]; simpl; [tauto|].
    intros [->|Hl1] Hm Hnd'; inversion Hnd' as [|? ? Hx Hnd2]; [apply Hx, in_or_app; auto|auto].
  Qed.

  (** ** bootstrap *)
  Lemma boot_log total n : forall (a : larm) g acc a' g' r,
    boot_loop o lo w total n a g acc = ((a', g'), r) ->
    exists evs, log_of a' = log_of a ++ evs /\
      (forall samples, r = Ok samples -> length samples = length acc + n /\
         (1 <= n -> exists f0 us din dout, fold a 0 = Ok f0 /\ subsample (fun _ => us) f0 (boot_prob total) = Ok (din, dout) /\
            exists pre, evs = pre ++ [EFit din; EScore dout])).
  Proof.
    induction n as [|n IH]; intros a g acc a' g' r; cbn [boot_loop].
    { intros E; injection E as <- <- <-. exists []. rewrite app_nil_r. split; [reflexivity|]. intros s Es. injection Es as <-. split; [lia|]. lia. }
    destruct (fold a 0) as [f0|] eqn:E0; [|intros E; injection E as <- <- <-; exists []; rewrite app_nil_r; split; [reflexivity|discriminate]].
    destruct (subsample _ f0 _) as [[din dout]|] eqn:Esub; [|intros E; injection E as <- <- <-; exists []; rewrite app_nil_r; split; [reflexivity|discriminate]].
    cbn [e_fit e_score logged_eta].
    destruct (e_fit eo (fst (ar_eta a)) din _) as [[h g2] [e|]].
    { intros E; injection E as <- <- <-. exists [EFit din]. split; [reflexivity|discriminate]. }
    cbn [fst snd]. destruct (e_score eo h dout) as [h2 [s|e]].
    2:{ intros E; injection E as <- <- <-. exists ([EFit din] ++ [EScore dout]). unfold log_of. simpl. rewrite <- app_assoc. split; [reflexivity|discriminate]. }
    intros E. pose proof E as Eb. apply IH in E as (evs & El & Hr). exists (EFit din :: EScore dout :: evs). split.
    { rewrite El. unfold log_of. simpl. rewrite <- !app_assoc. reflexivity. }
    intros samples Es. destruct (Hr samples Es) as [Hlen Hlast]. rewrite app_length in Hlen. simpl in Hlen. split; [lia|]. intros _.
    destruct n as [|n].
    - destruct evs as [|x evs].
      + exists f0, (fst (aw_draw w g (n_units f0))), din, dout. split; [reflexivity|]. split; [exact Esub|]. exists []. reflexivity.
      + exfalso. cbn [boot_loop] in Eb. injection Eb as E1 _ _. subst a'. unfold log_of in El. simpl in El.
        rewrite <- (app_nil_r ((snd (ar_eta a) ++ [EFit din]) ++ [EScore dout])) in El at 1. apply app_inv_head in El. discriminate.
    - destruct (Hlast ltac:(lia)) as (f0' & us & din' & dout' & Ef & Esu & pre & ->).
      change (fold (set_eta a _) 0) with (fold a 0) in Ef. rewrite E0 in Ef. injection Ef as <-.
      exists f0, us, din', dout'. split; [reflexivity|]. split; [exact Esu|]. exists (EFit din :: EScore dout :: pre). reflexivity.
  Qed.
End Logs.
