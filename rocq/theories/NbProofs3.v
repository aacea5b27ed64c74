(** Lemmas for NbProps.v: arms with nested intervals need the same number of rounds in successive
    elimination and in the uniform algorithm. *)
From Coq Require Import List Arith ZArith Reals Lra Lia Bool.
From Flocq Require Import Core BinarySingleNaN.
From Verif Require Import PyBase PyLemmas Num NumLemmas BanditModel BanditSpec BanditProofs1 BanditProofs2 BanditProofs3 BanditProofs4
  NbSpec.
Import ListNotations.
Open Scope nat_scope.

Lemma finite_num (x : F) : is_finite x = true -> num x.
Proof. destruct x; try discriminate; reflexivity. Qed.
Lemma finite_not_inf (x : F) : is_finite x = true -> fisinf x = false.
Proof. destruct x; try discriminate; reflexivity. Qed.

Lemma fsub_zero (x : F) : is_finite x = true -> is_finite (fsub x f0) = true /\ B2R (fsub x f0) = B2R x.
Proof.
  intros Fx. pose proof (Bminus_correct 53 1024 _ _ mode_NE x f0 Fx eq_refl) as H. change (Bminus mode_NE x f0) with (fsub x f0) in H.
  change (B2R f0) with 0%R in H. rewrite Rminus_0_r in H.
  rewrite round_generic in H; [|auto with typeclass_instances|apply generic_format_B2R].
  rewrite Rlt_bool_true in H by apply abs_B2R_lt_emax. destruct H as (H1 & H2 & _). auto.
Qed.

Lemma in_without {X} i (l : list X) y : In y (without i l) -> exists j, j <> i /\ nth_error l j = Some y.
Proof.
  unfold without. rewrite in_app_iff. intros [H|H]; apply In_nth_error in H as (j & H).
  - assert (Hj : j < length (firstn i l)) by (apply nth_error_Some; congruence). pose proof (firstn_le_length i l). rewrite firstn_length in Hj.
    exists j. split; [lia|]. rewrite <- (firstn_skipn i l), nth_error_app1 by (rewrite firstn_length; lia). exact H.
  - exists (S i + j). split; [lia|]. rewrite <- H. rewrite <- (firstn_skipn (S i) l) at 1.
    assert (Hl : S i < length l) by (assert (nth_error (skipn (S i) l) j <> None) as H' by congruence; apply nth_error_Some in H'; rewrite skipn_length in H'; lia).
    rewrite nth_error_app2 by (rewrite firstn_length; lia). f_equal. rewrite firstn_length. lia.
Qed.

Section Sim.
  Context {A D G : Type} (ops : arm_ops A D G) (w : world D G) (cfg : config).
  Notation bstate := (bstate (A := A) (G := G)).
  Implicit Types s : bstate.
  Variables (at_update : nat -> nat -> A -> Prop) (rdg : nat -> nat -> reading) (K : nat) (data : D).
  Notation all := (Some data).
  Notation delta := (fdiv (c_error_prob cfg) (f_of_nat K)).
  Hypothesis Hsc : scripted ops w data (c_units cfg) delta at_update rdg.
  Hypothesis Hne : nested K rdg.
  Notation lo := (lo_end rdg).
  Notation hi := (hi_end rdg).
  Notation var i t := (B2R (r_var (rdg i t))).

  Lemma key_lo i t : i < K -> num (r_lcb (rdg i t)) /\ fkey (r_lcb (rdg i t)) = lo i t.
  Proof. intros Hi. destruct (ns_finite _ _ Hne i t Hi) as (H & _ & _). split; [apply finite_num, H|apply fkey_finite, H]. Qed.
  Lemma key_hi i t : i < K -> num (r_ucb (rdg i t)) /\ fkey (r_ucb (rdg i t)) = hi i t.
  Proof. intros Hi. destruct (ns_finite _ _ Hne i t Hi) as (_ & H & _). split; [apply finite_num, H|apply fkey_finite, H]. Qed.
  Lemma key_var i t : i < K -> num (r_var (rdg i t)) /\ fkey (r_var (rdg i t)) = var i t.
  Proof. intros Hi. destruct (ns_finite _ _ Hne i t Hi) as (_ & _ & H). split; [apply finite_num, H|apply fkey_finite, H]. Qed.

  (** what an elimination does in round t, when the candidates give their readings of the round *)
  Lemma eliminate_nested t cand rs cand' : (forall c, In c cand -> c < K /\ c < length rs /\ rd rs c = rdg c t) ->
    eliminate cand rs = Ok cand' ->
    exists b, In b cand /\ In b cand' /\ (forall c, In c cand -> (var b t <= var c t)%R) /\
      (forall c, In c cand' <-> In c cand /\ (lo c t < hi b t)%R).
  Proof.
    intros Hc He. destruct (eliminate_spec cand rs cand') as (b & Hb & _ & Hmin & ->); [intros i Hi; apply Hc, Hi|exact He|].
    exists b. assert (Hin : forall c, In c (select (map (fun i => fltb (r_lcb (rd rs i)) (r_ucb (rd rs b))) cand) cand) <-> In c cand /\ (lo c t < hi b t)%R).
    { intros c. rewrite (select_map_In (fun i => fltb (r_lcb (rd rs i)) (r_ucb (rd rs b)))). destruct (Hc b Hb) as (Kb & _ & Eb). split; intros [H1 H2]; (split; [exact H1|]); destruct (Hc c H1) as (Kc & _ & Ec).
      - rewrite Eb, Ec in H2. apply fltb_spec in H2 as (_ & _ & H2). now rewrite (proj2 (key_lo c t Kc)), (proj2 (key_hi b t Kb)) in H2.
      - rewrite Eb, Ec. apply fltb_spec. rewrite (proj2 (key_lo c t Kc)), (proj2 (key_hi b t Kb)). split; [apply key_lo, Kc|]. split; [apply key_hi, Kb|exact H2]. }
    destruct (Hc b Hb) as (Kb & _ & Eb). split; [exact Hb|]. split; [apply Hin; split; [exact Hb|apply (ns_proper _ _ Hne), Kb]|]. split; [|exact Hin].
    intros c Hcc. destruct (Hc c Hcc) as (Kc & _ & Ec). specialize (Hmin c Hcc). rewrite Eb, Ec in Hmin.
    rewrite (proj2 (key_var b t Kb)), (proj2 (key_var c t Kc)) in Hmin. apply Hmin, key_var, Kc.
  Qed.

  (** pulling distinct arms *)
  Lemma pull_list_scripted t : forall is arms g, NoDup is -> (forall i, In i is -> exists a, nth_error arms i = Some a /\ at_update i t a) ->
    exists arms' g', pull_list ops w cfg all delta is arms g = ((arms', g'), None) /\ length arms' = length arms /\
      (forall j, ~ In j is -> nth_error arms' j = nth_error arms j) /\
      (forall i, In i is -> exists a, nth_error arms' i = Some a /\ at_update i (S t) a /\ reports ops a (rdg i t)).
  Proof.
    induction is as [|i is IH]; intros arms g Hnd Hall.
    - exists arms, g. cbn. split; [reflexivity|]. split; [reflexivity|]. split; [auto|contradiction].
    - inversion Hnd as [|? ? Hni Hnd']; subst. destruct (Hall i (or_introl eq_refl)) as (a & Ea & Ha). cbn [pull_list]. rewrite Ea.
      destruct (Hsc i t a g Ha) as (Hun & d & a' & g2 & Ed & Eu & Ha' & Hr). unfold get_data. rewrite Hun, Ed, Eu.
      destruct (IH (modify i (fun _ => a') arms) g2 Hnd') as (arms' & g3 & Ep & El & Ho & Hp).
      { intros j Hj. rewrite nth_error_modify. destruct (Nat.eqb_spec i j) as [<-|Hji]; [contradiction|]. apply Hall. now right. }
      exists arms', g3. split; [exact Ep|]. split; [rewrite El; apply modify_length|]. split.
      + intros j Hj. rewrite Ho by (intros H; apply Hj; now right). rewrite nth_error_modify. destruct (Nat.eqb_spec i j) as [<-|Hji]; [exfalso; apply Hj; now left|reflexivity].
      + intros j [<-|Hj]; [|apply Hp, Hj]. rewrite Ho by exact Hni. rewrite nth_error_modify, Nat.eqb_refl, Ea. exists a'. auto.
  Qed.

  Definition jse s : Prop := se_inv ops cfg K s /\
    (forall c, In c (b_cand s) -> exists a, nth_error (b_arms s) c = Some a /\ at_update c (length (b_cum s)) a) /\
    (forall j, j < K -> ~ In j (b_cand s) -> 1 <= length (b_cum s) /\ exists c, In c (b_cand s) /\ (hi c (length (b_cum s) - 1) <= lo j (length (b_cum s) - 1))%R) /\
    (forall t i, t < length (b_cum s) -> ~ decided K rdg t i) /\ 2 <= length (b_cand s).

  Lemma se_round s arms' g2 rs cand' : jse s ->
    pull_list ops w cfg all (delta_of cfg (b_arms s)) (b_cand s) (b_arms s) (b_g s) = ((arms', g2), None) ->
    collect ops arms' = Ok rs -> eliminate (b_cand s) rs = Ok cand' ->
    let t := length (b_cum s) in
    cand' <> [] /\
    (forall c, In c cand' -> exists a, nth_error arms' c = Some a /\ at_update c (S t) a) /\
    (forall j, j < K -> ~ In j cand' -> exists c, In c cand' /\ (hi c t <= lo j t)%R) /\
    (forall i, decided K rdg t i -> forall c, In c cand' -> c = i).
  Proof.
    intros (Hi & Ha & Hb & Hc & Hd) Hp Hco He t.
    destruct (pull_list_scripted t (b_cand s) (b_arms s) (b_g s) (se_nd _ _ _ _ Hi) Ha) as (arms2 & g3 & Ep & El & Ho & Hpp).
    pose proof (sh_arms _ _ _ (se_shp _ _ _ _ Hi)) as HK. unfold delta_of in Hp. rewrite HK in Hp. rewrite Hp in Ep. injection Ep as <- <-.
    pose proof (collect_length ops _ _ Hco) as Hl.
    assert (Hrd : forall c, In c (b_cand s) -> c < K /\ c < length rs /\ rd rs c = rdg c t).
    { intros c Hcc. pose proof (se_b _ _ _ _ Hi c Hcc) as HcK. split; [exact HcK|]. split; [lia|].
      destruct (Hpp c Hcc) as (a & Ea & _ & Hr). apply read_reports in Hr.
      destruct (collect_nth ops _ _ c a Hco Ea) as (r & Er & Er'). apply read_reports in Er'. rewrite Hr in Er'. injection Er' as <-.
      unfold rd. now apply nth_error_nth. }
    destruct (eliminate_nested t _ _ _ Hrd He) as (b & Hbc & Hbc' & Hmin & Hin).
    assert (HK' : forall c, In c (b_cand s) -> c < K) by (intros; apply (se_b _ _ _ _ Hi); assumption).
    assert (Hout : forall j, j < K -> ~ In j (b_cand s) -> exists c, In c (b_cand s) /\ (hi c t <= lo j t)%R).
    { intros j Hj Hjc. destruct (Hb j Hj Hjc) as (HR & c & Hcc & Hle). fold t in HR, Hle. exists c. split; [exact Hcc|].
      destruct (ns_shrink _ _ Hne c (t - 1) (HK' c Hcc)) as [_ H1]. destruct (ns_shrink _ _ Hne j (t - 1) Hj) as [H2 _].
      replace (S (t - 1)) with t in H1, H2 by lia. lra. }
    split; [intros ->; exact Hbc'|]. split; [intros c Hcc; apply Hin in Hcc as [Hcc _]; destruct (Hpp c Hcc) as (a & Ea & Hat & _); eauto|]. split.
    - intros j Hj Hni. destruct (in_dec Nat.eq_dec j (b_cand s)) as [Hjc|Hjc].
      + exists b. split; [exact Hbc'|]. destruct (Rle_or_lt (hi b t) (lo j t)) as [|Hlt]; [assumption|]. exfalso. apply Hni, Hin. auto.
      + destruct (Hout j Hj Hjc) as (c & Hcc & Hst). destruct (Rlt_or_le (lo c t) (hi b t)) as [Hlt|Hge].
        * exists c. split; [apply Hin; auto|exact Hst].
        * exists b. split; [exact Hbc'|]. pose proof (ns_proper _ _ Hne c t (HK' c Hcc)). lra.
    - intros i (HiK & Hdec) c Hcc. destruct (Nat.eq_dec c i) as [|Hci]; [assumption|]. exfalso. apply Hin in Hcc as [Hcc Hlt].
      assert (Hic : In i (b_cand s)).
      { destruct (in_dec Nat.eq_dec i (b_cand s)) as [|Hni]; [assumption|]. exfalso. destruct (Hout i HiK Hni) as (c0 & Hc0 & Hle).
        assert (c0 <> i) by congruence. pose proof (Hdec c0 (HK' c0 Hc0) ltac:(assumption)). pose proof (ns_proper _ _ Hne c0 t (HK' c0 Hc0)). pose proof (ns_proper _ _ Hne i t HiK). lra. }
      assert (b = i).
      { destruct (Nat.eq_dec b i) as [|Hbi]; [assumption|]. exfalso. pose proof (Hdec b (HK' b Hbc) Hbi). specialize (Hmin i Hic).
        pose proof (ns_inside _ _ Hne b t (HK' b Hbc)). pose proof (ns_inside _ _ Hne i t HiK). lra. }
      subst b. pose proof (Hdec c (HK' c Hcc) Hci). lra.
  Qed.

  Lemma two_distinct (l : list nat) i : NoDup l -> 2 <= length l -> exists c, In c l /\ c <> i.
  Proof.
    intros Hnd Hl. destruct l as [|x [|y l]]; cbn in Hl; try lia. destruct (Nat.eq_dec x i) as [->|Hx]; [|exists x; split; [now left|exact Hx]].
    exists y. split; [right; now left|]. inversion Hnd as [|? ? Hx _]; subst. intros ->. apply Hx. now left.
  Qed.

  (** successive elimination stops in the first round after which an arm is decided *)
  Lemma se_run_decided fuel arms g best s : length arms = K -> 2 <= K ->
    (forall i a, nth_error arms i = Some a -> at_update i 0 a) ->
    run SE ops w cfg fuel all arms g = Returned best s -> ~ exceeds (b_total s) (c_limit cfg) ->
    exists i t, best = [i] /\ length (b_cum s) = S t /\ decided K rdg t i /\ forall t' j, t' < t -> ~ decided K rdg t' j.
  Proof.
    intros HK HK2 H0 Hr Hnl.
    pose proof (run_inv ops w cfg SE fuel all arms g jse (fun best s => ~ exceeds (b_total s) (c_limit cfg) ->
      exists i t, best = [i] /\ length (b_cum s) = S t /\ decided K rdg t i /\ forall t' j, t' < t -> ~ decided K rdg t' j)) as H.
    rewrite Hr in H. apply H; [|discriminate| |exact Hnl]; clear H.
    - intros _. split; [rewrite <- HK; apply se_inv_init|]. cbn [binit b_cand b_arms b_cum length]. split.
      + intros c Hc. apply in_seq in Hc. destruct (nth_error arms c) as [a|] eqn:Ea; [|apply nth_error_None in Ea; lia]. eauto.
      + split; [intros j Hj Hni; exfalso; apply Hni, in_seq; lia|]. split; [intros; lia|]. rewrite seq_length. lia.
    - intros s0 Hj. pose proof Hj as (Hi & Ha & Hb & Hc & Hd). pose proof (se_step_inv ops w cfg all s0) as H.
      destruct (se_step ops w cfg all s0) as [s'|best' s'|e s']; [| |exact I].
      + destruct H as (Hl & Ho & arms' & g2 & rs & cand' & Hp & Hco & He & -> & Hn1).
        destruct (se_round s0 arms' g2 rs cand' Hj Hp Hco He) as (Hne' & Ha' & Hb' & Hc').
        assert (Hlen : length (b_cum (s_next cfg s0 arms' g2 rs cand')) = S (length (b_cum s0))) by (cbn; rewrite app_length; cbn; lia).
        pose proof (se_inv_next ops w cfg K all s0 arms' g2 rs cand' Hi ltac:(lia) Hp Hco He) as Hi'.
        assert (Hl2 : 2 <= length cand') by (destruct cand' as [|x [|y l]]; cbn in Hn1 |- *; [congruence|lia|lia]).
        split; [exact Hi'|]. rewrite Hlen. split; [exact Ha'|]. split; [|split; [|exact Hl2]].
        * intros j Hj' Hni. split; [lia|]. rewrite Nat.sub_succ, Nat.sub_0_r. apply Hb'; assumption.
        * intros t i Ht. destruct (Nat.eq_dec t (length (b_cum s0))) as [->|Ht']; [|apply Hc; lia].
          intros Hdec. destruct (two_distinct cand' i (se_nd _ _ _ _ Hi') Hl2) as (c & Hcc & Hci). exact (Hci (Hc' i Hdec c Hcc)).
      + destruct H as [(-> & -> & Hle)|[(-> & Hl & Ho & _)|(Hl & Ho & arms' & g2 & rs & Hp & Hco & He & -> & Hn1)]].
        * lia.
        * intros Hnl'. exfalso. apply Hnl', over_limit_exceeds, Ho.
        * intros _. destruct (se_round s0 arms' g2 rs best' Hj Hp Hco He) as (Hne' & Ha' & Hb' & Hc').
          destruct best' as [|i [|y l]]; cbn in Hn1; try lia. exists i, (length (b_cum s0)). split; [reflexivity|].
          split; [cbn; rewrite app_length; cbn; lia|]. split; [|intros t' j Ht'; apply Hc; exact Ht'].
          pose proof (se_inv_next ops w cfg K all s0 arms' g2 rs [i] Hi Hl Hp Hco He) as Hi'.
          assert (HiK : i < K) by (apply (se_b _ _ _ _ Hi'); now left). split; [exact HiK|].
          intros j Hj' Hji. destruct (Hb' j Hj') as (c & [<-|[]] & Hle); [intros [H|[]]; congruence|].
          pose proof (ns_apart _ _ Hne j i (length (b_cum s0)) Hj' HiK Hji). lra.
  Qed.

  (** ** the uniform algorithm *)
  Lemma pull_all_scripted t d : w_slice w data (t * c_units cfg) (t * c_units cfg + c_units cfg) = Ok d -> forall k arms g, (forall j a, nth_error arms j = Some a -> at_update (k + j) t a) ->
    exists arms' g', pull_all ops d delta arms g = ((arms', g'), Ok (map (fun i => rdg i t) (seq k (length arms)))) /\ length arms' = length arms /\
      collect ops arms' = Ok (map (fun i => rdg i t) (seq k (length arms))) /\
      (forall j a, nth_error arms' j = Some a -> at_update (k + j) (S t) a).
  Proof.
    intros Hd k arms. revert k. induction arms as [|a arms IH]; intros k g Hall.
    - exists [], g. cbn. split; [reflexivity|]. split; [reflexivity|]. split; [reflexivity|]. intros [|j] a H; discriminate.
    - assert (Ha : at_update k t a) by (specialize (Hall 0 a eq_refl); now rewrite Nat.add_0_r in Hall).
      destruct (Hsc k t a g Ha) as (_ & d' & a' & g1 & Ed & Eu & Ha' & Hr). rewrite Hd in Ed. injection Ed as <-. apply read_reports in Hr.
      destruct (IH (S k) g1) as (arms' & g2 & Ep & El & Ec & Hat).
      { intros j b Hj. specialize (Hall (S j) b Hj). now rewrite Nat.add_succ_r in Hall. }
      exists (a' :: arms'), g2. cbn [pull_all length seq map]. rewrite Eu, Hr, Ep. split; [reflexivity|]. split; [cbn; lia|].
      split; [cbn [collect mapM]; unfold collect in Ec; cbn [mapM]; rewrite Hr; cbn [bind]; now rewrite Ec|].
      intros [|j] b Hj; [injection Hj as <-; now rewrite Nat.add_0_r|]. rewrite Nat.add_succ_r. apply (Hat j b Hj).
  Qed.

  Lemma nth_readings t i : i < K -> nth_error (map (fun i => rdg i t) (seq 0 K)) i = Some (rdg i t).
  Proof. intros H. rewrite nth_error_map, nth_error_nth' with (d := 0) by (rewrite seq_length; exact H). now rewrite seq_nth by exact H. Qed.

  Lemma check_nested t : 2 <= K -> c_error_tol cfg = f0 ->
    exists i b, check_end cfg (map (fun i => rdg i t) (seq 0 K)) = Ok (b, [i]) /\ (b = true <-> decided K rdg t i) /\ (forall j, decided K rdg t j -> j = i).
  Proof.
    intros HK Htol. set (rs := map (fun i => rdg i t) (seq 0 K)).
    assert (Hlen : length rs = K) by (unfold rs; now rewrite map_length, seq_length).
    assert (Hin : forall x (f : reading -> x) y, In y (map f rs) <-> exists i, i < K /\ y = f (rdg i t)).
    { intros x f y. unfold rs. rewrite map_map, in_map_iff. split; [intros (i & <- & Hi); apply in_seq in Hi; exists i; split; [lia|reflexivity]|].
      intros (i & Hi & ->). exists i. split; [reflexivity|]. apply in_seq. lia. }
    unfold check_end. fold rs.
    assert (Einf : existsb fisinf (map r_ucb rs) = false).
    { apply not_true_is_false. intros H. apply existsb_exists in H as (y & Hy & Hinf). apply Hin in Hy as (i & Hi & ->).
      rewrite (finite_not_inf _ (proj1 (proj2 (ns_finite _ _ Hne i t Hi)))) in Hinf. discriminate. }
    rewrite Einf.
    assert (Hnv : Forall num (map r_var rs)) by (apply Forall_forall; intros y Hy; apply Hin in Hy as (i & Hi & ->); apply key_var, Hi).
    assert (Hnl : Forall num (map r_lcb rs)) by (apply Forall_forall; intros y Hy; apply Hin in Hy as (i & Hi & ->); apply key_lo, Hi).
    destruct (py_min fltb (map r_var rs)) as [m|e] eqn:Em; [|destruct rs; [cbn in Hlen; lia|discriminate]].
    cbn [bind]. pose proof (py_min_in _ _ Em) as Hm. rewrite Forall_forall in Hnv. pose proof (Hnv m Hm) as Hmn. unfold num in Hmn. rewrite Hmn.
    destruct (np_argmin (map r_var rs)) as [i|e] eqn:Ei; [|destruct rs; [cbn in Hlen; lia|discriminate]]. cbn [bind].
    pose proof (np_argmin_bound _ _ Ei) as HiK. rewrite map_length, Hlen in HiK.
    rewrite <- Forall_forall in Hnv. pose proof (np_argmin_spec _ _ Hnv Ei) as Hmin.
    destruct Hmin as (mi & Hmi & Hmin_n & Hmin).
    unfold rs in Hmi. rewrite map_map, nth_error_map, (nth_error_nth' _ 0) in Hmi by (rewrite seq_length; exact HiK).
    rewrite seq_nth in Hmi by exact HiK. cbn [option_map Nat.add] in Hmi. injection Hmi as <-.
    assert (Hlow : forall j, j < K -> (var i t <= var j t)%R).
    { intros j Hj. rewrite <- (proj2 (key_var i t HiK)), <- (proj2 (key_var j t Hj)). apply Hmin, Hin. exists j. auto. }
    assert (Hnth : forall x (f : reading -> x) d j, j < K -> nth j (map f rs) d = f (rdg j t)).
    { intros x f d j Hj. apply nth_error_nth. unfold rs. now rewrite nth_error_map, nth_readings by exact Hj. }
    assert (Hwi : forall y, In y (without i (map r_lcb rs)) <-> exists j, j < K /\ j <> i /\ y = r_lcb (rdg j t)).
    { intros y. split.
      - intros Hy. apply in_without in Hy as (j & Hji & Hj). assert (HjK : j < K) by (apply Nat.nle_gt; intros H;
          rewrite (proj2 (nth_error_None _ _)) in Hj by (rewrite map_length; lia); discriminate).
        exists j. split; [exact HjK|]. split; [exact Hji|]. unfold rs in Hj. rewrite nth_error_map, nth_readings in Hj by exact HjK. now injection Hj.
      - intros (j & HjK & Hji & ->). apply nth_error_without with j; [rewrite map_length; lia| |exact Hji].
        unfold rs. now rewrite nth_error_map, nth_readings by exact HjK. }
    assert (Hex : exists j, j < K /\ j <> i) by (destruct (Nat.eq_dec i 0); [exists 1|exists 0]; lia). destruct Hex as (j0 & Hj0 & Hji0).
    destruct (py_min fltb (without i (map r_lcb rs))) as [l|e] eqn:El.
    2:{ pose proof (proj2 (Hwi _) (ex_intro _ j0 (conj Hj0 (conj Hji0 eq_refl)))) as H. destruct (without i (map r_lcb rs)); [contradiction|discriminate]. }
    cbn [bind]. destruct (py_min_spec (without i (map r_lcb rs)) l) as (Hl1 & Hl2 & Hl3); [|exact El|].
    { apply Forall_forall. intros y Hy. apply Hwi in Hy as (j & Hj & _ & ->). apply key_lo, Hj. }
    rewrite Htol, Hnth by exact HiK. exists i, (fltb (r_ucb (rdg i t)) (fsub l f0)). split; [reflexivity|].
    apply Hwi in Hl1 as (jl & Hjl & Hjli & ->). destruct (fsub_zero _ (proj1 (ns_finite _ _ Hne jl t Hjl))) as (Hs1 & Hs2).
    split.
    - rewrite fltb_spec, (fkey_finite _ Hs1), Hs2, (proj2 (key_hi i t HiK)). split.
      + intros (_ & _ & H). split; [exact HiK|]. intros j Hj Hji. specialize (Hl3 _ (proj2 (Hwi _) (ex_intro _ j (conj Hj (conj Hji eq_refl))))).
        rewrite (proj2 (key_lo jl t Hjl)), (proj2 (key_lo j t Hj)) in Hl3. unfold lo_end in *. lra.
      + intros (_ & H). split; [apply key_hi, HiK|]. split; [apply finite_num, Hs1|]. apply (H jl Hjl Hjli).
    - intros j (Hj & H). destruct (Nat.eq_dec j i) as [Hji|Hji]; [exact Hji|exfalso]. specialize (H i HiK (not_eq_sym Hji)).
      pose proof (ns_inside _ _ Hne i t HiK). pose proof (ns_inside _ _ Hne j t Hj). pose proof (Hlow j Hj). lra.
  Qed.

  (** one round of the uniform algorithm when the limit is not exceeded *)
  Lemma uniform_round t s : 2 <= K -> c_error_tol cfg = f0 -> length (b_arms s) = K -> length (b_cum s) = t ->
    (forall j a, nth_error (b_arms s) j = Some a -> at_update j t a) -> within (b_total s + K * c_units cfg) (c_limit cfg) ->
    exists s' i b, uniform_step ops w cfg all s = (if b : bool then Finish [i] s' else Continue s') /\ (b = true <-> decided K rdg t i) /\
      (forall j, decided K rdg t j -> j = i) /\ length (b_arms s') = K /\ b_total s' = b_total s + K * c_units cfg /\ b_cum s' = b_cum s ++ [b_total s'] /\
      (forall j a, nth_error (b_arms s') j = Some a -> at_update j (S t) a).
  Proof.
    intros HK Htol Hlen Hcum Hat Hlim. unfold uniform_step. set (arms := b_arms s) in *.
    assert (Hhd : exists a0 rest, arms = a0 :: rest) by (destruct arms; [cbn in Hlen; lia|eauto]). destruct Hhd as (a0 & rest & Ea0).
    destruct (Hsc 0 t a0 (b_g s) (Hat 0 a0 ltac:(rewrite Ea0; reflexivity))) as (Hun & d & _ & _ & Ed & _).
    cbv zeta. replace (match arms with [] => Err IndexError | a :: _ => Ok (a_units ops a) end) with (Ok (t * c_units cfg)) by (rewrite Ea0; cbn; now rewrite Hun).
    unfold get_data at 1. rewrite Ed. unfold delta_of. rewrite Hlen.
    destruct (pull_all_scripted t d Ed 0 arms (b_g s) Hat) as (arms' & g2 & -> & Hl' & Hco & Hat').
    rewrite Hlen in *. assert (Hov : over_limit (b_total s + K * c_units cfg) (c_limit cfg) = Ok false).
    { unfold over_limit. destruct (c_limit cfg) as [| |z]; cbn in Hlim; [contradiction|reflexivity|]. f_equal. apply Z.ltb_ge. exact Hlim. }
    rewrite Hov, Hco. cbn [bind]. destruct (check_nested t HK Htol) as (i & b & -> & Hb & Hu).
    eexists _, i, b. split; [destruct b; reflexivity|]. split; [exact Hb|]. split; [exact Hu|]. cbn. auto.
  Qed.

  Lemma within_le n m l : n <= m -> within m l -> within n l.
  Proof. destruct l; cbn; [tauto|tauto|lia]. Qed.

  Lemma uniform_loop T i : 2 <= K -> c_error_tol cfg = f0 -> decided K rdg T i -> (forall t' j, t' < T -> ~ decided K rdg t' j) ->
    within (K * c_units cfg * S T) (c_limit cfg) ->
    forall k s fuel, length (b_cum s) + k = T -> k < fuel -> length (b_arms s) = K -> b_total s = K * c_units cfg * length (b_cum s) ->
    (forall j a, nth_error (b_arms s) j = Some a -> at_update j (length (b_cum s)) a) ->
    exists s', loop fuel (uniform_step ops w cfg all) s = Returned [i] s' /\ length (b_cum s') = S T /\ b_total s' = K * c_units cfg * S T /\
      last (b_cum s') 0 = b_total s'.
  Proof.
    intros HK Htol Hd Hno Hlim k. induction k as [|k IH]; intros s fuel Hk Hf Hlen Htot Hat.
    all: destruct fuel as [|fuel]; [lia|]; cbn [loop].
    all: destruct (uniform_round (length (b_cum s)) s HK Htol Hlen eq_refl Hat) as (s' & i' & b & -> & Hb & Hu & Hl' & Ht' & Hc' & Hat');
      [apply within_le with (2 := Hlim); rewrite Htot; assert (length (b_cum s) <= T) by lia; nia|].
    - assert (HT : length (b_cum s) = T) by lia. rewrite HT in *. specialize (Hu i Hd). subst i'. rewrite (proj2 Hb Hd).
      exists s'. split; [reflexivity|]. rewrite Hc'. split; [rewrite app_length; cbn; lia|]. split; [rewrite Ht', Htot; lia|]. now rewrite last_last.
    - assert (Eb : b = false) by (apply not_true_is_false; intros E; apply Hb in E; apply (Hno (length (b_cum s)) i'); [lia|exact E]).
      rewrite Eb. assert (Hn : length (b_cum s') = S (length (b_cum s))) by (rewrite Hc', app_length; cbn; lia).
      apply IH; [lia|lia|exact Hl'| |rewrite Hn; exact Hat']. rewrite Ht', Htot, Hn. lia.
  Qed.

  Lemma uniform_run T i fuel arms g : 2 <= K -> c_error_tol cfg = f0 -> decided K rdg T i -> (forall t' j, t' < T -> ~ decided K rdg t' j) ->
    within (K * c_units cfg * S T) (c_limit cfg) -> length arms = K -> (forall j a, nth_error arms j = Some a -> at_update j 0 a) -> T < fuel ->
    exists s', run Uniform ops w cfg fuel all arms g = Returned [i] s' /\ length (b_cum s') = S T /\ b_total s' = K * c_units cfg * S T /\
      last (b_cum s') 0 = b_total s'.
  Proof.
    intros HK Htol Hd Hno Hlim Hlen Hat Hf. apply (uniform_loop T i HK Htol Hd Hno Hlim T); cbn; auto.
  Qed.
End Sim.
