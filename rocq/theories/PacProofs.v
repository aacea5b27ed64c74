(** Lemmas on bandit runs with random outcomes. *)
From Coq Require Import List Arith ZArith Lia Bool Reals Lra Classical_Prop.
From Flocq Require Import Core BinarySingleNaN Relative.
From Verif Require Import PyBase PyLemmas Num NumLemmas FloatOps BanditModel BanditSpec BanditProofs1 BanditProofs2 BanditProofs3 BanditProofs4 BanditProofs5 PacSpec.
Import ListNotations.
Open Scope nat_scope.

Lemma filter_short {X} (f : X -> bool) l : length (filter f l) <= length l.
Proof. induction l as [|x l IH]; simpl; [lia|]. destruct (f x); simpl; lia. Qed.

Section Upper.
  Context {Om : Type} (P : (Om -> Prop) -> R -> Prop) (HP : upper P).
  Lemma union_n (E : nat -> Om -> Prop) p K : (forall j, j < K -> P (E j) p) -> P (fun x => exists j, j < K /\ E j x) (INR K * p)%R.
  Proof.
    induction K as [|K IH]; intros H.
    - apply (up_mono P HP _ (fun _ => False) 0%R); [intros x (j & Hj & _); lia|simpl; lra|apply HP].
    - apply (up_mono P HP _ (fun x => (exists j, j < K /\ E j x) \/ E K x) (INR K * p + p)%R).
      + intros x (j & Hj & He). destruct (Nat.eq_dec j K) as [->|]; [right; exact He|left; exists j; split; [lia|exact He]].
      + rewrite S_INR. lra.
      + apply HP; auto.
  Qed.
  Lemma union_sum (E : nat -> Om -> Prop) lev T : (forall n, 1 <= n <= T -> P (E n) (lev n)) -> P (fun x => exists n, 1 <= n <= T /\ E n x) (sum_upto lev T).
  Proof.
    induction T as [|T IH]; intros H.
    - apply (up_mono P HP _ (fun _ => False) 0%R); [intros x (j & Hj & _); lia|simpl; lra|apply HP].
    - apply (up_mono P HP _ (fun x => (exists n, 1 <= n <= T /\ E n x) \/ E (S T) x) (sum_upto lev T + lev (S T))%R).
      + intros x (j & Hj & He). destruct (Nat.eq_dec j (S T)) as [->|]; [right; exact He|left; exists j; split; [lia|exact He]].
      + simpl. lra.
      + apply HP; [apply IH|apply H; lia]. intros n Hn. apply H. lia.
  Qed.
End Upper.

(** the sum of the inverse squares *)
Lemma inverse_squares d T : (0 <= d)%R -> 1 <= T -> (sum_upto (fun n => d / (INR n * INR n)) T <= d * (2 - 1 / INR T))%R.
Proof.
  intros Hd HT. induction T as [|T IH]; [lia|]. destruct T as [|T].
  - simpl. lra.
  - specialize (IH ltac:(lia)). change (sum_upto ?f (S (S T))) with (sum_upto f (S T) + f (S (S T)))%R.
    apply (Rle_trans _ (d * (2 - 1 / INR (S T)) + d / (INR (S (S T)) * INR (S (S T))))%R); [lra|].
    rewrite (S_INR (S T)). pose proof (lt_0_INR (S T) ltac:(lia)) as Hp. set (x := INR (S T)) in *.
    assert (E : (d * (2 - 1 / (x + 1)) - (d * (2 - 1 / x) + d / ((x + 1) * (x + 1))) = d / (x * (x + 1) * (x + 1)))%R) by (field; lra).
    assert (0 <= d / (x * (x + 1) * (x + 1)))%R; [|lra].
    apply Rmult_le_pos; [exact Hd|]. left. apply Rinv_0_lt_compat. apply Rmult_lt_0_compat; [apply Rmult_lt_0_compat|]; lra.
Qed.
Lemma inverse_squares_over d T : (0 < d)%R -> 2 <= T -> (d < sum_upto (fun n => d / (INR n * INR n)) T)%R.
Proof.
  intros Hd HT. induction T as [|T IH]; [lia|]. change (sum_upto ?f (S T)) with (sum_upto f T + f (S T))%R.
  assert (0 < d / (INR (S T) * INR (S T)))%R.
  { apply Rmult_lt_0_compat; [exact Hd|]. apply Rinv_0_lt_compat. pose proof (lt_0_INR (S T) ltac:(lia)). apply Rmult_lt_0_compat; assumption. }
  destruct (Nat.eq_dec T 1) as [->|]; [simpl in *; lra|]. specialize (IH ltac:(lia)). lra.
Qed.

Section Runs.
  Context {A D G : Type} (ops : arm_ops A D G) (w : world D G) (cfg : config).
  Notation bstate := (bstate (A := A) (G := G)).
  Implicit Types s : bstate.

  (** every returned run of the uniform algorithm and of LUCB has a round *)
  Lemma has_round alg fuel all arms g best s : alg <> SE -> run alg ops w cfg fuel all arms g = Returned best s -> b_cum s <> [].
  Proof.
    intros Ha Hr.
    pose proof (run_inv ops w cfg alg fuel all arms g (fun s => alg = LUCB -> b_cum s <> []) (fun _ s => b_cum s <> [])) as H. rewrite Hr in H. apply H; clear H.
    - intros Hn E. contradiction.
    - intros ->. pose proof (lucb_start_inv ops w cfg all arms g) as H. destruct (lucb_start ops w cfg all arms g); [|exact I|exact I].
      destruct H as (d & g1 & arms' & g2 & rs & _ & _ & _ & ->). intros _. simpl. discriminate.
    - intros s0 J. destruct alg; [| |contradiction].
      + pose proof (uniform_step_inv ops w cfg all s0) as H. destruct (uniform_step ops w cfg all s0); [discriminate| |exact I].
        destruct H as (st & d & g1 & arms' & g2 & rs & _ & _ & _ & _ & -> & _). simpl. intros E. now apply app_eq_nil in E as [_ E].
      + pose proof (lucb_step_inv ops w cfg all s0) as H. destruct (lucb_step ops w cfg all s0); [| |exact I].
        * destruct H as (_ & is & g1 & arms' & g2 & rs & b & _ & _ & _ & -> & _). intros _ E. simpl in E. now apply app_eq_nil in E as [_ E].
        * destruct H as [(-> & _)|(_ & is & g1 & arms' & g2 & rs & _ & _ & _ & -> & _)]; [apply J; reflexivity|].
          simpl. intros E. now apply app_eq_nil in E as [_ E].
  Qed.

  (** if all recorded intervals are right, a run that stops before the limit returns the best arm *)
  Lemma right_answer alg fuel all arms g best s (v : nat -> R) : arms <> [] -> not_negative (c_error_tol cfg) ->
    run alg ops w cfg fuel all arms g = Returned best s -> ~ exceeds (b_total s) (c_limit cfg) ->
    (forall j, j < length arms -> ~ misses s j (v j)) -> best_by (margin_of alg cfg) (length arms) v best.
  Proof.
    intros Hne Ht Hr Hx Hm. pose proof (run_shape ops w cfg alg fuel all arms g) as Hsh. rewrite Hr in Hsh.
    assert (Hall : all_recorded (fun j r => covers r (v j)) s).
    { intros j t r Hrec. apply NNPP. intros Hc. apply (Hm j); [|exists t, r; auto].
      unfold recorded in Hrec. destruct (nth_error (b_hist s) j) eqn:E; [|discriminate].
      rewrite <- (sh_hist _ _ _ Hsh). apply nth_error_Some. congruence. }
    assert (Hsep : alg <> SE -> (exists rs i, collect ops (b_arms s) = Ok rs /\ best = [i] /\ separated (c_error_tol cfg) rs i) ->
      best_by (B2R (c_error_tol cfg)) (length arms) v best).
    { intros Ha (rs & i & Hc & -> & Hs). exists i. split; [reflexivity|].
      pose proof (collect_length _ _ _ Hc) as HL. rewrite (sh_arms _ _ _ Hsh) in HL.
      split. { destruct Hs as (_ & ri & Hi & _). rewrite <- HL. apply nth_error_Some. congruence. }
      intros j Hj Hji. apply Rlt_le. apply (separated_sound (c_error_tol cfg) rs i v Hs); [|lia|exact Hji].
      intros k r Hk. destruct (sh_last _ _ _ Hsh) as [E|(rs' & Hc' & Hl)].
      - exfalso. exact (has_round alg fuel all arms g [i] s Ha Hr E).
      - assert (rs' = rs) by congruence. subst rs'. rewrite <- (Hl k) in Hk. apply (Hall _ _ _ Hk). }
    destruct alg; cbn [margin_of].
    - apply Hsep; [discriminate|]. destruct (uniform_exit ops w cfg fuel all arms g best s Ht Hr) as (rs & Hrs & [[H _]|(_ & i & H)]); [contradiction|].
      exists rs, i. apply collect_reported in Hrs. tauto.
    - apply Hsep; [discriminate|]. destruct (lucb_exit ops w cfg fuel all arms g best s Ht Hr) as (rs & Hrs & [[H _]|(i & H)]); [contradiction|].
      exists rs, i. apply collect_reported in Hrs. tauto.
    - pose proof (se_survive ops w cfg fuel all arms g v) as H. rewrite Hr in H. specialize (H Hall).
      pose proof (run_se_inv ops w cfg fuel all arms g) as Hi. rewrite Hr in Hi. destruct Hi as [Hi _].
      destruct (se_exit ops w cfg fuel all arms g best s Hr) as [[-> Hlen]|(_ & He & _)]; [|contradiction].
      assert (Hk : 0 < length arms) by (destruct arms; [contradiction|simpl; lia]).
      destruct (H 0 Hk) as (b & Hb & _).
      destruct (b_cand s) as [|b0 [|]] eqn:E; simpl in Hlen; try lia; [contradiction|].
      exists b0. split; [reflexivity|]. split; [apply (se_b _ _ _ _ Hi); rewrite E; left; reflexivity|].
      intros j Hj _. destruct (H j Hj) as (b1 & Hb1 & Hle). rewrite E in Hb1. destruct Hb1 as [<-|[]]. lra.
  Qed.

  (** what is recorded for an arm in a round without samples for it is what was recorded before *)
  Definition fresh_or_same K s : Prop := forall j t, j < K -> t < length (b_cum s) ->
    recorded_samples s j t = Some (c_units cfg) \/ (0 < t /\ recorded_samples s j t = Some 0 /\ recorded s j t = recorded s j (t - 1)).
  Definition inv_same K s : Prop := shape ops K s /\ (b_cum s = [] -> forall j, j < K -> In j (b_cand s)) /\ fresh_or_same K s.

  Lemma same_next K s arms' g2 rs smp total cand' : inv_same K s -> length arms' = K -> collect ops arms' = Ok rs -> length smp = K ->
    (forall j, j < K -> nth_error smp j = Some (c_units cfg) \/ (nth_error smp j = Some 0 /\ b_cum s <> [] /\ nth_error arms' j = nth_error (b_arms s) j)) ->
    let s' := record_round (set_arms s arms' g2) rs smp total in
    inv_same K (mkB (b_arms s') (b_g s') (b_hist s') (b_smp s') (b_cum s') (b_total s') cand').
  Proof.
    intros (Hs & Hcand & Hf) Ha Hc Hsl Hsmp s'. split; [apply (shape_record ops K s arms' g2 rs smp total cand' Hs Ha Hc Hsl)|].
    split; [simpl; intros E; now apply app_eq_nil in E as [_ E]|].
    pose proof (collect_length _ _ _ Hc) as HL. rewrite Ha in HL.
    intros j t Hj Ht. simpl in Ht. rewrite app_length in Ht. simpl in Ht.
    assert (Hrs : forall t', recorded (mkB (b_arms s') (b_g s') (b_hist s') (b_smp s') (b_cum s') (b_total s') cand') j t' = if t' =? length (b_cum s) then nth_error rs j else recorded s j t')
      by (intros t'; apply (recorded_next ops s arms' g2 rs smp total cand' K j t' Hs HL Hj)).
    rewrite !Hrs. clear Hrs.
    assert (Hss : recorded_samples (mkB (b_arms s') (b_g s') (b_hist s') (b_smp s') (b_cum s') (b_total s') cand') j t = if t =? length (b_cum s) then nth_error smp j else recorded_samples s j t)
      by (apply (recorded_samples_next ops K s arms' g2 rs smp total j t Hs Hsl Hj)).
    rewrite Hss. clear Hss.
    destruct (Nat.eqb_spec t (length (b_cum s))) as [->|Hn].
    - destruct (Hsmp j Hj) as [E|(E & Hcu & Hnth)]; [left; exact E|right].
      assert (Hlen : 0 < length (b_cum s)) by (destruct (b_cum s); [contradiction|simpl; lia]).
      split; [exact Hlen|]. split; [exact E|].
      destruct (Nat.eqb_spec (length (b_cum s) - 1) (length (b_cum s))); [lia|].
      destruct (sh_last _ _ _ Hs) as [C|(rs0 & Hc0 & Hl0)]; [contradiction|]. unfold recorded_last in Hl0. rewrite Hl0.
      destruct (nth_error arms' j) as [a|] eqn:Ea; [|apply nth_error_None in Ea; lia]. symmetry in Hnth.
      destruct (mapM_nth _ _ _ _ _ Hc Ea) as (r1 & -> & R1). destruct (mapM_nth _ _ _ _ _ Hc0 Hnth) as (r0 & -> & R0). congruence.
    - destruct (Nat.eqb_spec (t - 1) (length (b_cum s))); [lia|]. apply Hf; [exact Hj|lia].
  Qed.

  Lemma in_smp_of is k j : j < k -> nth_error (smp_of cfg is k) j = Some (if existsb (Nat.eqb j) is then c_units cfg else 0).
  Proof. intros Hj. rewrite smp_of_nth. destruct (Nat.ltb_spec j k); [reflexivity|lia]. Qed.

  Lemma run_same alg fuel all arms g best s : run alg ops w cfg fuel all arms g = Returned best s -> fresh_or_same (length arms) s.
  Proof.
    intros Hr. set (K := length arms).
    pose proof (run_inv ops w cfg alg fuel all arms g (fun s => inv_same K s /\ (alg = LUCB -> b_cum s <> [])) (fun _ s => inv_same K s)) as H. rewrite Hr in H.
    assert (H0 : inv_same K s); [|exact (proj2 (proj2 H0))]. apply H; clear H.
    - intros Hn. split; [|contradiction]. split; [apply shape_init|]. split; [simpl; intros _ j Hj; apply in_seq; fold K; lia|].
      intros j t _ Ht. simpl in Ht. lia.
    - intros ->. pose proof (lucb_start_inv ops w cfg all arms g) as H. destruct (lucb_start ops w cfg all arms g) as [s'| |]; [|exact I|exact I].
      destruct H as (d & g1 & arms' & g2 & rs & _ & Hp & Hc & ->). split; [|intros _; simpl; discriminate].
      assert (Hi : inv_same K (binit arms g)).
      { split; [apply shape_init|]. split; [simpl; intros _ j Hj; apply in_seq; fold K; lia|]. intros j t _ Ht. simpl in Ht. lia. }
      apply (same_next K (binit arms g) arms' g2 rs (map (fun _ => c_units cfg) arms) _ (seq 0 (length arms)) Hi (pull_all_len' ops _ _ _ _ _ _ _ _ eq_refl Hp) Hc); [apply map_length|].
      intros j Hj. left. rewrite nth_error_map. destruct (nth_error arms j) eqn:E; [reflexivity|apply nth_error_None in E; unfold K in Hj; lia].
    - intros s0 [J JL]. pose proof J as (Js & Jc & Jf). pose proof (sh_arms _ _ _ Js) as HK. destruct alg.
      + pose proof (uniform_step_inv ops w cfg all s0) as H.
        assert (HU : forall d g1 arms' g2 rs, pull_all ops d (delta_of cfg (b_arms s0)) (b_arms s0) g1 = (arms', g2, Ok rs) -> collect ops arms' = Ok rs -> inv_same K (u_next cfg s0 arms' g2 rs)).
        { intros d g1 arms' g2 rs Hp Hc.
          apply (same_next K s0 arms' g2 rs (map (fun _ => c_units cfg) (b_arms s0)) (b_total s0 + length (b_arms s0) * c_units cfg) (b_cand s0) J (pull_all_len' ops _ _ _ _ _ _ _ _ HK Hp) Hc); [now rewrite map_length|].
          intros j Hj. left. rewrite nth_error_map. destruct (nth_error (b_arms s0) j) eqn:E; [reflexivity|apply nth_error_None in E; lia]. }
        destruct (uniform_step ops w cfg all s0); [| |exact I].
        * destruct H as (st & d & g1 & arms' & g2 & rs & b & _ & _ & Hp & Hc & -> & _). split; [eauto|discriminate].
        * destruct H as (st & d & g1 & arms' & g2 & rs & _ & _ & Hp & Hc & -> & _). eauto.
      + pose proof (lucb_step_inv ops w cfg all s0) as H.
        assert (HU : forall is g1 arms' g2 rs, pull_list ops w cfg all (delta_of cfg (b_arms s0)) is (b_arms s0) g1 = (arms', g2, None) -> collect ops arms' = Ok rs -> inv_same K (l_next cfg s0 is arms' g2 rs)).
        { intros is g1 arms' g2 rs Hp Hc.
          apply (same_next K s0 arms' g2 rs (smp_of cfg is (length (b_arms s0))) (b_total s0 + 2 * c_units cfg) (b_cand s0) J (pull_list_len' ops w cfg _ _ _ _ _ _ _ _ _ HK Hp) Hc); [now rewrite smp_of_length|].
          intros j Hj. rewrite in_smp_of by lia. destruct (existsb (Nat.eqb j) is) eqn:E; [left; reflexivity|right].
          split; [reflexivity|]. split; [apply JL; reflexivity|]. pose proof (pull_list_other ops w cfg all (delta_of cfg (b_arms s0)) is (b_arms s0) g1 j) as Ho. rewrite Hp in Ho.
          apply Ho. intros Hin. apply existsb_In in Hin. congruence. }
        destruct (lucb_step ops w cfg all s0); [| |exact I].
        * destruct H as (_ & is & g1 & arms' & g2 & rs & b & _ & Hp & Hc & -> & _). split; [eauto|]. intros _ E. simpl in E. now apply app_eq_nil in E as [_ E].
        * destruct H as [(-> & _)|(_ & is & g1 & arms' & g2 & rs & _ & Hp & Hc & -> & _)]; [exact J|]. eauto.
      + pose proof (se_step_inv ops w cfg all s0) as H.
        assert (HU : forall arms' g2 rs cand', pull_list ops w cfg all (delta_of cfg (b_arms s0)) (b_cand s0) (b_arms s0) (b_g s0) = (arms', g2, None) -> collect ops arms' = Ok rs -> inv_same K (s_next cfg s0 arms' g2 rs cand')).
        { intros arms' g2 rs cand' Hp Hc.
          apply (same_next K s0 arms' g2 rs (smp_of cfg (b_cand s0) (length (b_arms s0))) (b_total s0 + length (b_cand s0) * c_units cfg) cand' J (pull_list_len' ops w cfg _ _ _ _ _ _ _ _ _ HK Hp) Hc); [now rewrite smp_of_length|].
          intros j Hj. rewrite in_smp_of by lia. destruct (existsb (Nat.eqb j) (b_cand s0)) eqn:E; [left; reflexivity|right].
          assert (Hni : ~ In j (b_cand s0)) by (intros Hin; apply existsb_In in Hin; congruence).
          split; [reflexivity|]. split; [intros E0; apply Hni, Jc; assumption|].
          pose proof (pull_list_other ops w cfg all (delta_of cfg (b_arms s0)) (b_cand s0) (b_arms s0) (b_g s0) j Hni) as Ho. rewrite Hp in Ho. exact Ho. }
        destruct (se_step ops w cfg all s0); [| |exact I].
        * destruct H as (_ & _ & arms' & g2 & rs & c & Hp & Hc & _ & -> & _). split; [eauto|discriminate].
        * destruct H as [(-> & _)|[(-> & _)|(_ & _ & arms' & g2 & rs & Hp & Hc & _ & -> & _)]]; [exact J|exact J|]. eauto.
  Qed.

  (** an interval that misses was already recorded in a round with samples *)
  Lemma misses_when alg fuel all arms g best s j x : 0 < c_units cfg -> run alg ops w cfg fuel all arms g = Returned best s -> j < length arms ->
    misses s j x -> exists n, 1 <= n <= length (b_cum s) /\ misses_at s j n x.
  Proof.
    intros Hu Hr Hj (t & r & Hrec & Hc). pose proof (run_same alg fuel all arms g best s Hr) as Hf.
    pose proof (run_shape ops w cfg alg fuel all arms g) as Hsh. rewrite Hr in Hsh.
    assert (Ht : t < length (b_cum s)).
    { unfold recorded in Hrec. destruct (nth_error (b_hist s) j) as [h|] eqn:E; [|discriminate]. pose proof (sh_hlen _ _ _ Hsh) as F0. rewrite Forall_forall in F0.
      rewrite <- (F0 h (nth_error_In _ _ E)). apply nth_error_Some. congruence. }
    revert Ht Hrec. induction t as [t IH] using lt_wf_ind. intros Ht Hrec.
    destruct (Hf j t Hj Ht) as [E|(H0 & _ & E)].
    - assert (Es : sampled s j t = true) by (unfold sampled; rewrite E; destruct (c_units cfg); [lia|reflexivity]).
      exists (pulls s j t). split; [|exists t, r; auto]. unfold pulls. split.
      + assert (Hin : In t (filter (sampled s j) (seq 0 (S t)))) by (apply filter_In; split; [apply in_seq; lia|exact Es]).
        destruct (filter (sampled s j) (seq 0 (S t))); [contradiction|simpl; lia].
      + pose proof (filter_short (sampled s j) (seq 0 (S t))) as F0. rewrite seq_length in F0. lia.
    - apply (IH (t - 1)); [lia|lia|congruence].
  Qed.
End Runs.

(** the error probability split among the arms and summed up again *)
Lemma delta_sum e K : proper_prob e -> (bpow radix2 (-900) <= B2R e)%R -> 1 <= K -> (Z.of_nat K < 2 ^ 53)%Z ->
  (0 <= B2R (fdiv e (f_of_nat K)) /\ INR K * B2R (fdiv e (f_of_nat K)) <= (1 + bpow radix2 (-53)) * B2R e)%R.
Proof.
  intros (Hf & H0 & H1) Hb HK HK2. destruct (of_Z_exact (Z.of_nat K)) as [KF KR]; [lia|].
  assert (Hk : (1 <= INR K)%R) by (apply (le_INR 1); lia).
  assert (Hk2 : (INR K <= bpow radix2 53)%R) by (rewrite INR_IZR_INZ; change (bpow radix2 53) with (IZR (2 ^ 53)); apply IZR_le; lia).
  assert (HX : (bpow radix2 (-953) <= B2R e / INR K)%R).
  { apply (Rmult_le_reg_r (INR K)); [lra|]. replace (B2R e / INR K * INR K)%R with (B2R e) by (field; lra).
    apply (Rle_trans _ (bpow radix2 (-953) * bpow radix2 53)); [apply Rmult_le_compat_l; [apply bpow_ge_0|exact Hk2]|].
    rewrite <- bpow_plus. exact Hb. }
  set (x := (B2R e / INR K)%R) in *. assert (Hx0 : (0 < x)%R) by (pose proof (bpow_gt_0 radix2 (-953)); lra).
  assert (Hx1 : (x < 1)%R) by (unfold x; apply (Rmult_lt_reg_r (INR K)); [lra|]; replace (B2R e / INR K * INR K)%R with (B2R e) by (field; lra); lra).
  pose proof (Relative.relative_error_N_FLT radix2 (-1074)%Z 53%Z eq_refl (fun z => negb (Z.even z)) x) as He.
  rewrite Rabs_pos_eq in He by lra.
  assert (Hr : (bpow radix2 (-1074 + 53 - 1) <= x)%R) by (eapply Rle_trans; [|exact HX]; apply bpow_le; lia).
  specialize (He Hr). replace (/ 2 * bpow radix2 (- (53) + 1)%Z)%R with (bpow radix2 (-53)) in He by (change (-(53) + 1)%Z with (1 + -53)%Z; rewrite bpow_plus; change (bpow radix2 1) with 2%R; field).
  set (y := round radix2 (FLT_exp (-1074)%Z 53%Z) (Znearest (fun z => negb (Z.even z))) x) in *.
  apply Rabs_le_inv in He. assert (Hd : (bpow radix2 (-53) < 1)%R) by (apply (bpow_lt radix2 (-53) 0); lia). pose proof (bpow_gt_0 radix2 (-53)) as Hd0.
  assert (Hy : (0 <= y <= (1 + bpow radix2 (-53)) * x)%R) by (split; nra).
  assert (HB : B2R (fdiv e (f_of_nat K)) = y).
  { pose proof (Bdiv_correct 53 1024 _ _ mode_NE e (f_of_nat K)) as Hc. cbv zeta in Hc. assert (KR' : B2R (f_of_nat K) = INR K) by (unfold f_of_nat; rewrite KR; symmetry; apply INR_IZR_INZ). rewrite KR' in Hc. fold x in Hc.
    change (round radix2 (SpecFloat.fexp 53 1024) (round_mode mode_NE) x) with y in Hc.
    specialize (Hc ltac:(lra)). rewrite Rlt_bool_true in Hc; [exact (proj1 Hc)|].
    rewrite Rabs_pos_eq by lra. apply (Rlt_trans _ (bpow radix2 1)); [simpl; nra|apply bpow_lt; reflexivity]. }
  rewrite HB. split; [lra|]. replace (B2R e) with (INR K * x)%R by (unfold x; field; lra). nra.
Qed.

Lemma weighted_upper ws : Forall (fun p => 0 <= p)%R ws -> upper (weighted ws).
Proof.
  intros Hw. assert (Hn : forall i, (0 <= nth i ws 0)%R).
  { intros i. destruct (Nat.lt_ge_cases i (length ws)) as [H|H]; [|rewrite nth_overflow by lia; lra]. rewrite Forall_forall in Hw. apply Hw, nth_In, H. }
  constructor.
  - intros E E' p q He Hpq (b & Hb & Hm). exists b. split; [auto|lra].
  - exists (fun _ => false). split; [contradiction|]. unfold mass. clear. induction (seq 0 (length ws)); simpl; lra.
  - intros E E' p q (b & Hb & Hm) (b' & Hb' & Hm'). exists (fun i => b i || b' i). split.
    + intros i [H|H]; apply orb_true_iff; auto.
    + apply (Rle_trans _ (mass ws b + mass ws b')%R); [|lra]. unfold mass. clear - Hn. induction (seq 0 (length ws)) as [|i l IH]; simpl; [lra|].
      pose proof (Hn i). destruct (b i), (b' i); simpl; lra.
Qed.
