(** Successive elimination: runs; exits of all algorithms. *)
From Coq Require Import List Arith ZArith Lia Bool Reals Lra.
From Flocq Require Import Core BinarySingleNaN.
From Verif Require Import PyBase PyLemmas Num NumLemmas BanditModel BanditSpec BanditProofs1 BanditProofs2 BanditProofs3.
Import ListNotations.
Open Scope nat_scope.

  Lemma loop_forever {S R} (body : S -> step S R) (J : S -> Prop) :
    (forall s, J s -> exists s', body s = Continue s' /\ J s') ->
    forall fuel s, J s -> exists s', loop fuel body s = OutOfFuel s' /\ J s'.
  Proof.
    intros Hb fuel; induction fuel as [|n IH]; simpl; intros s Hs; [eauto|].
    destruct (Hb s Hs) as (s' & -> & Hs'). apply IH, Hs'.
  Qed.


Section P.
  Context {A D G : Type} (ops : arm_ops A D G) (w : world D G) (cfg : config).
  Notation bstate := (bstate (A := A) (G := G)).
  Implicit Types s : bstate.

  Lemma se_inv_step K all s : se_inv ops cfg K s ->
    match se_step ops w cfg all s with
    | Continue s' => se_inv ops cfg K s' /\ ~ exceeds (b_total s) (c_limit cfg) /\
                     length (b_cum s') = S (length (b_cum s)) /\ b_total s' <= b_total s + K * c_units cfg
    | Finish _ s' => se_inv ops cfg K s' /\
        (s' = s \/ (~ exceeds (b_total s) (c_limit cfg) /\ length (b_cum s') = S (length (b_cum s)) /\
                    b_total s' <= b_total s + K * c_units cfg))
    | Fail _ _ => True end.
  Proof.
    intros Hs. pose proof (se_step_inv ops w cfg all s) as H.
    assert (Hlen : length (b_cand s) <= K).
    { rewrite <- (seq_length K 0). apply NoDup_incl_length; [apply Hs|].
      intros i Hi. apply in_seq. pose proof (se_b _ _ _ _ Hs i Hi). lia. }
    destruct (se_step ops w cfg all s) as [s'|best s'|e s']; [| |exact I].
    - destruct H as (Hc & Ho & arms' & g2 & rs & c & Hp & Hco & Hel & -> & _).
      split; [eapply se_inv_next; eauto|]. split; [apply over_limit_not, Ho|].
      split; [simpl; rewrite app_length; simpl; lia|]. simpl. nia.
    - destruct H as [(-> & _)|[(-> & _)|(Hc & Ho & arms' & g2 & rs & Hp & Hco & Hel & -> & _)]]; [auto|auto|].
      split; [eapply se_inv_next; eauto|]. right. split; [apply over_limit_not, Ho|].
      split; [simpl; rewrite app_length; simpl; lia|]. simpl. nia.
  Qed.

  Definition se_J K s := se_inv ops cfg K s /\
    (1 <= length (b_cum s) -> exists n, ~ exceeds n (c_limit cfg) /\ b_total s <= n + K * c_units cfg /\
       2 * c_units cfg * (length (b_cum s) - 1) <= n).
  Lemma run_se_inv fuel all arms g :
    match run SE ops w cfg fuel all arms g with
    | Returned _ s' => se_J (length arms) s'
    | Raised _ _ => True
    | OutOfFuel s' => se_J (length arms) s' end.
  Proof.
    apply run_inv; [|discriminate|].
    - intros _. split; [apply se_inv_init|]. simpl. lia.
    - intros s [Hs Hn]. pose proof (se_inv_step _ all _ Hs) as H.
      destruct (se_step ops w cfg all s) as [s'|best s'|e s']; [| |exact I].
      + destruct H as (H1 & H2 & H3 & H4). split; [exact H1|]. intros _. exists (b_total s).
        split; [exact H2|]. split; [exact H4|]. pose proof (se_low _ _ _ _ Hs). rewrite H3. simpl. lia.
      + destruct H as (H1 & [->|(H2 & H3 & H4)]); [split; assumption|]. split; [exact H1|]. intros _. exists (b_total s).
        split; [exact H2|]. split; [exact H4|]. pose proof (se_low _ _ _ _ Hs). rewrite H3. simpl. lia.
  Qed.

  Lemma se_terminates z fuel all arms g : c_limit cfg = LInt z -> 0 < c_units cfg ->
    Z.to_nat z / (2 * c_units cfg) + 1 < fuel ->
    terminated (run SE ops w cfg fuel all arms g).
  Proof.
    intros Hz Hu Hf. unfold terminated, run, run_se.
    set (M := Z.to_nat z / (2 * c_units cfg)) in *.
    apply (loop_terminates _ (se_inv ops cfg (length arms)) (fun s => M + 1 - length (b_cum s))).
    2: apply se_inv_init. 2:{ simpl. lia. }
    intros s Hs. pose proof (se_inv_step _ all _ Hs) as H.
    destruct (se_step ops w cfg all s) as [s'|b s'|]; [|exact I|exact I].
    destruct H as (Hs' & Hne & Hl & _). split; [exact Hs'|].
    pose proof (se_low _ _ _ _ Hs). rewrite Hz in Hne. simpl in Hne.
    assert (length (b_cum s) <= M) by (unfold M; apply div_le_mult; [lia|]; nia).
    lia.
  Qed.
  Lemma se_rounds z fuel all arms g best s : c_limit cfg = LInt z -> 0 < c_units cfg ->
    run SE ops w cfg fuel all arms g = Returned best s ->
    length (b_cum s) <= Z.to_nat z / (2 * c_units cfg) + 1 /\
    b_total s <= Z.to_nat z + length arms * c_units cfg.
  Proof.
    intros Hz Hu Hr. pose proof (run_se_inv fuel all arms g) as H. rewrite Hr in H.
    destruct H as (Hi & Hn). destruct (Nat.eq_dec (length (b_cum s)) 0) as [E|E].
    - split; [lia|]. rewrite (se_tot _ _ _ _ Hi).
      assert (list_sum (map list_sum (b_smp s)) = 0); [|lia].
      pose proof (sh_slen _ _ _ (se_shp _ _ _ _ Hi)) as Hsl. rewrite E in Hsl.
      induction Hsl as [|l h Hl Hsl IH]; [reflexivity|]. destruct l; [|discriminate]. exact IH.
    - destruct Hn as (n & H1 & H2 & H3); [lia|]. rewrite Hz in H1. simpl in H1. split; [|lia].
      assert (length (b_cum s) - 1 <= Z.to_nat z / (2 * c_units cfg)) by (apply div_le_mult; [lia|]; nia). lia.
  Qed.

  (** every arm's sampling record in a run *)
  Lemma arm_record_samples s j r : arm_record cfg s j r ->
    (forall t, t < r -> recorded_samples s j t = Some (c_units cfg)) /\
    (forall t, r <= t < length (b_cum s) -> recorded_samples s j t = Some 0 /\ recorded s j t = recorded s j (r - 1)).
  Proof.
    intros (H1 & H2 & H3 & H4). unfold recorded_samples. rewrite H3. split.
    - intros t Ht. rewrite nth_error_app1 by (rewrite repeat_length; lia). apply nth_error_repeat. lia.
    - intros t Ht. split; [|apply H4, Ht]. rewrite nth_error_app2 by (rewrite repeat_length; lia).
      rewrite repeat_length. apply nth_error_repeat. lia.
  Qed.

  (** * exits *)
  Lemma uniform_exit fuel all arms g best s : not_negative (c_error_tol cfg) ->
    run Uniform ops w cfg fuel all arms g = Returned best s ->
    exists rs, reported ops s rs /\
      ((exceeds (b_total s) (c_limit cfg) /\ smallest_variance (map r_var rs) best) \/
       (~ exceeds (b_total s) (c_limit cfg) /\ exists i, best = [i] /\ separated (c_error_tol cfg) rs i /\ np_argmin (map r_var rs) = Ok i)).
  Proof.
    intros Ht Hr.
    pose proof (run_inv ops w cfg Uniform fuel all arms g (fun _ => True) (fun best s => exists rs, reported ops s rs /\
      ((exceeds (b_total s) (c_limit cfg) /\ smallest_variance (map r_var rs) best) \/
       (~ exceeds (b_total s) (c_limit cfg) /\ exists i, best = [i] /\ separated (c_error_tol cfg) rs i /\ np_argmin (map r_var rs) = Ok i)))) as H.
    rewrite Hr in H. apply H; clear H; auto; [discriminate|].
    intros s0 _. pose proof (uniform_step_inv ops w cfg all s0) as H.
    destruct (uniform_step ops w cfg all s0) as [s'|best' s'|e s']; [exact I| |exact I].
    destruct H as (start & d & g1 & arms' & g2 & rs & _ & _ & Hp & Hc & Es & Hx).
    assert (Ea : b_arms s' = arms') by (rewrite Es; reflexivity).
    exists rs. split; [apply collect_reported; rewrite Ea; exact Hc|].
    destruct Hx as [[H1 H2]|[H1 H2]].
    - left. split; [apply over_limit_exceeds, H1|]. apply argmin_arms_spec, H2.
    - right. split; [apply over_limit_not, H1|]. apply check_end_spec in H2; assumption.
  Qed.

  Lemma lucb_exit fuel all arms g best s : not_negative (c_error_tol cfg) ->
    run LUCB ops w cfg fuel all arms g = Returned best s ->
    exists rs, reported ops s rs /\
      ((exceeds (b_total s) (c_limit cfg) /\ smallest_variance (map r_var rs) best) \/
       (exists i, best = [i] /\ separated (c_error_tol cfg) rs i /\ np_argmin (map r_var rs) = Ok i)).
  Proof.
    intros Ht Hr.
    pose proof (run_inv ops w cfg LUCB fuel all arms g (fun _ => True) (fun best s => exists rs, reported ops s rs /\
      ((exceeds (b_total s) (c_limit cfg) /\ smallest_variance (map r_var rs) best) \/
       (exists i, best = [i] /\ separated (c_error_tol cfg) rs i /\ np_argmin (map r_var rs) = Ok i)))) as H.
    rewrite Hr in H. apply H; clear H; auto.
    { intros _. destruct (lucb_start ops w cfg all arms g); exact I. }
    intros s0 _. pose proof (lucb_step_inv ops w cfg all s0) as H.
    destruct (lucb_step ops w cfg all s0) as [s'|best' s'|e s']; [exact I| |exact I].
    destruct H as [(-> & H1 & rs & Hc & H2)|(H1 & is & g1 & arms' & g2 & rs & _ & _ & Hc & Es & H2)].
    - exists rs. split; [apply collect_reported, Hc|]. left. split; [apply over_limit_exceeds, H1|]. apply argmin_arms_spec, H2.
    - assert (Ea : b_arms s' = arms') by (rewrite Es; reflexivity).
      exists rs. split; [apply collect_reported; rewrite Ea; exact Hc|]. right. apply check_end_spec in H2; assumption.
  Qed.

  Lemma se_exit fuel all arms g best s :
    run SE ops w cfg fuel all arms g = Returned best s ->
    (best = b_cand s /\ length best <= 1) \/
    (1 < length (b_cand s) /\ exceeds (b_total s) (c_limit cfg) /\
     exists rs, reported ops s rs /\ smallest_variance (map r_var rs) best).
  Proof.
    intros Hr.
    pose proof (run_inv ops w cfg SE fuel all arms g (fun _ => True) (fun best s =>
     (best = b_cand s /\ length best <= 1) \/
     (1 < length (b_cand s) /\ exceeds (b_total s) (c_limit cfg) /\
      exists rs, reported ops s rs /\ smallest_variance (map r_var rs) best))) as H.
    rewrite Hr in H. apply H; clear H; auto; [discriminate|].
    intros s0 _. pose proof (se_step_inv ops w cfg all s0) as H.
    destruct (se_step ops w cfg all s0) as [s'|best' s'|e s']; [exact I| |exact I].
    destruct H as [(-> & -> & H)|[(-> & H0 & H1 & rs & Hc & H2)|(H0 & H1 & arms' & g2 & rs & _ & Hc & _ & Es & H2)]].
    - left; auto.
    - right. split; [exact H0|]. split; [apply over_limit_exceeds, H1|]. exists rs.
      split; [apply collect_reported, Hc|]. apply argmin_arms_spec, H2.
    - left. subst s'. simpl. split; [reflexivity|lia].
  Qed.

  (** the soundness of a confidence stop *)
  Lemma separated_sound tol rs i v : separated tol rs i ->
    (forall j r, nth_error rs j = Some r -> in_interval r (v j)) ->
    forall j, j < length rs -> j <> i -> (v i + B2R tol < v j)%R.
  Proof.
    intros (Ht & ri & Hi & Hu & Hsep) Hv j Hj Hne.
    destruct (nth_error rs j) as [rj|] eqn:Ej; [|apply nth_error_None in Ej; lia].
    destruct (Hv i ri Hi) as [_ [Hui|[_ Hui]]]; [rewrite Hui in Hu; discriminate|].
    destruct (Hv j rj Ej) as [Hlj _].
    destruct (Hsep j rj Ej Hne) as [H|[H|[_ H]]].
    - destruct Hlj as [E|[E _]]; [rewrite E in H; discriminate|]. destruct (r_lcb rj); discriminate.
    - rewrite H in Hlj. destruct Hlj as [E|[E _]]; discriminate.
    - destruct Hlj as [E|[_ E]]; [|lra]. exfalso. clear -E Hsep Ej Hne. 
      destruct (Hsep j rj Ej Hne) as [H|[H|[H _]]]; rewrite E in H; discriminate.
  Qed.

  (** * survival of the best arm *)
  Lemma eliminate_keeps cand rs cand' (v : nat -> R) : (forall i, In i cand -> i < length rs) ->
    (forall i, In i cand -> good_interval (rd rs i) /\ in_interval (rd rs i) (v i)) ->
    eliminate cand rs = Ok cand' ->
    forall j, In j cand -> exists b, In b cand' /\ (v b <= v j)%R.
  Proof.
    intros Hin Hg Hel j Hj. destruct (eliminate_spec _ _ _ Hin Hel) as (b & Hb & _ & _ & ->).
    destruct (fltb (r_lcb (rd rs j)) (r_ucb (rd rs b))) eqn:E.
    - exists j. split; [|lra]. apply select_map_In. auto.
    - exists b. split. { apply select_map_In. split; [exact Hb|]. apply (Hg b Hb). }
      destruct (Hg b Hb) as [Hgb [_ Hub]]. destruct (Hg j Hj) as [Hgj [Hlj _]].
      unfold good_interval in *. apply fltb_spec in Hgb as (_ & Nub & _). apply fltb_spec in Hgj as (Nlj & _ & _).
      apply (fltb_num_false _ _ Nlj Nub) in E.
      destruct Hub as [Hub|[Fub Hub]].
      + rewrite Hub in E. exfalso. change (fkey finf) with big in E. destruct Hlj as [H|[Flj _]].
        * rewrite H in E. change (fkey fninf) with (- big)%R in E. pose proof big_pos. lra.
        * pose proof (fkey_bound _ Flj). lra.
      + destruct Hlj as [H|[Flj Hlj]].
        * rewrite H in E. change (fkey fninf) with (- big)%R in E. pose proof (fkey_bound _ Fub). lra.
        * rewrite !fkey_finite in E by assumption. lra.
  Qed.
  Lemma eliminate_nonempty cand rs cand' : (forall i, In i cand -> i < length rs) ->
    (forall i, In i cand -> good_interval (rd rs i)) ->
    eliminate cand rs = Ok cand' -> cand' <> [].
  Proof.
    intros Hin Hg Hel. destruct (eliminate_spec _ _ _ Hin Hel) as (b & Hb & _ & _ & ->).
    assert (In b (select (map (fun i => fltb (r_lcb (rd rs i)) (r_ucb (rd rs b))) cand) cand)) as H.
    { apply select_map_In. split; [exact Hb|]. apply (Hg b Hb). }
    intros E. rewrite E in H. exact H.
  Qed.

  Lemma all_recorded_next P K s arms' g2 rs cand' : shape ops K s -> length rs = K ->
    all_recorded P (s_next cfg s arms' g2 rs cand') ->
    all_recorded P s /\ forall j r, nth_error rs j = Some r -> P j r.
  Proof.
    intros Hs Hl Hall. split.
    - intros j t r Hr. apply (Hall j t r).
      assert (Hj : j < K).
      { unfold recorded in Hr. destruct (nth_error (b_hist s) j) eqn:E; [|discriminate].
        rewrite <- (sh_hist _ _ _ Hs). apply nth_error_Some. congruence. }
      unfold s_next. rewrite (recorded_next ops s arms' g2 rs _ _ cand' K j t Hs Hl Hj).
      destruct (Nat.eqb_spec t (length (b_cum s))) as [->|]; [|exact Hr].
      exfalso. unfold recorded in Hr. destruct (nth_error (b_hist s) j) as [h|] eqn:E; [|discriminate].
      pose proof (sh_hlen _ _ _ Hs) as Hf. rewrite Forall_forall in Hf.
      specialize (Hf h (nth_error_In _ _ E)). assert (length (b_cum s) < length h); [|lia]. apply nth_error_Some. congruence.
    - intros j r Hr. apply (Hall j (length (b_cum s)) r).
      assert (Hj : j < K) by (rewrite <- Hl; apply nth_error_Some; congruence).
      unfold s_next. rewrite (recorded_next ops s arms' g2 rs _ _ cand' K j _ Hs Hl Hj). rewrite Nat.eqb_refl. exact Hr.
  Qed.

  Lemma rd_nth rs i : i < length rs -> nth_error rs i = Some (rd rs i).
  Proof. intros H. unfold rd. apply nth_error_nth'. exact H. Qed.

  Definition dominated K (v : nat -> R) s := forall j, j < K -> exists b, In b (b_cand s) /\ (v b <= v j)%R.

  Lemma se_survive fuel all arms g (v : nat -> R) :
    match run SE ops w cfg fuel all arms g with
    | Returned _ s => all_recorded (fun j r => good_interval r /\ in_interval r (v j)) s -> dominated (length arms) v s
    | Raised _ _ => True
    | OutOfFuel s => all_recorded (fun j r => good_interval r /\ in_interval r (v j)) s -> dominated (length arms) v s
    end.
  Proof.
    set (P := fun j r => good_interval r /\ in_interval r (v j)).
    assert (match run SE ops w cfg fuel all arms g with
    | Returned _ s => all_recorded P s -> dominated (length arms) v s
    | Raised _ _ => True
    | OutOfFuel s => se_inv ops cfg (length arms) s /\ (all_recorded P s -> dominated (length arms) v s) end) as H.
    2:{ destruct (run SE ops w cfg fuel all arms g); tauto. }
    apply run_inv; [|discriminate|].
    - intros _. split; [apply se_inv_init|]. intros _ j Hj. exists j. split; [|lra]. simpl. apply in_seq. lia.
    - intros s [Hs HJ].
      assert (Hstep : forall arms' g2 rs cand',
        pull_list ops w cfg all (delta_of cfg (b_arms s)) (b_cand s) (b_arms s) (b_g s) = ((arms', g2), None) ->
        collect ops arms' = Ok rs -> eliminate (b_cand s) rs = Ok cand' ->
        all_recorded P (s_next cfg s arms' g2 rs cand') -> dominated (length arms) v (s_next cfg s arms' g2 rs cand')).
      { intros arms' g2 rs cand' Hp Hco Hel Hall.
        assert (Hal : length arms' = length arms) by (eapply pull_list_len'; [apply Hs|exact Hp]).
        pose proof (collect_length ops _ _ Hco) as Hrl. rewrite Hal in Hrl.
        destruct (all_recorded_next P (length arms) s arms' g2 rs cand' (se_shp _ _ _ _ Hs) Hrl Hall) as [Hold Hnew].
        specialize (HJ Hold). intros j Hj. destruct (HJ j Hj) as (b & Hb & Hle).
        assert (Hin : forall i, In i (b_cand s) -> i < length rs) by (intros i Hi; rewrite Hrl; apply (se_b _ _ _ _ Hs); exact Hi).
        destruct (eliminate_keeps (b_cand s) rs cand' v Hin) with (j := b) as (b' & Hb' & Hle'); auto.
        { intros i Hi. apply (Hnew i (rd rs i)). apply rd_nth, Hin, Hi. }
        exists b'. split; [exact Hb'|]. lra. }
      pose proof (se_step_inv ops w cfg all s) as H. pose proof (se_inv_step _ all _ Hs) as H0.
      destruct (se_step ops w cfg all s) as [s'|best s'|e s']; [| |exact I].
      + destruct H as (_ & _ & arms' & g2 & rs & c & Hp & Hco & Hel & -> & _).
        split; [apply H0|]. eapply Hstep; eauto.
      + destruct H as [(-> & _)|[(-> & _)|(_ & _ & arms' & g2 & rs & Hp & Hco & Hel & -> & _)]]; [exact HJ|exact HJ|]. eapply Hstep; eauto.
  Qed.

  Lemma se_nonempty fuel all arms g : arms <> [] ->
    match run SE ops w cfg fuel all arms g with
    | Returned _ s => all_recorded (fun _ r => good_interval r) s -> b_cand s <> []
    | Raised _ _ => True
    | OutOfFuel s => all_recorded (fun _ r => good_interval r) s -> b_cand s <> []
    end.
  Proof.
    intros Hne. set (P := fun (_ : nat) r => good_interval r).
    assert (match run SE ops w cfg fuel all arms g with
    | Returned _ s => all_recorded P s -> b_cand s <> []
    | Raised _ _ => True
    | OutOfFuel s => se_inv ops cfg (length arms) s /\ (all_recorded P s -> b_cand s <> []) end) as H.
    2:{ destruct (run SE ops w cfg fuel all arms g); tauto. }
    apply run_inv; [|discriminate|].
    - intros _. split; [apply se_inv_init|]. intros _. simpl. destruct arms; [contradiction|discriminate].
    - intros s [Hs HJ].
      assert (Hstep : forall arms' g2 rs cand',
        pull_list ops w cfg all (delta_of cfg (b_arms s)) (b_cand s) (b_arms s) (b_g s) = ((arms', g2), None) ->
        collect ops arms' = Ok rs -> eliminate (b_cand s) rs = Ok cand' ->
        all_recorded P (s_next cfg s arms' g2 rs cand') -> b_cand (s_next cfg s arms' g2 rs cand') <> []).
      { intros arms' g2 rs cand' Hp Hco Hel Hall.
        assert (Hal : length arms' = length arms) by (eapply pull_list_len'; [apply Hs|exact Hp]).
        pose proof (collect_length ops _ _ Hco) as Hrl. rewrite Hal in Hrl.
        destruct (all_recorded_next P (length arms) s arms' g2 rs cand' (se_shp _ _ _ _ Hs) Hrl Hall) as [Hold Hnew].
        assert (Hin : forall i, In i (b_cand s) -> i < length rs) by (intros i Hi; rewrite Hrl; apply (se_b _ _ _ _ Hs); exact Hi).
        simpl. eapply eliminate_nonempty; eauto.
        intros i Hi. apply (Hnew i (rd rs i)). apply rd_nth, Hin, Hi. }
      pose proof (se_step_inv ops w cfg all s) as H. pose proof (se_inv_step _ all _ Hs) as H0.
      destruct (se_step ops w cfg all s) as [s'|best s'|e s']; [| |exact I].
      + destruct H as (_ & _ & arms' & g2 & rs & c & Hp & Hco & Hel & -> & _).
        split; [apply H0|]. eapply Hstep; eauto.
      + destruct H as [(-> & _)|[(-> & _)|(_ & _ & arms' & g2 & rs & Hp & Hco & Hel & -> & _)]]; [exact HJ|exact HJ|]. eapply Hstep; eauto.
  Qed.

  (** * no termination without a limit *)
  Lemma uniform_forever all arms g fuel :
    c_limit cfg = LInf -> arms <> [] ->
    (forall g n, exists d g', w_generate w g n = (Ok d, g')) ->
    (forall d a b, exists d', w_slice w d a b = Ok d') ->
    (forall a d delta g, exists a' g' l v, a_update ops a d delta g = ((a', g'), None) /\
       a_ci ops a' = (Some l, Some finf) /\ a_var ops a' = Some v /\ fisinf (fmul (a_cost ops a') finf) = true) ->
    exists s, run Uniform ops w cfg fuel all arms g = OutOfFuel s.
  Proof.
    intros Hlim Hne Hgen Hsl Hup.
    assert (Hpull : forall d delta l g, exists arms' g' rs, pull_all ops d delta l g = ((arms', g'), Ok rs) /\
              Forall (fun r => fisinf (r_ucb r) = true) rs).
    { intros d delta l. induction l as [|a l IH]; intros g0; simpl; [eauto 8|].
      destruct (Hup a d delta g0) as (a' & g' & lo & v & -> & Hc & Hv & Hi).
      unfold read, scaled. rewrite Hc, Hv. simpl.
      destruct (IH g') as (arms' & g2 & rs & -> & HF). do 3 eexists. split; [reflexivity|]. constructor; [exact Hi|exact HF]. }
    destruct (loop_forever (uniform_step ops w cfg all) (fun s => b_arms s <> [])) with (fuel := fuel) (s := binit arms g) as (s & Hs & _).
    - intros s Hs. unfold uniform_step.
      assert (exists start, (match all with
           | Some _ => match b_arms s with [] => Err IndexError | a :: _ => Ok (a_units ops a) end
           | None => Ok 0 end) = Ok start) as (start & ->).
      { destruct all; [|eauto]. destruct (b_arms s); [contradiction|eauto]. }
      assert (exists d g1, get_data w cfg all start (b_g s) = (Ok d, g1)) as (d & g1 & ->).
      { unfold get_data. destruct all as [d|]; [destruct (Hsl d start (start + c_units cfg)) as (d' & ->); eauto|].
        destruct (Hgen (b_g s) (c_units cfg)) as (d' & g' & ->); eauto. }
      destruct (Hpull d (delta_of cfg (b_arms s)) (b_arms s) g1) as (arms' & g2 & rs & Hp & HF).
      rewrite Hp. destruct (pull_all_ok _ _ _ _ _ _ _ _ Hp) as [Hc Hl]. rewrite Hc, Hlim. simpl.
      assert (Hex : existsb fisinf (map r_ucb rs) = true).
      { pose proof (collect_length ops _ _ Hc) as Hrl.
        destruct rs as [|r rs]; [destruct (b_arms s); [contradiction|simpl in *; lia]|].
        simpl. inversion HF; subst. rewrite H1. reflexivity. }
      unfold check_end. rewrite Hex. eexists. split; [reflexivity|]. simpl.
      destruct arms'; [|discriminate]. destruct (b_arms s); [contradiction|discriminate].
    - exact Hne.
    - exists s. exact Hs.
  Qed.
End P.
