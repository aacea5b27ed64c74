(** Rounds and gaps: common lemmas, successive elimination. *)
From Coq Require Import List Arith ZArith Lia Bool Reals Lra.
From Flocq Require Import Core BinarySingleNaN.
From Verif Require Import PyBase PyLemmas Num NumLemmas BanditModel BanditSpec BanditProofs1 BanditProofs2 BanditProofs3 BanditProofs4 BanditProofs5
  PacSpec PacProofs GapSpec.
Import ListNotations.
Open Scope nat_scope.

Lemma filter_all {X} (f : X -> bool) l : (forall x, In x l -> f x = true) -> filter f l = l.
Proof. induction l as [|x l IH]; simpl; intros H; [reflexivity|]. rewrite (H x) by auto. f_equal. auto. Qed.
Lemma filter_ext_len {X} (f h : X -> bool) l : (forall x, In x l -> f x = h x) -> length (filter f l) = length (filter h l).
Proof. intros H. f_equal. apply filter_ext_in, H. Qed.
Lemma list_sum_le (f h : nat -> nat) l : (forall x, In x l -> f x <= h x) -> list_sum (map f l) <= list_sum (map h l).
Proof.
  induction l as [|x l IH]; simpl; intros H; [lia|]. pose proof (H x (or_introl eq_refl)).
  specialize (IH (fun y Hy => H y (or_intror Hy))). unfold list_sum in *. lia.
Qed.
Lemma list_sum_lt (f h : nat -> nat) l y : (forall x, In x l -> f x <= h x) -> In y l -> f y < h y -> list_sum (map f l) < list_sum (map h l).
Proof.
  induction l as [|x l IH]; simpl; intros H Hy Hlt; [contradiction|]. pose proof (H x (or_introl eq_refl)).
  pose proof (list_sum_le f h l (fun z Hz => H z (or_intror Hz))) as HL. unfold list_sum in *.
  destruct Hy as [->|Hy]; [lia|]. specialize (IH (fun z Hz => H z (or_intror Hz)) Hy Hlt). lia.
Qed.

Lemma tight_key x w r : tight x w r -> num (r_lcb r) /\ num (r_ucb r) /\ num (r_var r) /\
  fkey (r_lcb r) = B2R (r_lcb r) /\ fkey (r_ucb r) = B2R (r_ucb r) /\ fkey (r_var r) = B2R (r_var r).
Proof.
  intros (H1 & H2 & H3 & _). rewrite !fkey_finite by assumption.
  assert (Hn : forall y : F, is_finite y = true -> num y) by (intros [] Hy; try discriminate Hy; reflexivity). auto 8.
Qed.

(** the elimination rule and the gaps *)
Lemma eliminate_gap cand rs cand' (v w : nat -> R) j c x : (forall i, In i cand -> i < length rs) ->
  (forall i, In i cand -> tight (v i) (w i) (rd rs i)) -> eliminate cand rs = Ok cand' ->
  In j cand -> In c cand -> (v c <= x)%R -> In j cand' -> exists k, In k cand /\ (v j - x < w j + w c + w k)%R.
Proof.
  intros Hin Ht Hel Hj Hc Hx Hj'. destruct (eliminate_spec _ _ _ Hin Hel) as (b & Hb & _ & Hmin & ->).
  exists b. split; [exact Hb|].
  apply (select_map_In (fun i => fltb (r_lcb (rd rs i)) (r_ucb (rd rs b)))) in Hj' as [_ Hlt].
  pose proof (Ht b Hb) as Tb. pose proof (Ht c Hc) as Tc. pose proof (Ht j Hj) as Tj.
  apply tight_key in Tb as (_ & _ & _ & _ & Kb & Kb'). apply tight_key in Tc as (_ & _ & Nc & _ & _ & Kc). apply tight_key in Tj as (_ & _ & _ & Kj & _ & _).
  specialize (Hmin c Hc Nc). rewrite Kb', Kc in Hmin. apply fltb_spec in Hlt as (_ & _ & Hlt). rewrite Kb, Kj in Hlt.
  destruct (Ht b Hb) as (_ & _ & _ & _ & Vb & Eb & Wb). destruct (Ht c Hc) as (_ & _ & _ & _ & Vc & Ec & Wc). destruct (Ht j Hj) as (_ & _ & _ & _ & Vj & Ej & Wj).
  lra.
Qed.

Lemma sampled_true {A G} (s : bstate (A := A) (G := G)) j t u : recorded_samples s j t = Some u -> 0 < u -> sampled s j t = true.
Proof. intros E Hu. unfold sampled. rewrite E. destruct u; [lia|reflexivity]. Qed.

Section P.
  Context {A D G : Type} (ops : arm_ops A D G) (w : world D G) (cfg : config).
  Notation bstate := (bstate (A := A) (G := G)).
  Implicit Types s : bstate.

  (** the state after recording a round *)
  Definition next s arms' g2 rs smp total cand' : bstate :=
    let s' := record_round (set_arms s arms' g2) rs smp total in
    mkB (b_arms s') (b_g s') (b_hist s') (b_smp s') (b_cum s') (b_total s') cand'.

  Lemma recorded_lt K s j t r : shape ops K s -> recorded s j t = Some r -> j < K /\ t < length (b_cum s).
  Proof.
    intros Hs Hr. unfold recorded in Hr. destruct (nth_error (b_hist s) j) as [h|] eqn:E; [|discriminate].
    split; [rewrite <- (sh_hist _ _ _ Hs); apply nth_error_Some; congruence|].
    pose proof (sh_hlen _ _ _ Hs) as Hf. rewrite Forall_forall in Hf. rewrite <- (Hf h (nth_error_In _ _ E)). apply nth_error_Some. congruence.
  Qed.

  Lemma samples_next K s arms' g2 rs smp total cand' j t : shape ops K s -> length smp = K -> j < K ->
    recorded_samples (next s arms' g2 rs smp total cand') j t = if t =? length (b_cum s) then nth_error smp j else recorded_samples s j t.
  Proof. intros Hs Hl Hj. exact (recorded_samples_next ops K s arms' g2 rs smp total j t Hs Hl Hj). Qed.

  Lemma pulls_old K s arms' g2 rs smp total cand' j t : shape ops K s -> length smp = K -> j < K -> t < length (b_cum s) ->
    pulls (next s arms' g2 rs smp total cand') j t = pulls s j t.
  Proof.
    intros Hs Hl Hj Ht. unfold pulls. apply filter_ext_len. intros x Hx. apply in_seq in Hx. unfold sampled.
    rewrite (samples_next K) by assumption. destruct (Nat.eqb_spec x (length (b_cum s))); [lia|reflexivity].
  Qed.
  (** the number of rounds with samples so far *)
  Definition pulled s j : nat := length (filter (sampled s j) (seq 0 (length (b_cum s)))).
  Lemma pulls_new K s arms' g2 rs smp total cand' j : shape ops K s -> length smp = K -> j < K ->
    pulls (next s arms' g2 rs smp total cand') j (length (b_cum s)) =
    pulled s j + match nth_error smp j with Some (S _) => 1 | _ => 0 end.
  Proof.
    intros Hs Hl Hj. unfold pulls, pulled. rewrite seq_S, filter_app, app_length. f_equal.
    - apply filter_ext_len. intros x Hx. apply in_seq in Hx. unfold sampled. rewrite (samples_next K) by assumption.
      destruct (Nat.eqb_spec x (length (b_cum s))); [lia|reflexivity].
    - simpl. unfold sampled. rewrite (samples_next K) by assumption. rewrite Nat.eqb_refl.
      destruct (nth_error smp j) as [[|]|]; reflexivity.
  Qed.
  Lemma pulled_next K s arms' g2 rs smp total cand' j : shape ops K s -> length smp = K -> j < K ->
    pulled (next s arms' g2 rs smp total cand') j = pulled s j + match nth_error smp j with Some (S _) => 1 | _ => 0 end.
  Proof.
    intros Hs Hl Hj. rewrite <- (pulls_new K s arms' g2 rs smp total cand' j Hs Hl Hj). unfold pulled, pulls.
    replace (length (b_cum (next s arms' g2 rs smp total cand'))) with (S (length (b_cum s))); [reflexivity|].
    simpl. rewrite app_length. simpl. lia.
  Qed.

  Lemma accurate_next K s arms' g2 rs smp total cand' v W : shape ops K s -> length rs = K -> length smp = K ->
    accurate v W (next s arms' g2 rs smp total cand') ->
    accurate v W s /\ forall j, j < K ->
      tight (v j) (W j (pulled (next s arms' g2 rs smp total cand') j)) (rd rs j).
  Proof.
    intros Hs Hl Hsl Ha. split.
    - intros j t r Hr. destruct (recorded_lt K s j t r Hs Hr) as [Hj Ht].
      rewrite <- (pulls_old K s arms' g2 rs smp total cand' j t Hs Hsl Hj Ht). apply Ha.
      unfold next. rewrite (recorded_next ops s arms' g2 rs smp total cand' K j t Hs Hl Hj).
      destruct (Nat.eqb_spec t (length (b_cum s))); [lia|exact Hr].
    - intros j Hj. rewrite (pulled_next K) by assumption. rewrite <- (pulls_new K s arms' g2 rs smp total cand' j Hs Hsl Hj). apply Ha.
      unfold next. rewrite (recorded_next ops s arms' g2 rs smp total cand' K j _ Hs Hl Hj). rewrite Nat.eqb_refl. apply rd_nth. lia.
  Qed.

  (** ** successive elimination *)
  Lemma pulled_cand K s j : se_inv ops cfg K s -> 0 < c_units cfg -> In j (b_cand s) -> pulled s j = length (b_cum s).
  Proof.
    intros Hs Hu Hj. destruct (se_rec _ _ _ _ Hs j (se_b _ _ _ _ Hs j Hj)) as (r & Hr & Hr'). specialize (Hr' Hj). subst r.
    destruct (arm_record_samples cfg s j _ Hr) as [Ha _]. unfold pulled. rewrite filter_all; [apply seq_length|].
    intros t Ht. apply in_seq in Ht. apply (sampled_true _ _ _ (c_units cfg)); [apply Ha; lia|exact Hu].
  Qed.

  Lemma tight_in_interval x wd r : tight x wd r -> good_interval r /\ in_interval r x.
  Proof.
    intros H. pose proof (tight_key _ _ _ H) as (N1 & N2 & _ & K1 & K2 & _). destruct H as (F1 & F2 & _ & Hlt & Hv & _).
    split; [unfold good_interval; apply fltb_spec; rewrite K1, K2; auto|]. split; right; split; tauto.
  Qed.

  Definition se_gap K v W s : Prop :=
    dominated K v s /\
    forall j b N, j < K -> b < K -> 1 <= N -> far K v W b j N ->
      pulled s j <= N /\ (In j (b_cand s) -> length (b_cum s) < N).
  Definition se_short K v W s : Prop := forall b M, b < K ->
    (forall j, j < K -> j <> b -> exists N, 1 <= N <= M /\ far K v W b j N) -> length (b_cum s) <= M.

  Lemma run_se_gap fuel all arms g v W : 0 < c_units cfg ->
    match run SE ops w cfg fuel all arms g with
    | Returned _ s => se_inv ops cfg (length arms) s /\ (accurate v W s -> se_gap (length arms) v W s /\ se_short (length arms) v W s)
    | Raised _ _ => True
    | OutOfFuel s => se_inv ops cfg (length arms) s /\ (accurate v W s -> se_gap (length arms) v W s /\ se_short (length arms) v W s) end.
  Proof.
    intros Hu. set (K := length arms). apply run_inv; [|discriminate|].
    - intros _. split; [apply se_inv_init|]. intros _. split; [split|].
      + intros j Hj. exists j. split; [simpl; apply in_seq; fold K; lia|lra].
      + intros j b N _ _ HN _. unfold pulled. simpl. lia.
      + intros b M _ _. simpl. lia.
    - intros s [Hs HJ].
      assert (Hstep : forall arms' g2 rs cand', 1 < length (b_cand s) ->
        pull_list ops w cfg all (delta_of cfg (b_arms s)) (b_cand s) (b_arms s) (b_g s) = ((arms', g2), None) ->
        collect ops arms' = Ok rs -> eliminate (b_cand s) rs = Ok cand' ->
        accurate v W (s_next cfg s arms' g2 rs cand') -> se_gap K v W (s_next cfg s arms' g2 rs cand') /\ se_short K v W (s_next cfg s arms' g2 rs cand')).
      { intros arms' g2 rs cand' Hc1 Hp Hco Hel Hacc.
        assert (Hal : length arms' = K) by (eapply pull_list_len'; [apply Hs|exact Hp]).
        pose proof (collect_length ops _ _ Hco) as Hrl. rewrite Hal in Hrl.
        pose proof (se_shp _ _ _ _ Hs) as Hsh. pose proof (sh_arms _ _ _ Hsh) as HaK.
        set (smp := smp_of cfg (b_cand s) (length (b_arms s))).
        set (tot := b_total s + length (b_cand s) * c_units cfg).
        change (s_next cfg s arms' g2 rs cand') with (next s arms' g2 rs smp tot cand') in *.
        assert (Hsl : length smp = K) by (unfold smp; rewrite smp_of_length; exact HaK).
        destruct (accurate_next K s arms' g2 rs smp tot cand' v W Hsh Hrl Hsl Hacc) as [Hold Hnew].
        destruct (HJ Hold) as [[Hdom Hgap] Hshort].
        assert (Hin : forall i, In i (b_cand s) -> i < length rs) by (intros i Hi; rewrite Hrl; apply (se_b _ _ _ _ Hs); exact Hi).
        assert (Hlen : length (b_cum (next s arms' g2 rs smp tot cand')) = S (length (b_cum s))) by (simpl; rewrite app_length; simpl; lia).
        assert (Hsmp : forall j, j < K -> nth_error smp j = Some (if existsb (Nat.eqb j) (b_cand s) then c_units cfg else 0)).
        { intros j Hj. unfold smp. rewrite smp_of_nth, HaK. apply Nat.ltb_lt in Hj as ->. reflexivity. }
        assert (Hpc : forall j, In j (b_cand s) -> pulled (next s arms' g2 rs smp tot cand') j = S (length (b_cum s))).
        { intros j Hj. pose proof (se_b _ _ _ _ Hs j Hj) as HjK. rewrite (pulled_next K) by assumption. rewrite (Hsmp j HjK).
          apply existsb_In in Hj as E. rewrite E. rewrite (pulled_cand K s j Hs Hu Hj). destruct (c_units cfg); lia. }
        assert (Ht : forall i, In i (b_cand s) -> tight (v i) (W i (S (length (b_cum s)))) (rd rs i)).
        { intros i Hi. rewrite <- (Hpc i Hi). apply Hnew. rewrite <- Hrl. apply Hin, Hi. }
        split; [split|].
        - intros j Hj. destruct (Hdom j Hj) as (b & Hb & Hle).
          destruct (eliminate_keeps (b_cand s) rs cand' v Hin) with (j := b) as (b' & Hb' & Hle'); auto.
          { intros i Hi. eapply tight_in_interval, Ht, Hi. }
          exists b'. split; [exact Hb'|lra].
        - intros j b N Hj Hb HN Hfar. destruct (Hgap j b N Hj Hb HN Hfar) as [Hg1 Hg2]. rewrite Hlen. split.
          + rewrite (pulled_next K) by assumption. rewrite (Hsmp j Hj).
            destruct (existsb (Nat.eqb j) (b_cand s)) eqn:E; [|lia].
            apply existsb_In in E. specialize (Hg2 E). rewrite (pulled_cand K s j Hs Hu E). destruct (c_units cfg); lia.
          + intros Hj'. simpl in Hj'. pose proof (eliminate_In _ _ _ _ Hin Hel Hj') as Hjc. specialize (Hg2 Hjc).
            destruct (Nat.eq_dec (S (length (b_cum s))) N) as [E|]; [exfalso|lia].
            destruct (Hdom b Hb) as (c & Hc & Hle).
            destruct (eliminate_gap (b_cand s) rs cand' v (fun i => W i N) j c (v b) Hin) as (k & Hk & Hlt); auto.
            { rewrite <- E. exact Ht. }
            specialize (Hfar c k (se_b _ _ _ _ Hs c Hc) (se_b _ _ _ _ Hs k Hk)). simpl in Hlt. lra.
        - intros b M Hb HM. rewrite Hlen.
          assert (exists j, In j (b_cand s) /\ j <> b) as (j & Hjc & Hjb).
          { pose proof (se_nd _ _ _ _ Hs) as Hnd. destruct (b_cand s) as [|x [|y l]]; simpl in Hc1; try lia.
            inversion Hnd as [|? ? Hni _]; subst. destruct (Nat.eq_dec x b) as [->|]; [|exists x; simpl; auto].
            exists y. split; [simpl; auto|]. intros ->. apply Hni. simpl. auto. }
          pose proof (se_b _ _ _ _ Hs j Hjc) as Hj. destruct (HM j Hj Hjb) as (N & HN & Hfar).
          destruct (Hgap j b N Hj Hb (proj1 HN) Hfar) as [_ Hg]. specialize (Hg Hjc). lia. }
      pose proof (se_step_inv ops w cfg all s) as H. pose proof (se_inv_step ops w cfg _ all _ Hs) as H0.
      destruct (se_step ops w cfg all s) as [s'|best s'|e s']; [| |exact I].
      + destruct H as (Hc1 & _ & arms' & g2 & rs & c & Hp & Hco & Hel & -> & _).
        split; [apply H0|]. eapply Hstep; eauto.
      + split; [apply H0|]. destruct H as [(-> & _)|[(-> & _)|(Hc1 & _ & arms' & g2 & rs & Hp & Hco & Hel & -> & _)]]; [exact HJ|exact HJ|]. eapply Hstep; eauto.
  Qed.

  Lemma se_samples K s j : se_inv ops cfg K s -> 0 < c_units cfg -> j < K -> arm_samples s j = pulled s j * c_units cfg.
  Proof.
    intros Hs Hu Hj. destruct (se_rec _ _ _ _ Hs j Hj) as (r & Hr & _). pose proof (arm_record_samples cfg s j r Hr) as [Ha Hb].
    destruct Hr as (H1 & _ & H3 & _). unfold arm_samples. rewrite H3, list_sum_app.
    assert (E : forall n x, list_sum (repeat x n) = n * x) by (induction n; simpl; intros; [reflexivity|]; unfold list_sum in *; rewrite IHn; reflexivity).
    rewrite !E. assert (pulled s j = r); [|subst r; lia]. unfold pulled.
    replace (length (b_cum s)) with (r + (length (b_cum s) - r)) by lia. rewrite seq_app, filter_app, app_length.
    rewrite filter_all; [rewrite seq_length|].
    2:{ intros t Ht. apply in_seq in Ht. apply (sampled_true _ _ _ (c_units cfg)); [apply Ha; lia|exact Hu]. }
    replace (filter (sampled s j) (seq (0 + r) (length (b_cum s) - r))) with (@nil nat); [simpl; lia|].
    symmetry. apply length_zero_iff_nil.
    assert (Hz : forall l, (forall t, In t l -> sampled s j t = false) -> length (filter (sampled s j) l) = 0).
    { induction l as [|t l IH]; simpl; intros H; [reflexivity|]. rewrite (H t) by auto. auto. }
    apply Hz. intros t Ht. apply in_seq in Ht. unfold sampled. rewrite (proj1 (Hb t ltac:(lia))). reflexivity.
  Qed.

  Lemma sum_by_arm s K : length (b_smp s) = K -> list_sum (map list_sum (b_smp s)) = total_of K (arm_samples s).
  Proof.
    unfold total_of, arm_samples. intros <-. f_equal. apply nth_ext with (d := 0) (d' := 0).
    - rewrite !map_length, seq_length. reflexivity.
    - intros n Hn. rewrite map_length in Hn.
      rewrite (nth_indep _ 0 (list_sum [])) by (rewrite map_length; exact Hn). rewrite map_nth.
      rewrite (nth_indep (map _ (seq 0 _)) 0 ((fun j => match nth_error (b_smp s) j with Some h => list_sum h | None => 0 end) 0)) by (rewrite map_length, seq_length; exact Hn).
      rewrite (map_nth (fun j => match nth_error (b_smp s) j with Some h => list_sum h | None => 0 end)). rewrite seq_nth by exact Hn. simpl.
      rewrite (nth_error_nth' (b_smp s) [] Hn). reflexivity.
  Qed.

  (** ** a run that stops for lack of fuel has recorded a round per unit of fuel *)
  Lemma loop_fuel {R} (body : bstate -> step bstate R) : (forall s s', body s = Continue s' -> length (b_cum s') = S (length (b_cum s))) ->
    forall fuel s s', loop fuel body s = OutOfFuel s' -> length (b_cum s') = length (b_cum s) + fuel.
  Proof.
    intros Hb fuel. induction fuel as [|n IH]; simpl; intros s s' H; [injection H as <-; lia|].
    destruct (body s) as [s1| |] eqn:E; [|discriminate|discriminate]. apply Hb in E. apply IH in H. lia.
  Qed.
  Lemma snoc_len s (x : nat) : length (b_cum s ++ [x]) = S (length (b_cum s)).
  Proof. rewrite app_length. simpl. lia. Qed.
  Lemma run_fuel alg fuel all arms g s : run alg ops w cfg fuel all arms g = OutOfFuel s ->
    length (b_cum s) = (match alg with LUCB => 1 | _ => 0 end) + fuel.
  Proof.
    destruct alg; simpl; intros H.
    - apply loop_fuel in H; [exact H|]. intros s0 s1 E. pose proof (uniform_step_inv ops w cfg all s0) as Hi. rewrite E in Hi.
      destruct Hi as (st & d & g1 & arms' & g2 & rs & b & _ & _ & _ & _ & -> & _). apply (snoc_len s0).
    - unfold run_lucb in H. pose proof (lucb_start_inv ops w cfg all arms g) as H0.
      destruct (lucb_start ops w cfg all arms g) as [s0| |]; [|contradiction|discriminate].
      destruct H0 as (d & g1 & arms' & g2 & rs & _ & _ & _ & ->). apply loop_fuel in H; [exact H|].
      intros s0 s1 E. pose proof (lucb_step_inv ops w cfg all s0) as Hi. rewrite E in Hi.
      destruct Hi as (_ & is & g3 & arms3 & g4 & rs3 & b & _ & _ & _ & -> & _). apply (snoc_len s0).
    - apply loop_fuel in H; [exact H|]. intros s0 s1 E. pose proof (se_step_inv ops w cfg all s0) as Hi. rewrite E in Hi.
      destruct Hi as (_ & _ & arms' & g2 & rs & c & _ & _ & _ & -> & _). apply (snoc_len s0).
  Qed.
End P.
