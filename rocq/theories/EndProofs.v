(** What happens to the single arms in a run: induction over the updates of each arm. *)
From Coq Require Import List Arith ZArith Lia Bool.
From Verif Require Import PyBase PyLemmas Num NumLemmas NumOps DataModel BanditModel BanditSpec BanditProofs1 BanditProofs2 BanditProofs3 BanditProofs4 BanditProofs5 BanditProofs7
  ArmModel ArmSpec PacSpec PacProofs EndModel EndSpec.
Import ListNotations.
Open Scope nat_scope.

Section Track.
  Context {A D G : Type} (ops : arm_ops A D G) (w : world D G) (cfg : config) (all : option D) (K : nat) (Inv : nat -> nat -> A -> Prop).
  Notation bstate := (bstate (A := A) (G := G)).
  Implicit Types s : bstate.
  Notation delta := (fdiv (c_error_prob cfg) (f_of_nat K)).
  Hypothesis Hup : forall j n a d g a' g', j < K -> Inv j n a -> next_data ops w cfg all Inv n a d ->
    a_update ops a d delta g = ((a', g'), None) -> Inv j (S n) a'.

  Lemma pull_all_track d arms : forall g arms' g2 rs, pull_all ops d delta arms g = ((arms', g2), Ok rs) ->
    forall j a', nth_error arms' j = Some a' -> exists a g0 g1, nth_error arms j = Some a /\ a_update ops a d delta g0 = ((a', g1), None).
  Proof using.
    induction arms as [|a rest IH]; simpl; intros g arms' g2 rs H j a' Hj.
    - injection H as <- <- <-. destruct j; discriminate.
    - destruct (a_update ops a d delta g) as [[a1 g1] [e|]] eqn:E; [discriminate|].
      destruct (read ops a1) as [r|e]; [|discriminate].
      destruct (pull_all ops d delta rest g1) as [[rest' g3] [rs'|e]] eqn:Ep; [|discriminate].
      injection H as <- <- <-. destruct j as [|j]; simpl in *; [injection Hj as <-; eauto|]. eapply IH; eauto.
  Qed.

  Lemma pull_list_track is : forall arms g arms' g2 c, length arms = K -> pull_list ops w cfg all delta is arms g = ((arms', g2), None) ->
    (forall j a, nth_error arms j = Some a -> Inv j (c j) a) ->
    forall j a, nth_error arms' j = Some a -> Inv j (c j + count_occ Nat.eq_dec is j) a.
  Proof using Hup.
    induction is as [|i is IH]; simpl; intros arms g arms' g2 c HK H Hi j a' Hj.
    - injection H as <- <-. rewrite Nat.add_0_r. auto.
    - destruct (nth_error arms i) as [a|] eqn:Ei; [|discriminate].
      destruct (get_data w cfg all (a_units ops a) g) as [[d|e] g1] eqn:Ed; [|discriminate].
      destruct (a_update ops a d delta g1) as [[a1 g3] [e|]] eqn:E; [discriminate|].
      set (c' := fun k => if Nat.eq_dec i k then S (c k) else c k).
      assert (HI : Inv j (c' j + count_occ Nat.eq_dec is j) a').
      { eapply (IH _ _ _ _ c'); [|exact H| |exact Hj]; [rewrite modify_length; exact HK|].
        intros k b Hb. rewrite nth_error_modify in Hb. unfold c'. destruct (Nat.eqb_spec i k) as [<-|Hne].
        - rewrite Ei in Hb. simpl in Hb. injection Hb as <-. destruct (Nat.eq_dec i i); [|congruence].
          eapply Hup; [| |exists (a_units ops a), g, g1; split; [exact Ed|auto]|exact E]; [|apply Hi, Ei].
          rewrite <- HK. apply nth_error_Some. congruence.
        - destruct (Nat.eq_dec i k); [congruence|]. auto. }
      unfold c' in HI. destruct (Nat.eq_dec i j); [replace (c j + S _) with (S (c j) + count_occ Nat.eq_dec is j) by lia|]; exact HI.
  Qed.

  Hypothesis Hu : 0 < c_units cfg.
  Definition tracked alg s (c : nat -> nat) : Prop :=
    (forall j a, nth_error (b_arms s) j = Some a -> Inv j (c j) a) /\
    (forall j, j < K -> matches alg (c j) (sampled_rounds s j (length (b_cum s)))) /\
    (forall j t r, j < K -> recorded s j t = Some r -> exists n a, Inv j n a /\ reports ops a r /\ matches alg n (pulls s j t)).

  Lemma track_next alg s c c' arms' g2 rs smp total cand' : shape ops K s -> length arms' = K -> collect ops arms' = Ok rs -> length smp = K ->
    tracked alg s c -> (forall j a, nth_error arms' j = Some a -> Inv j (c' j) a) ->
    (forall j, j < K -> (nth_error smp j = Some 0 /\ c' j = c j) \/
       (nth_error smp j = Some (c_units cfg) /\ (c' j = S (c j) \/ (alg = LUCB /\ c' j = S (S (c j)))))) ->
    let s' := record_round (set_arms s arms' g2) rs smp total in
    tracked alg (mkB (b_arms s') (b_g s') (b_hist s') (b_smp s') (b_cum s') (b_total s') cand') c'.
  Proof using Hu.
    intros Hs Ha Hc Hsl (T1 & T2 & T3) Hi Hsmp s'. set (z := mkB _ _ _ _ _ _ _).
    pose proof (collect_length _ _ _ Hc) as HL. rewrite Ha in HL.
    assert (Hrs : forall j t, j < K -> recorded z j t = if t =? length (b_cum s) then nth_error rs j else recorded s j t)
      by (intros j t Hj; apply (recorded_next ops s arms' g2 rs smp total cand' K j t Hs HL Hj)).
    assert (Hss : forall j t, j < K -> recorded_samples z j t = if t =? length (b_cum s) then nth_error smp j else recorded_samples s j t)
      by (intros j t Hj; apply (recorded_samples_next ops K s arms' g2 rs smp total j t Hs Hsl Hj)).
    assert (Hold : forall j n, j < K -> n <= length (b_cum s) -> sampled_rounds z j n = sampled_rounds s j n).
    { intros j n Hj Hn. unfold sampled_rounds. f_equal. apply filter_ext_in. intros t Ht. apply in_seq in Ht. unfold sampled. rewrite Hss by exact Hj.
      destruct (Nat.eqb_spec t (length (b_cum s))); [lia|reflexivity]. }
    assert (Hnew : forall j, j < K -> matches alg (c' j) (sampled_rounds z j (S (length (b_cum s))))).
    { intros j Hj. specialize (T2 j Hj). specialize (Hsmp j Hj). pose proof (Hold j _ Hj (le_n _)) as Ho. unfold sampled_rounds in *. rewrite seq_S, filter_app, app_length, Ho. cbn [Nat.add filter].
      unfold sampled at 2. rewrite (Hss j _ Hj), Nat.eqb_refl. unfold matches in *.
      destruct Hsmp as [(-> & ->)|(-> & Hc')]; [simpl; rewrite Nat.add_0_r; exact T2|].
      destruct (c_units cfg) as [|u]; [lia|]. simpl. destruct Hc' as [->|(-> & ->)]; (split; [lia|]); [intros Hn; destruct T2 as [_ T2]; rewrite T2 by exact Hn; lia|congruence]. }
    split; [exact Hi|]. split.
    - intros j Hj. change (b_cum z) with (b_cum s ++ [total]). rewrite app_length, Nat.add_1_r. apply Hnew, Hj.
    - intros j t r Hj Hr. rewrite Hrs in Hr by exact Hj. change (pulls z j t) with (sampled_rounds z j (S t)).
      destruct (Nat.eqb_spec t (length (b_cum s))) as [->|Hne].
      + destruct (nth_error arms' j) as [a|] eqn:Ea; [|apply nth_error_None in Ea; lia].
        destruct (mapM_nth _ _ _ _ _ Hc Ea) as (r' & Hr' & Hrd). assert (r' = r) by congruence. subst r'.
        exists (c' j), a. split; [auto|]. split; [apply read_reports, Hrd|]. apply Hnew, Hj.
      + destruct (T3 j t r Hj Hr) as (n & a & I1 & I2 & I3). exists n, a. split; [exact I1|]. split; [exact I2|].
        rewrite Hold; [exact I3|exact Hj|].
        unfold recorded in Hr. destruct (nth_error (b_hist s) j) as [h|] eqn:E; [|discriminate]. pose proof (sh_hlen _ _ _ Hs) as F0. rewrite Forall_forall in F0.
        rewrite <- (F0 h (nth_error_In _ _ E)). apply nth_error_Some. congruence.
  Qed.

  Lemma run_track alg fuel arms g best s : length arms = K -> (forall j a, nth_error arms j = Some a -> Inv j 0 a) ->
    run alg ops w cfg fuel all arms g = Returned best s -> exists c, tracked alg s c.
  Proof using Hup Hu.
    intros HK0 H0 Hr.
    set (J := fun s => shape ops K s /\ (alg = SE -> se_inv ops cfg K s) /\ exists c, tracked alg s c /\ (alg = Uniform -> forall j, j < K -> c j = length (b_cum s))).
    pose proof (run_inv ops w cfg alg fuel all arms g J (fun _ s => exists c, tracked alg s c)) as H. rewrite Hr in H. apply H; clear H.
    - intros _. split; [rewrite <- HK0; apply shape_init|]. split; [intros _; rewrite <- HK0; apply se_inv_init|]. exists (fun _ => 0). split; [|reflexivity].
      split; [exact H0|]. split; [intros j _; unfold matches, sampled_rounds; simpl; lia|]. intros j t r Hj Hrec. exfalso. unfold recorded in Hrec. simpl in Hrec.
      rewrite nth_error_map in Hrec. destruct (nth_error arms j); [destruct t|]; discriminate.
    - intros ->. pose proof (lucb_start_inv ops w cfg all arms g) as H. destruct (lucb_start ops w cfg all arms g) as [s'| |]; [|exact I|exact I].
      destruct H as (d & g1 & arms' & g2 & rs & Hd & Hp & Hc & ->). split; [rewrite <- HK0; eapply shape_u_next; [apply shape_init|eapply pull_all_len'; [|exact Hp]; reflexivity|exact Hc]|].
      split; [discriminate|]. exists (fun _ => 1). split; [|discriminate].
      pose proof (shape_init ops arms g) as Hs0. rewrite HK0 in Hs0. unfold delta_of in Hp. rewrite HK0 in Hp.
      apply (track_next LUCB (binit arms g) (fun _ => 0) (fun _ => 1) arms' g2 rs (map (fun _ => c_units cfg) arms) _ _ Hs0 (pull_all_len' ops _ _ _ _ _ _ _ _ HK0 Hp) Hc); [rewrite map_length; exact HK0| | |].
      + split; [exact H0|]. split; [intros j _; unfold matches, sampled_rounds; simpl; lia|]. intros j t r Hj Hrec. exfalso. unfold recorded in Hrec. simpl in Hrec.
        rewrite nth_error_map in Hrec. destruct (nth_error arms j); [destruct t|]; discriminate.
      + intros j a' Hj. destruct (pull_all_track d arms g1 arms' g2 rs Hp j a' Hj) as (a & g3 & g4 & Ha & E).
        eapply Hup; [|apply H0, Ha|exists 0, g, g1; split; [exact Hd|auto]|exact E]. rewrite <- HK0. apply nth_error_Some. congruence.
      + intros j Hj. right. split; [|auto]. rewrite nth_error_map. destruct (nth_error arms j) eqn:E; [reflexivity|apply nth_error_None in E; lia].
    - intros s0 (Js & Jse & c & Jt & Jc). pose proof (sh_arms _ _ _ Js) as HK. pose proof Jt as (T1 & T2 & T3).
      assert (Hd : delta_of cfg (b_arms s0) = delta) by (unfold delta_of; rewrite HK; reflexivity). destruct alg.
      + pose proof (uniform_step_inv ops w cfg all s0) as H. rewrite Hd in H.
        assert (HU : forall st d g1 arms' g2 rs, (all = None \/ exists a, nth_error (b_arms s0) 0 = Some a /\ st = a_units ops a) -> get_data w cfg all st (b_g s0) = (Ok d, g1) ->
          pull_all ops d delta (b_arms s0) g1 = (arms', g2, Ok rs) -> collect ops arms' = Ok rs -> J (u_next cfg s0 arms' g2 rs)).
        { intros st d g1 arms' g2 rs Hst Hdd Hp Hc. split; [eapply shape_u_next; [exact Js|eapply pull_all_len'; [|exact Hp]; exact HK|exact Hc]|].
          split; [discriminate|]. exists (fun j => S (c j)). split.
          2:{ intros _ j Hj. simpl. rewrite app_length, Nat.add_1_r. f_equal. apply Jc; [reflexivity|exact Hj]. }
          apply (track_next Uniform s0 c (fun j => S (c j)) arms' g2 rs (map (fun _ => c_units cfg) (b_arms s0)) _ _ Js (pull_all_len' ops _ _ _ _ _ _ _ _ HK Hp) Hc); [rewrite map_length; exact HK|exact Jt| |].
          - intros j a' Hj. destruct (pull_all_track d (b_arms s0) g1 arms' g2 rs Hp j a' Hj) as (a & g3 & g4 & Ha & E).
            assert (Hjk : j < K) by (rewrite <- HK; apply nth_error_Some; congruence).
            eapply Hup; [exact Hjk|apply T1, Ha| |exact E]. exists st, (b_g s0), g1. split; [exact Hdd|].
            destruct Hst as [Hn|(a0 & Ha0 & Est)]; [left; exact Hn|]. right. right. left. exists a0. split; [|exact Est].
            rewrite (Jc eq_refl j Hjk), <- (Jc eq_refl 0 ltac:(lia)). apply T1, Ha0.
          - intros j Hj. right. split; [|auto]. rewrite nth_error_map. destruct (nth_error (b_arms s0) j) eqn:E; [reflexivity|apply nth_error_None in E; lia]. }
        destruct (uniform_step ops w cfg all s0); [| |exact I].
        * destruct H as (st & d & g1 & arms' & g2 & rs & b & Hst & Hdd & Hp & Hc & -> & _). eauto.
        * destruct H as (st & d & g1 & arms' & g2 & rs & Hst & Hdd & Hp & Hc & -> & _). destruct (HU _ _ _ _ _ _ Hst Hdd Hp Hc) as (_ & _ & c' & Ht & _). eauto.
      + pose proof (lucb_step_inv ops w cfg all s0) as H. rewrite Hd in H.
        assert (HU : forall is g1 g0 arms' g2 rs, select_arms ops w (b_arms s0) (b_g s0) = (Ok is, g0) -> pull_list ops w cfg all delta is (b_arms s0) g1 = (arms', g2, None) -> collect ops arms' = Ok rs -> J (l_next cfg s0 is arms' g2 rs)).
        { intros is g1 g0 arms' g2 rs Hsel Hp Hc. split; [eapply shape_l_next; [exact Js|eapply pull_list_len'; [|exact Hp]; exact HK|exact Hc]|].
          split; [discriminate|]. exists (fun j => c j + count_occ Nat.eq_dec is j). split; [|discriminate].
          assert (H2 : length is = 2).
          { unfold select_arms in Hsel. repeat match type of Hsel with (match ?x with _ => _ end) = _ => destruct x; try discriminate Hsel | (let '(_, _) := ?x in _) = _ => destruct x end; injection Hsel as <- <-; reflexivity. }
          apply (track_next LUCB s0 c _ arms' g2 rs (smp_of cfg is (length (b_arms s0))) _ _ Js (pull_list_len' ops w cfg _ _ _ _ _ _ _ _ _ HK Hp) Hc); [rewrite smp_of_length; exact HK|exact Jt|eapply pull_list_track; eauto|].
          intros j Hj. rewrite in_smp_of by lia. destruct (existsb (Nat.eqb j) is) eqn:E.
          - right. split; [reflexivity|]. apply existsb_In in E. apply (count_occ_In Nat.eq_dec) in E. pose proof (count_occ_bound Nat.eq_dec j is) as Hb.
            destruct (count_occ Nat.eq_dec is j) as [|[|[|]]]; try lia; right; split; [reflexivity|lia].
          - left. split; [reflexivity|]. assert (Hni : ~ In j is) by (intros Hin; apply existsb_In in Hin; congruence). rewrite (proj1 (count_occ_not_In Nat.eq_dec is j) Hni). lia. }
        destruct (lucb_step ops w cfg all s0); [| |exact I].
        * destruct H as (_ & is & g1 & arms' & g2 & rs & b & Hsel & Hp & Hc & -> & _). eauto.
        * destruct H as [(-> & _)|(_ & is & g1 & arms' & g2 & rs & Hsel & Hp & Hc & -> & _)]; [eauto|]. destruct (HU _ _ _ _ _ _ Hsel Hp Hc) as (_ & _ & c' & Ht & _). eauto.
      + pose proof (se_step_inv ops w cfg all s0) as H. rewrite Hd in H. pose proof (Jse eq_refl) as Hse. pose proof (se_inv_step ops w cfg _ all _ Hse) as Hse'.
        assert (HU : forall arms' g2 rs cand', pull_list ops w cfg all delta (b_cand s0) (b_arms s0) (b_g s0) = (arms', g2, None) -> collect ops arms' = Ok rs -> exists c', tracked SE (s_next cfg s0 arms' g2 rs cand') c').
        { intros arms' g2 rs cand' Hp Hc. exists (fun j => c j + count_occ Nat.eq_dec (b_cand s0) j).
          apply (track_next SE s0 c _ arms' g2 rs (smp_of cfg (b_cand s0) (length (b_arms s0))) _ _ Js (pull_list_len' ops w cfg _ _ _ _ _ _ _ _ _ HK Hp) Hc); [rewrite smp_of_length; exact HK|exact Jt|eapply pull_list_track; eauto|].
          intros j Hj. rewrite in_smp_of by lia. pose proof (proj1 (NoDup_count_occ Nat.eq_dec (b_cand s0)) (se_nd _ _ _ _ Hse) j) as Hb. destruct (existsb (Nat.eqb j) (b_cand s0)) eqn:E.
          - right. split; [reflexivity|]. apply existsb_In in E. apply (count_occ_In Nat.eq_dec) in E. left. lia.
          - left. split; [reflexivity|]. assert (Hni : ~ In j (b_cand s0)) by (intros Hin; apply existsb_In in Hin; congruence). rewrite (proj1 (count_occ_not_In Nat.eq_dec _ j) Hni). lia. }
        destruct (se_step ops w cfg all s0) as [s'|b s'|]; [| |exact I].
        * destruct H as (_ & _ & arms' & g2 & rs & cc & Hp & Hc & _ & E & _). destruct (HU arms' g2 rs cc Hp Hc) as (c' & Hc'). rewrite <- E in Hc'.
          split; [apply (se_shp _ _ _ _ (proj1 Hse'))|]. split; [intros _; apply Hse'|]. exists c'. split; [exact Hc'|discriminate].
        * destruct H as [(-> & _)|[(-> & _)|(_ & _ & arms' & g2 & rs & Hp & Hc & _ & -> & _)]]; [eauto|eauto|]. eauto.
  Qed.
End Track.
