(** LUCB arm selection, reset, single-armed bandits. *)
From Coq Require Import List Arith ZArith Lia Bool Reals Lra.
From Flocq Require Import Core BinarySingleNaN.
From Verif Require Import PyBase PyLemmas Num NumLemmas BanditModel BanditSpec BanditProofs1 BanditProofs2 BanditProofs3 BanditProofs4.
Import ListNotations.
Open Scope nat_scope.

Lemma list_as_map (rs : list reading) : rs = map (rd rs) (seq 0 (length rs)).
Proof.
  apply nth_ext with (d := mkReading fnan fnan fnan) (d' := rd rs 0).
  - rewrite map_length, seq_length. reflexivity.
  - intros n Hn. rewrite map_nth, seq_nth by lia. reflexivity.
Qed.

Lemma map_as_idx {X} (f : reading -> X) rs : map f rs = map (fun i => f (rd rs i)) (seq 0 (length rs)).
Proof. rewrite (list_as_map rs) at 1. apply map_map. Qed.


Section P.
  Context {A D G : Type} (ops : arm_ops A D G) (w : world D G) (cfg : config).
  Notation bstate := (bstate (A := A) (G := G)).
  Implicit Types s : bstate.

  Lemma py_min_ok {l : list F} : l <> [] -> exists m, py_min fltb l = Ok m.
  Proof. destruct l; [contradiction|]. simpl. eauto. Qed.
  Lemma py_max_ok {l : list F} : l <> [] -> exists m, py_max fltb l = Ok m.
  Proof. destruct l; [contradiction|]. simpl. eauto. Qed.

  Lemma select_spec arms rs g : collect ops arms = Ok rs -> Forall numeric rs -> fair_choice w ->
    ((forall i, i < length rs -> incumbent rs i) -> exists g', select_arms ops w arms g = (Err ValueError, g')) /\
    ((exists i, i < length rs /\ ~ incumbent rs i) ->
     exists a b g', select_arms ops w arms g = (Ok [a; b], g') /\ a < length rs /\ b < length rs /\
      (exists i, incumbent rs i /\ fkey (r_ucb (rd rs i)) = fkey (r_ucb (rd rs a))) /\
      (forall i, incumbent rs i -> (fkey (r_ucb (rd rs i)) <= fkey (r_ucb (rd rs a)))%R) /\
      (exists j, j < length rs /\ ~ incumbent rs j /\ fkey (r_lcb (rd rs j)) = fkey (r_lcb (rd rs b))) /\
      (forall j, j < length rs -> ~ incumbent rs j -> (fkey (r_lcb (rd rs b)) <= fkey (r_lcb (rd rs j)))%R)).
  Proof.
    intros Hc Hn [Hf _]. unfold select_arms. rewrite Hc.
    pose proof (collect_length ops _ _ Hc) as Hl. rewrite <- Hl.
    assert (Hnum : forall i, i < length rs -> numeric (rd rs i)).
    { intros i Hi. rewrite Forall_forall in Hn. apply Hn. apply nth_In, Hi. }
    destruct rs as [|r0 rs0] eqn:Ers.
    { simpl. split; [eauto|]. intros (i & Hi & _). simpl in Hi. lia. }
    rewrite <- Ers in *. assert (Hne : 0 < length rs) by (rewrite Ers; simpl; lia). clear Ers r0 rs0.
    rewrite (map_as_idx r_var rs), (map_as_idx r_ucb rs), (map_as_idx r_lcb rs).
    set (idx := seq 0 (length rs)) in *.
    assert (Hidx : forall i, In i idx <-> i < length rs) by (intros i; unfold idx; rewrite in_seq; lia).
    destruct (@py_min_ok (map (fun x => r_var (rd rs x)) idx)) as (m & Hm).
    { unfold idx. destruct (length rs); [lia|discriminate]. }
    rewrite Hm.
    assert (HFv : Forall num (map (fun x => r_var (rd rs x)) idx)).
    { apply Forall_map, Forall_forall. intros i Hi. apply Hnum, Hidx, Hi. }
    destruct (py_min_spec _ _ HFv Hm) as [Hmin Hmle].
    assert (Nm : num m). { rewrite Forall_forall in HFv. apply HFv, Hmin. }
    unfold num in Nm. rewrite Nm. rewrite !map_map.
    apply in_map_iff in Hmin as (i0 & Hi0 & Hi0in).
    assert (Hinc : forall i, i < length rs -> (feqb (r_var (rd rs i)) m = true <-> incumbent rs i)).
    { intros i Hi. rewrite feqb_spec. unfold incumbent. split.
      - intros (_ & _ & E). split; [exact Hi|]. intros k Hk. rewrite E. apply Hmle. apply in_map_iff. exists k. split; [reflexivity|]. apply Hidx, Hk.
      - intros [_ H]. specialize (H i0 (proj1 (Hidx i0) Hi0in)). rewrite Hi0 in H.
        split; [apply Hnum, Hi|]. split; [exact Nm|]. apply Rle_antisym; [exact H|].
        apply Hmle. apply in_map_iff. exists i. split; [reflexivity|]. apply Hidx, Hi. }
    assert (Hi0inc : incumbent rs i0).
    { apply Hinc; [apply Hidx, Hi0in|]. rewrite Hi0. apply feqb_spec. auto. }
    set (U := select (map (fun x => feqb (r_var (rd rs x)) m) idx) (map (fun x => r_ucb (rd rs x)) idx)).
    assert (HU : forall y, In y U <-> exists x, In x idx /\ feqb (r_var (rd rs x)) m = true /\ r_ucb (rd rs x) = y) by (intros y; apply select_map_map_In).
    destruct (@py_max_ok U) as (hu & Hhu).
    { intros E. assert (In (r_ucb (rd rs i0)) U); [|rewrite E in *; contradiction].
      apply HU. exists i0. split; [exact Hi0in|]. split; [|reflexivity]. apply Hinc; [apply Hidx|]; assumption. }
    rewrite Hhu. rewrite ?map_map.
    assert (HFU : Forall num U). { apply Forall_forall. intros y Hy. apply HU in Hy as (x & Hx & _ & <-). apply Hnum, Hidx, Hx. }
    destruct (py_max_spec _ _ HFU Hhu) as [Huin Hule].
    set (L := select (map (fun x => negb (feqb (r_var (rd rs x)) m)) idx) (map (fun x => r_lcb (rd rs x)) idx)).
    assert (HL : forall y, In y L <-> exists x, In x idx /\ negb (feqb (r_var (rd rs x)) m) = true /\ r_lcb (rd rs x) = y) by (intros y; apply select_map_map_In).
    split.
    - intros Hall. assert (L = []) as ->.
      { destruct L as [|y L'] eqn:EL; [reflexivity|]. exfalso. destruct (proj1 (HL y) (or_introl eq_refl)) as (x & Hx & Hneg & _).
        apply Hidx in Hx. rewrite (proj2 (Hinc x Hx) (Hall x Hx)) in Hneg. discriminate. }
      simpl. eauto.
    - intros (j0 & Hj0 & Hnj0).
      assert (Hneg : forall j, j < length rs -> (negb (feqb (r_var (rd rs j)) m) = true <-> ~ incumbent rs j)).
      { intros j Hj. rewrite <- (Hinc j Hj). destruct (feqb (r_var (rd rs j)) m); simpl; intuition congruence. }
      destruct (@py_min_ok L) as (ll & Hll).
      { intros E. assert (In (r_lcb (rd rs j0)) L); [|rewrite E in *; contradiction].
        apply HL. exists j0. split; [apply Hidx, Hj0|]. split; [apply Hneg; assumption|reflexivity]. }
      rewrite Hll. rewrite ?map_map.
      assert (HFL : Forall num L). { apply Forall_forall. intros y Hy. apply HL in Hy as (x & Hx & _ & <-). apply Hnum, Hidx, Hx. }
      destruct (py_min_spec _ _ HFL Hll) as [Hlin Hlle].
      apply HU in Huin as (a0 & Ha0 & Hea0 & Hau). apply HL in Hlin as (b0 & Hb0 & Heb0 & Hbl).
      set (us := select (map (fun x => feqb (r_ucb (rd rs x)) hu) idx) idx).
      set (ls := select (map (fun x => feqb (r_lcb (rd rs x)) ll) idx) idx).
      assert (Hus : forall x, In x us <-> In x idx /\ feqb (r_ucb (rd rs x)) hu = true) by (intros x; apply (select_map_In (fun x => feqb (r_ucb (rd rs x)) hu))).
      assert (Hls : forall x, In x ls <-> In x idx /\ feqb (r_lcb (rd rs x)) ll = true) by (intros x; apply (select_map_In (fun x => feqb (r_lcb (rd rs x)) ll))).
      assert (Hua0 : In a0 us). { apply Hus. split; [exact Ha0|]. rewrite Hau. apply feqb_spec.
        assert (num hu) by (rewrite <- Hau; apply Hnum, Hidx, Ha0). auto. }
      assert (Hlb0 : In b0 ls). { apply Hls. split; [exact Hb0|]. rewrite Hbl. apply feqb_spec.
        assert (num ll) by (rewrite <- Hbl; apply Hnum, Hidx, Hb0). auto. }
      destruct us as [|u1 us'] eqn:Eus; [contradiction|]. rewrite <- Eus in *.
      pose proof (Hf g us) as Ha. destruct (w_choice w g us) as [a g1]. simpl in Ha.
      assert (Hain : In a us) by (apply Ha; rewrite Eus; discriminate).
      destruct ls as [|l1 ls'] eqn:Els; [contradiction|]. rewrite <- Els in *.
      pose proof (Hf g1 ls) as Hb. destruct (w_choice w g1 ls) as [b g2]. simpl in Hb.
      assert (Hbin : In b ls) by (apply Hb; rewrite Els; discriminate).
      apply Hus in Hain as [Hai Hae]. apply Hls in Hbin as [Hbi Hbe].
      apply feqb_spec in Hae as (_ & _ & Hae). apply feqb_spec in Hbe as (_ & _ & Hbe).
      exists a, b, g2. split; [reflexivity|]. split; [apply Hidx, Hai|]. split; [apply Hidx, Hbi|].
      split; [|split; [|split]].
      + exists a0. split; [apply Hinc; [apply Hidx, Ha0|exact Hea0]|]. rewrite Hau. auto.
      + intros i Hi. rewrite Hae. apply Hule. apply HU. exists i. split; [apply Hidx, Hi|]. split; [apply Hinc; [apply Hi|exact Hi]|reflexivity].
      + exists b0. split; [apply Hidx, Hb0|]. split; [apply Hneg; [apply Hidx, Hb0|exact Heb0]|]. rewrite Hbl. auto.
      + intros j Hj Hnj. rewrite Hbe. apply Hlle. apply HL. exists j. split; [apply Hidx, Hj|]. split; [apply Hneg; assumption|reflexivity].
  Qed.

  (** whatever the readings, a successful selection is a pair of positions of at least two arms *)
  Lemma select_two arms g is g' : fair_choice w -> select_arms ops w arms g = (Ok is, g') ->
    2 <= length arms /\ exists i j, is = [i; j] /\ i < length arms /\ j < length arms.
  Proof.
    intros [Hf1 Hf2]. unfold select_arms. destruct (collect ops arms) as [rs|e] eqn:Hc; [|discriminate].
    pose proof (collect_length ops _ _ Hc) as Hl.
    destruct (py_min fltb (map r_var rs)) as [m|e] eqn:Hm; [|discriminate].
    destruct (fisnan m).
    - destruct (Nat.ltb_spec (length arms) 2) as [H|H]; [discriminate|].
      specialize (Hf2 g (length arms) H). destruct (w_choice2 w g (length arms)) as [[i j] g1]. simpl in Hf2.
      intros E; injection E as <- <-. split; [exact H|]. exists i, j. tauto.
    - destruct (py_max fltb (select (map (fun v => feqb v m) (map r_var rs)) (map r_ucb rs))) as [hu|e] eqn:Hhu; [|discriminate].
      destruct (py_min fltb (select (map negb (map (fun v => feqb v m) (map r_var rs))) (map r_lcb rs))) as [ll|e] eqn:Hll; [|discriminate].
      set (us := select (map (fun u => feqb u hu) (map r_ucb rs)) (seq 0 (length arms))).
      set (ls := select (map (fun l => feqb l ll) (map r_lcb rs)) (seq 0 (length arms))).
      pose proof (Hf1 g us) as Ha. destruct us as [|u1 us'] eqn:Eus; [discriminate|]. rewrite <- Eus in *.
      destruct (w_choice w g us) as [a g1]. simpl in Ha.
      assert (Hain : In a us) by (apply Ha; rewrite Eus; discriminate).
      pose proof (Hf1 g1 ls) as Hb. destruct ls as [|l1 ls'] eqn:Els; [discriminate|]. rewrite <- Els in *.
      destruct (w_choice w g1 ls) as [b g2]. simpl in Hb.
      assert (Hbin : In b ls) by (apply Hb; rewrite Els; discriminate).
      intros E; injection E as <- <-. split.
      + rewrite <- Hl. destruct rs as [|r1 [|r2 rs']]; simpl in *; try discriminate; try lia.
        exfalso. destruct (feqb (r_var r1) m); simpl in *; discriminate.
      + exists a, b. split; [reflexivity|]. unfold us, ls in *.
        apply select_In, in_seq in Hain. apply select_In, in_seq in Hbin. lia.
  Qed.

  (** * LUCB: recorded samples *)
  Definition two_arms s (t : nat) : Prop := exists i j, i <> j /\ recorded_samples s i t = Some (c_units cfg) /\ recorded_samples s j t = Some (c_units cfg).
  Definition lucb_rounds_ok K s : Prop :=
    forall t, t < length (b_cum s) ->
      (t = 0 -> forall k, k < K -> recorded_samples s k t = Some (c_units cfg)) /\
      (0 < t -> exists i j, i < K /\ j < K /\ forall k, k < K ->
         recorded_samples s k t = Some (if (k =? i) || (k =? j) then c_units cfg else 0)).

  Lemma recorded_samples_next K s arms' g2 rs smp total j t : shape ops K s -> length smp = K -> j < K ->
    let s' := record_round (set_arms s arms' g2) rs smp total in
    recorded_samples s' j t = if t =? length (b_cum s) then nth_error smp j else recorded_samples s j t.
  Proof.
    intros Hs Hl Hj. unfold recorded_samples. simpl. rewrite nth_push.
    pose proof (sh_smp _ _ _ Hs) as Hh. pose proof (sh_slen _ _ _ Hs) as Hf.
    destruct (nth_error (b_smp s) j) as [h|] eqn:Eh; [|apply nth_error_None in Eh; lia].
    destruct (nth_error smp j) as [r|] eqn:Er; [|apply nth_error_None in Er; lia].
    rewrite nth_error_snoc. rewrite Forall_forall in Hf. rewrite (Hf h) by (eapply nth_error_In; eauto). reflexivity.
  Qed.
  Lemma recorded_samples_none K s j t : shape ops K s -> K <= j -> recorded_samples s j t = None.
  Proof.
    intros Hs Hj. unfold recorded_samples.
    rewrite (proj2 (nth_error_None (b_smp s) j)) by (rewrite (sh_smp _ _ _ Hs); exact Hj). reflexivity.
  Qed.

  Definition lucb_K K s : Prop :=
    lucb_acc ops cfg K s /\ lucb_rounds_ok K s /\ b_total s >= list_sum (map list_sum (b_smp s)) /\
    (0 < c_units cfg -> (forall t, 0 < t < length (b_cum s) -> two_arms s t) ->
       b_total s = list_sum (map list_sum (b_smp s)) /\
       forall t, t < length (b_cum s) -> nth_error (b_cum s) t = Some (samples_upto s t)).

  Lemma smp_sum_pair K i j : i < K -> j < K ->
    list_sum (smp_of cfg [i; j] K) = if i =? j then c_units cfg else 2 * c_units cfg.
  Proof.
    intros Hi Hj. destruct (Nat.eqb_spec i j) as [->|Hne].
    - assert (smp_of cfg [j; j] K = smp_of cfg [j] K) as ->.
      { unfold smp_of. apply map_ext. intros k. simpl. destruct (k =? j); reflexivity. }
      rewrite smp_of_sum; [simpl; lia|repeat constructor; simpl; tauto|]. intros k [<-|[]]; assumption.
    - rewrite smp_of_sum; [simpl; lia| |].
      + constructor; [simpl; intros [E|[]]; congruence|]. constructor; [simpl; tauto|constructor].
      + intros k [<-|[<-|[]]]; assumption.
  Qed.

  Lemma lucb_K_next K s is arms' g2 rs g1 : fair_choice w -> lucb_K K s -> length arms' = K -> collect ops arms' = Ok rs ->
    select_arms ops w (b_arms s) (b_g s) = (Ok is, g1) ->
    lucb_K K (l_next cfg s is arms' g2 rs).
  Proof.
    intros Hfair (Ha & Hr & Hg & Hc) Hl Hco Hsel.
    destruct (select_two _ _ _ _ Hfair Hsel) as (_ & i & j & -> & Hi & Hj).
    pose proof (proj1 Ha) as Hs. rewrite (sh_arms _ _ _ Hs) in Hi, Hj.
    assert (Hcl : length (b_cum (l_next cfg s [i; j] arms' g2 rs)) = S (length (b_cum s))).
    { simpl. rewrite app_length. simpl. lia. }
    assert (Hrec : forall k t, k < K -> recorded_samples (l_next cfg s [i; j] arms' g2 rs) k t =
              if t =? length (b_cum s) then Some (if (k =? i) || (k =? j) then c_units cfg else 0) else recorded_samples s k t).
    { intros k t Hk. unfold l_next. rewrite (recorded_samples_next K s arms' g2 rs _ _ k t Hs) by (rewrite ?smp_of_length; auto; apply Hs).
      destruct (t =? length (b_cum s)); [|reflexivity]. rewrite smp_of_nth, (sh_arms _ _ _ Hs).
      apply Nat.ltb_lt in Hk as ->. simpl. rewrite orb_false_r. reflexivity. }
    assert (Hs' : shape ops K (l_next cfg s [i; j] arms' g2 rs)) by (apply shape_l_next; assumption).
    assert (HK1 : 1 <= length (b_cum s)) by apply Ha.
    assert (Hsl : length (b_smp s) = length (smp_of cfg [i; j] (length (b_arms s)))).
    { rewrite smp_of_length, (sh_smp _ _ _ Hs), (sh_arms _ _ _ Hs). reflexivity. }
    split; [apply lucb_acc_next; assumption|]. split; [|split].
    - intros t Ht. rewrite Hcl in Ht. split.
      + intros -> k Hk. rewrite Hrec by exact Hk. destruct (Nat.eqb_spec 0 (length (b_cum s))); [lia|].
        apply (Hr 0); [lia|reflexivity|exact Hk].
      + intros Ht0. destruct (Nat.eq_dec t (length (b_cum s))) as [->|Hne].
        * exists i, j. split; [exact Hi|]. split; [exact Hj|]. intros k Hk. rewrite Hrec by exact Hk. rewrite Nat.eqb_refl. reflexivity.
        * destruct (proj2 (Hr t ltac:(lia)) Ht0) as (i' & j' & Hi' & Hj' & Hk').
          exists i', j'. split; [exact Hi'|]. split; [exact Hj'|]. intros k Hk. rewrite Hrec by exact Hk.
          apply Nat.eqb_neq in Hne as ->. apply Hk', Hk.
    - simpl. rewrite sum_push by exact Hsl. rewrite (sh_arms _ _ _ Hs), smp_sum_pair by assumption. destruct (i =? j); lia.
    - intros Hu Htwo.
      assert (Hold : forall t, 0 < t < length (b_cum s) -> two_arms s t).
      { intros t Ht. destruct (Htwo t) as (i' & j' & Hne & H1 & H2); [rewrite Hcl; lia|].
        exists i', j'. split; [exact Hne|].
        assert (i' < K). { destruct (Nat.lt_ge_cases i' K); [assumption|]. rewrite (recorded_samples_none K _ i' t Hs') in H1 by assumption. discriminate. }
        assert (j' < K). { destruct (Nat.lt_ge_cases j' K); [assumption|]. rewrite (recorded_samples_none K _ j' t Hs') in H2 by assumption. discriminate. }
        rewrite Hrec in H1, H2 by assumption.
        assert ((t =? length (b_cum s)) = false) as E by (apply Nat.eqb_neq; lia). rewrite E in H1, H2. auto. }
      destruct (Hc Hu Hold) as [Htot Hcum].
      assert (Hij : i <> j).
      { destruct (Htwo (length (b_cum s))) as (i' & j' & Hne & H1 & H2); [rewrite Hcl; lia|].
        assert (i' < K). { destruct (Nat.lt_ge_cases i' K); [assumption|]. rewrite (recorded_samples_none K _ i' _ Hs') in H1 by assumption. discriminate. }
        assert (j' < K). { destruct (Nat.lt_ge_cases j' K); [assumption|]. rewrite (recorded_samples_none K _ j' _ Hs') in H2 by assumption. discriminate. }
        rewrite Hrec, Nat.eqb_refl in H1, H2 by assumption. intros ->.
        injection H1 as H1. injection H2 as H2.
        destruct (Nat.eqb_spec i' j); destruct (Nat.eqb_spec j' j); simpl in *; lia. }
      assert (Hsum : list_sum (smp_of cfg [i; j] (length (b_arms s))) = 2 * c_units cfg).
      { rewrite (sh_arms _ _ _ Hs), smp_sum_pair by assumption. apply Nat.eqb_neq in Hij as ->. reflexivity. }
      split.
      + unfold l_next. cbn [b_total b_smp record_round set_arms]. rewrite sum_push, Hsum by exact Hsl. lia.
      + intros t Ht. rewrite Hcl in Ht. unfold samples_upto, l_next. cbn [b_cum b_smp record_round set_arms].
        rewrite nth_error_snoc. rewrite (sums_push _ _ (length (b_cum s)) t (sh_slen _ _ _ Hs) Hsl), Hsum.
        destruct (Nat.eqb_spec t (length (b_cum s))) as [->|Hne].
        * rewrite Nat.leb_refl. rewrite Htot. do 3 f_equal. apply map_ext_in. intros l Hl'.
          pose proof (sh_slen _ _ _ Hs) as Hf. rewrite Forall_forall in Hf. rewrite <- (Hf l Hl'). rewrite firstn_all2; [reflexivity|lia].
        * assert ((length (b_cum s) <=? t) = false) as -> by (apply Nat.leb_gt; lia). rewrite Hcum by lia. f_equal. unfold samples_upto. lia.
  Qed.

  Lemma run_lucb_K fuel all arms g : fair_choice w ->
    match run LUCB ops w cfg fuel all arms g with
    | Returned _ s' => lucb_K (length arms) s'
    | Raised _ _ => True
    | OutOfFuel s' => lucb_K (length arms) s' end.
  Proof.
    intros Hfair. apply run_inv; [congruence| |].
    - intros _. pose proof (lucb_acc_start ops w cfg (length arms)) as H. pose proof (lucb_start_inv ops w cfg all arms g) as Hi.
      destruct (lucb_start ops w cfg all arms g) as [s| |] eqn:E; [|exact I|exact I].
      destruct (H _ _ _ _ eq_refl E) as [H1 H2].
      destruct Hi as (d & g1 & arms' & g2 & rs & _ & Hp & Hc & Es).
      assert (Hsm : b_smp s = map (fun _ => [c_units cfg]) arms).
      { rewrite Es. simpl. clear. unfold push. induction arms; simpl; [reflexivity|]. f_equal. exact IHarms. }
      assert (Htot : b_total s = list_sum (map list_sum (b_smp s))).
      { rewrite Hsm, Es. simpl. clear. induction arms; simpl; [reflexivity|]. rewrite IHarms. lia. }
      split; [exact H1|]. split; [|split].
      + intros t Ht. split; [|lia]. intros -> k Hk. unfold recorded_samples. rewrite Hsm, nth_error_map.
        destruct (nth_error arms k) eqn:Ek; [reflexivity|apply nth_error_None in Ek; lia].
      + lia.
      + intros _ _. split; [exact Htot|]. intros t Ht. assert (t = 0) as -> by lia.
        destruct H1 as (_ & _ & _ & Hcum). rewrite Hcum by lia. f_equal. unfold samples_upto. rewrite Hsm. clear.
        induction arms as [|a l IH]; simpl in *; [reflexivity|]. lia.
    - intros s Hs. pose proof (lucb_step_inv ops w cfg all s) as H.
      destruct (lucb_step ops w cfg all s) as [s'|best s'|e s']; [| |exact I].
      + destruct H as (_ & is & g1 & arms' & g2 & rs & b & Hsel & Hp & Hc & -> & _).
        eapply lucb_K_next; eauto. eapply pull_list_len'; [apply Hs|exact Hp].
      + destruct H as [(-> & _)|(_ & is & g1 & arms' & g2 & rs & Hsel & Hp & Hc & -> & _)]; [exact Hs|].
        eapply lucb_K_next; eauto. eapply pull_list_len'; [apply Hs|exact Hp].
  Qed.

  (** * arms change only by updates *)
  Section Rel.
    Context (P : A -> A -> Prop) (Hrefl : forall a, P a a)
      (Hup : forall a0 a d delta g a' g' e, P a0 a -> a_update ops a d delta g = ((a', g'), e) -> P a0 a').

    Lemma pull_all_rel d delta : forall arms0 arms g, Forall2 P arms0 arms ->
      Forall2 P arms0 (fst (fst (pull_all ops d delta arms g))).
    Proof.
      intros arms0 arms g H. revert g. induction H as [|a0 a l0 l Ha Hl IH]; intros g; simpl; [constructor|].
      destruct (a_update ops a d delta g) as [[a' g1] [e|]] eqn:E; simpl; [constructor; eauto|].
      destruct (read ops a'); simpl; [|constructor; eauto].
      specialize (IH g1). destruct (pull_all ops d delta l g1) as [[l' g2] [rs|e]]; simpl in *; constructor; eauto.
    Qed.
    Lemma Forall2_modify i f : forall l0 l, Forall2 P l0 l -> (forall a0 a, nth_error l i = Some a -> P a0 a -> P a0 (f a)) ->
      Forall2 P l0 (modify i f l).
    Proof.
      intros l0 l H. revert i. induction H as [|a0 a l0 l Ha Hl IH]; intros i Hf; [destruct i; constructor|].
      destruct i; simpl; constructor; auto.
    Qed.
    Lemma pull_list_rel all delta is : forall arms0 arms g, Forall2 P arms0 arms ->
      Forall2 P arms0 (fst (fst (pull_list ops w cfg all delta is arms g))).
    Proof.
      induction is as [|i is IH]; intros arms0 arms g H; simpl; [exact H|].
      destruct (nth_error arms i) as [a|] eqn:Ei; [|exact H].
      destruct (get_data w cfg all (a_units ops a) g) as [[d|e] g1]; [|exact H].
      destruct (a_update ops a d delta g1) as [[a' g2] e] eqn:E.
      assert (HH : Forall2 P arms0 (modify i (fun _ => a') arms)).
      { apply Forall2_modify; [exact H|]. intros a0 b Hb Hp. assert (b = a) as -> by congruence. eauto. }
      destruct e; simpl; [exact HH|]. apply IH, HH.
    Qed.
    Lemma Forall2_refl l : Forall2 P l l.
    Proof. induction l; constructor; auto. Qed.

    Lemma run_rel alg fuel all arms g : Forall2 P arms (b_arms (final_state (run alg ops w cfg fuel all arms g))).
    Proof.
      set (J := fun s : bstate => Forall2 P arms (b_arms s)).
      assert (HL : forall (body : bstate -> step bstate (list nat)),
        (forall s, J s -> match body s with Continue s' => J s' | Finish _ s' => J s' | Fail _ s' => J s' end) ->
        forall s, J s -> J (final_state (loop fuel body s))).
      { intros body Hb s Hs. pose proof (loop_inv body J (fun _ => J) (fun _ => J) Hb fuel s Hs) as H.
        destruct (loop fuel body s); exact H. }
      assert (HU : forall s, J s -> match uniform_step ops w cfg all s with Continue s' => J s' | Finish _ s' => J s' | Fail _ s' => J s' end).
      { intros s Hs. unfold uniform_step.
        destruct (match all with Some _ => _ | None => Ok 0 end) as [start|e]; [|exact Hs].
        destruct (get_data w cfg all start (b_g s)) as [[d|e] g1]; [|exact Hs].
        pose proof (pull_all_rel d (delta_of cfg (b_arms s)) arms (b_arms s) g1 Hs) as Hp.
        destruct (pull_all ops d (delta_of cfg (b_arms s)) (b_arms s) g1) as [[arms' g2] [rs|e]]; [|exact Hp].
        destruct (over_limit _ _) as [[]|e]; [| |exact Hp].
        - destruct (do rs' <- collect ops arms'; argmin_arms (map r_var rs')); exact Hp.
        - destruct (do rs' <- collect ops arms'; check_end cfg rs') as [[[] b]|e]; exact Hp. }
      assert (HLU : forall s, J s -> match lucb_step ops w cfg all s with Continue s' => J s' | Finish _ s' => J s' | Fail _ s' => J s' end).
      { intros s Hs. unfold lucb_step.
        destruct (over_limit _ _) as [[]|e]; [| |exact Hs].
        - destruct (do rs' <- collect ops (b_arms s); argmin_arms (map r_var rs')); exact Hs.
        - destruct (select_arms ops w (b_arms s) (b_g s)) as [[is|e] g1]; [|exact Hs].
          pose proof (pull_list_rel all (delta_of cfg (b_arms s)) is arms (b_arms s) g1 Hs) as Hp.
          destruct (pull_list ops w cfg all (delta_of cfg (b_arms s)) is (b_arms s) g1) as [[arms' g2] [e|]]; [exact Hp|].
          destruct (collect ops arms') as [rs|e]; [|exact Hp].
          destruct (check_end cfg rs) as [[[] b]|e]; exact Hp. }
      assert (HSE : forall s, J s -> match se_step ops w cfg all s with Continue s' => J s' | Finish _ s' => J s' | Fail _ s' => J s' end).
      { intros s Hs. unfold se_step. destruct (negb (1 <? length (b_cand s))); [exact Hs|].
        destruct (over_limit _ _) as [[]|e]; [| |exact Hs].
        - destruct (do rs' <- collect ops (b_arms s); argmin_arms (map r_var rs')); exact Hs.
        - pose proof (pull_list_rel all (delta_of cfg (b_arms s)) (b_cand s) arms (b_arms s) (b_g s) Hs) as Hp.
          destruct (pull_list ops w cfg all (delta_of cfg (b_arms s)) (b_cand s) (b_arms s) (b_g s)) as [[arms' g2] [e|]]; [exact Hp|].
          destruct (collect ops arms') as [rs|e]; [|exact Hp].
          destruct (eliminate (b_cand s) rs) as [c|e]; [|exact Hp]. destruct (length c =? 1); exact Hp. }
      destruct alg; simpl.
      - apply HL; [exact HU|]. apply Forall2_refl.
      - unfold run_lucb, lucb_start.
        destruct (get_data w cfg all 0 g) as [[d|e] g1]; [|apply Forall2_refl].
        pose proof (pull_all_rel d (delta_of cfg arms) arms arms g1 (Forall2_refl arms)) as Hp.
        destruct (pull_all ops d (delta_of cfg arms) arms g1) as [[arms' g2] [rs|e]]; [|exact Hp].
        apply HL; [exact HLU|exact Hp].
      - apply HL; [exact HSE|]. apply Forall2_refl.
    Qed.
  End Rel.

  (** * reset *)
  Lemma reset_restores alg fuel all arms g :
    (forall a d delta g a' g' e, a_update ops a d delta g = ((a', g'), e) -> a_reset ops a' = a_reset ops a) ->
    bandit_reset ops (b_arms (final_state (run alg ops w cfg fuel all arms g))) = bandit_reset ops arms.
  Proof.
    intros H. pose proof (run_rel (fun a0 a => a_reset ops a = a_reset ops a0)) as HR.
    specialize (HR (fun _ => eq_refl)). 
    assert (HF : Forall2 (fun a0 a => a_reset ops a = a_reset ops a0) arms (b_arms (final_state (run alg ops w cfg fuel all arms g)))).
    { apply HR. intros a0 a d delta g0 a' g' e E Hu. rewrite (H _ _ _ _ _ _ _ Hu). exact E. }
    unfold bandit_reset. clear HR. induction HF as [|a0 a l0 l E HF IH]; simpl; [reflexivity|]. rewrite E, IH. reflexivity.
  Qed.

  (** * one arm *)
  Lemma check_end_single r b best : check_end cfg [r] = Ok (b, best) -> b = false.
  Proof.
    unfold check_end. simpl. destruct (fisinf (r_ucb r)); simpl; [intros H; injection H as <-; reflexivity|].
    destruct (fisnan (r_var r)); simpl; [intros H; injection H as <-; reflexivity|]. discriminate.
  Qed.
  Lemma check_end_single_raises r : fisinf (r_ucb r) = false -> fisnan (r_var r) = false -> check_end cfg [r] = Err ValueError.
  Proof. intros H1 H2. unfold check_end. simpl. rewrite H1. simpl. rewrite H2. reflexivity. Qed.

End P.
