(** Proofs about the choice of the distributions of Z0 in paper_utils.py. *)
From Coq Require Import List Arith ZArith Lia Bool Reals Lra.
From Verif Require Import PyBase Num NumOps TabReal TabSpec TabProofs TabProofs2 ParamModel ParamSpec ParamProofs ParamProofs2
  ParamProofs3 ParamProofs4 ParamProofs5 PaperModel PaperSpec.
Import ListNotations.
Open Scope nat_scope.

Section Tau.
  Context {N D G : Type} (o : numops N) (draw : G -> D * G) (effect : D -> N).
  Hypothesis zero : nltb o (nint o 0) (nint o 0) = false.
  Notation d_ g n := (nth_draw draw g n).

  Lemma tau_rounds_last k : forall g0 n cur m0, tau_rounds o draw effect (S k) cur m0 (state_after draw g0 n) =
    (Some (d_ g0 (n + k)), nmax o (nint o 0) (effect (d_ g0 (n + k))), state_after draw g0 (n + S k)).
  Proof.
    induction k as [|k IH]; intros g0 n cur m0.
    - cbn [tau_rounds]. unfold nth_draw. rewrite Nat.add_0_r. replace (n + 1) with (S n) by lia. cbn [state_after].
      destruct (draw (state_after draw g0 n)); reflexivity.
    - change (tau_rounds o draw effect (S (S k)) cur m0 (state_after draw g0 n)) with
        (let '(d, g1) := draw (state_after draw g0 n) in
         tau_rounds o draw effect (S k) (Some d) (nmax o (nint o 0) (effect d)) g1).
      specialize (IH g0 (S n)). cbn [state_after] in IH. destruct (draw (state_after draw g0 n)) as [d g1]. cbn [snd] in IH.
      rewrite IH. replace (S n + k) with (n + S k) by lia. replace (S n + S k) with (n + S (S k)) by lia. reflexivity.
  Qed.

  Lemma tau_selection_eq fuel g : tau_selection o draw effect fuel g =
    tau_while o draw effect fuel (Some (d_ g 9)) (nint o 0) (nmax o (nint o 0) (effect (d_ g 9)))
      (state_after draw g 10).
  Proof.
    unfold tau_selection. change g with (state_after draw g 0) at 1. rewrite tau_rounds_last. reflexivity.
  Qed.

  Lemma start_cond x : nltb o (nint o 0) (nmax o (nint o 0) x) = nltb o (nint o 0) x.
  Proof. unfold nmax. destruct (nltb o (nint o 0) x) eqn:E; [exact E|exact zero]. Qed.

  Lemma tau_kept fuel g : nltb o (nint o 0) (effect (d_ g 9)) = false ->
    tau_selection o draw effect fuel g = Returned (Some (d_ g 9)) (Some (d_ g 9), state_after draw g 10).
  Proof.
    intro H. rewrite tau_selection_eq. destruct fuel; cbn [tau_while]; rewrite start_cond, H; reflexivity.
  Qed.

  (** inside the loop: the state after n draws, the last one not accepted *)
  Lemma tau_while_stops tm g fuel : forall n cur tau j, nltb o tau tm = true -> j < fuel ->
    first_at (fun d => negb (nltb o (effect d) tm)) (fun i => d_ g (n + i)) j ->
    tau_while o draw effect fuel cur tau tm (state_after draw g n) =
      Returned (Some (d_ g (n + j))) (Some (d_ g (n + j)), state_after draw g (n + S j)).
  Proof.
    induction fuel as [|fuel IH]; intros n cur tau j Ht Hj (Hok & Hbefore); [lia|].
    cbn [tau_while]. rewrite Ht. destruct (draw (state_after draw g n)) as [d g1] eqn:E.
    assert (Ed : d_ g n = d) by (unfold nth_draw; now rewrite E).
    assert (Eg : state_after draw g (S n) = g1) by (cbn [state_after]; now rewrite E).
    destruct j as [|j].
    - rewrite Nat.add_0_r in *. rewrite Ed in *. replace (n + 1) with (S n) by lia. rewrite Eg.
      apply negb_true_iff in Hok. destruct fuel; cbn [tau_while]; rewrite Hok; reflexivity.
    - rewrite <- Eg. rewrite (IH (S n) (Some d) (effect d) j).
      + replace (S n + j) with (n + S j) by lia. replace (S n + S j) with (n + S (S j)) by lia. reflexivity.
      + specialize (Hbefore 0 ltac:(lia)). rewrite Nat.add_0_r, Ed in Hbefore. now apply negb_false_iff in Hbefore.
      + lia.
      + split; [now replace (S n + j) with (n + S j) by lia|]. intros i Hi.
        replace (S n + i) with (n + S i) by lia. apply Hbefore. lia.
  Qed.

  Lemma tau_while_inv tm g fuel : forall n cur tau c st, nltb o tau tm = true ->
    tau_while o draw effect fuel cur tau tm (state_after draw g n) = Returned c st ->
    exists j, j < fuel /\ c = Some (d_ g (n + j)) /\
      first_at (fun d => negb (nltb o (effect d) tm)) (fun i => d_ g (n + i)) j.
  Proof.
    induction fuel as [|fuel IH]; intros n cur tau c st Ht H; cbn [tau_while] in H; rewrite Ht in H; [discriminate|].
    destruct (draw (state_after draw g n)) as [d g1] eqn:E.
    assert (Ed : d_ g n = d) by (unfold nth_draw; now rewrite E).
    assert (Eg : state_after draw g (S n) = g1) by (cbn [state_after]; now rewrite E).
    destruct (nltb o (effect d) tm) eqn:El.
    - rewrite <- Eg in H. destruct (IH (S n) (Some d) (effect d) c st El H) as (j & Hj & Hc & Hok & Hb).
      exists (S j). split; [lia|]. replace (n + S j) with (S n + j) by lia. split; [exact Hc|]. split; [now replace (n + S j) with (S n + j) by lia|].
      intros [|i] Hi.
      + rewrite Nat.add_0_r, Ed, El. reflexivity.
      + replace (n + S i) with (S n + i) by lia. apply Hb. lia.
    - assert (Hc : c = Some d) by (destruct fuel; cbn [tau_while] in H; rewrite El in H; congruence).
      exists 0. rewrite Nat.add_0_r. split; [lia|]. rewrite Ed, Hc. split; [reflexivity|].
      split; [now rewrite Nat.add_0_r, Ed, El|]. intros i Hi. lia.
  Qed.

  Lemma tau_result fuel g c st : tau_selection o draw effect fuel g = Returned c st ->
    if nltb o (nint o 0) (effect (d_ g 9))
    then exists j, c = Some (d_ g (10 + j)) /\
           first_at (fun d => negb (nltb o (effect d) (effect (d_ g 9)))) (fun i => d_ g (10 + i)) j
    else c = Some (d_ g 9).
  Proof.
    destruct (nltb o (nint o 0) (effect (d_ g 9))) eqn:E.
    - rewrite tau_selection_eq. unfold nmax. rewrite E. intro H.
      destruct (tau_while_inv _ g fuel 10 _ _ c st E H) as (j & _ & Hc & Hf). eauto.
    - rewrite (tau_kept fuel g E). congruence.
  Qed.

  Lemma tau_terminates fuel g j : nltb o (nint o 0) (effect (d_ g 9)) = true -> j < fuel ->
    first_at (fun d => negb (nltb o (effect d) (effect (d_ g 9)))) (fun i => d_ g (10 + i)) j ->
    tau_selection o draw effect fuel g =
      Returned (Some (d_ g (10 + j))) (Some (d_ g (10 + j)), state_after draw g (10 + S j)).
  Proof.
    intros E Hj Hf. rewrite tau_selection_eq. unfold nmax. rewrite E. now apply tau_while_stops.
  Qed.

  Lemma tau_loops fuel g : nltb o (nint o 0) (effect (d_ g 9)) = true ->
    (forall i, nltb o (effect (d_ g (10 + i))) (effect (d_ g 9)) = true) ->
    exists st, tau_selection o draw effect fuel g = OutOfFuel st.
  Proof.
    intros E H. destruct (tau_selection o draw effect fuel g) as [c st|e st|st] eqn:Es.
    - exfalso. pose proof (tau_result fuel g c st Es) as Hr. rewrite E in Hr. destruct Hr as (j & _ & Hok & _).
      rewrite H in Hok. discriminate.
    - exfalso. rewrite tau_selection_eq in Es.
      revert Es. generalize (Some (d_ g 9)), (nint o 0), (nmax o (nint o 0) (effect (d_ g 9))), (state_after draw g 10).
      clear. induction fuel as [|fuel IH]; intros cur t tm g' Es; cbn [tau_while] in Es; destruct (nltb o t tm); try discriminate.
      destruct (draw g') as [d g1]. exact (IH _ _ _ _ Es).
    - eauto.
  Qed.
End Tau.

(** the effect is the difference of the means of support.dot(beta0) *)
Open Scope R_scope.
Lemma list_eta {A} (l : list A) d : l = map (fun j => nth j l d) (seq 0 (length l)).
Proof.
  induction l as [|x l IH]; [reflexivity|]. cbn [length seq map nth]. f_equal. rewrite <- seq_shift, map_map. exact IH.
Qed.

Definition rdot (a b : list R) : R := rsum (map2 Rmult a b).
Lemma vdot_x a b : vdot xreal (map Fin a) (map Fin b) = Fin (rdot a b).
Proof.
  unfold vdot, rdot. rewrite <- nsum_x. f_equal. revert b. induction a as [|x a IH]; intros [|y b]; cbn [map map2]; trivial.
  f_equal. apply IH.
Qed.

Lemma col_x k j S : Forall (fun r => length r = k) S -> (j < k)%nat ->
  col xreal j (map (map Fin) S) = map Fin (map (fun r => nth j r 0) S).
Proof.
  intros H Hj. unfold col. rewrite !map_map. apply map_ext_in. intros r Hr.
  rewrite Forall_forall in H. apply (nth_map_in Fin). rewrite (H r Hr). exact Hj.
Qed.

Lemma rdot_seq a b n : length a = n -> length b = n ->
  rdot a b = rsum (map (fun j => nth j a 0 * nth j b 0) (seq 0 n)).
Proof.
  intros Ha Hb. unfold rdot. rewrite (list_eta a 0), (list_eta b 0) at 1. rewrite Ha, Hb, map2_diag. reflexivity.
Qed.

Lemma mean_x p S beta : length p = length S -> Forall (fun r => length r = length beta) S ->
  vdot xreal (vmdot xreal (length (map Fin beta)) (map Fin p) (map (map Fin) S)) (map Fin beta) =
  Fin (rdot p (map (fun r => rdot r beta) S)).
Proof.
  intros Hp HS. unfold vmdot. rewrite map_length.
  assert (E : map (fun j => vdot xreal (map Fin p) (col xreal j (map (map Fin) S))) (seq 0 (length beta)) =
    map Fin (map (fun j => rdot p (map (fun r => nth j r 0) S)) (seq 0 (length beta)))).
  { rewrite map_map. apply map_ext_in. intros j Hj. apply in_seq in Hj.
    rewrite (col_x (length beta)) by (trivial; lia). apply vdot_x. }
  rewrite E, vdot_x. f_equal.
  rewrite (rdot_seq _ beta (length beta)) by (rewrite ?map_length, ?seq_length; reflexivity).
  rewrite (rdot_seq p _ (length S)) by (rewrite ?map_length; auto).
  transitivity (rsum (map (fun k => rsum (map (fun j => nth j p 0 * (nth k (nth j S []) 0 * nth k beta 0)) (seq 0 (length S)))) (seq 0 (length beta)))).
  - apply rsum_ext. intros k Hk. apply in_seq in Hk.
    rewrite (nth_map_in _ _ _ 0%nat) by (rewrite seq_length; lia). rewrite seq_nth by lia. cbn [Nat.add].
    rewrite (rdot_seq p _ (length S)) by (rewrite ?map_length; auto).
    rewrite Rmult_comm, <- rsum_scale. apply rsum_ext. intros j Hj. apply in_seq in Hj.
    rewrite (nth_map_in _ S j []) by lia. ring.
  - rewrite rsum_swap. apply rsum_ext. intros j Hj. apply in_seq in Hj.
    rewrite (nth_map_in _ S j []) by lia. rewrite (rdot_seq _ beta (length beta)); trivial.
    + rewrite <- rsum_scale. reflexivity.
    + rewrite Forall_forall in HS. apply HS. apply nth_In. lia.
Qed.
