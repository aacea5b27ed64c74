(** Arms: histories of updates (C25-C29, C32, C34, C35). *)
From Coq Require Import List Arith ZArith Bool Permutation Lia.
From Verif Require Import PyBase PyLemmas Num NumOps DataModel DataSpec DataProofs DataProofs2 ArmModel ArmSpec ArmProofs1.
Import ListNotations.

Ltac break_match :=
  match goal with
  | |- context [match ?x with _ => _ end] => destruct x eqn:?
  | |- context [if ?x then _ else _] => destruct x eqn:?
  end.

Section Frame.
  Context {N V H G : Type} (o : numops N) (vnone : V) (eo : eta_ops N V H G) (w : arm_world N G)
          (tr : expdata V -> res (expdata V)).
  Notation arm := (arm N V H).

  Lemma score1_frame (a a' : arm) r : score1 eo a = (a', r) ->
    ar_split a' = ar_split a /\ ar_pulled a' = ar_pulled a /\ ar_delta a' = ar_delta a /\ ar_ci a' = ar_ci a /\
    ar_ate a' = ar_ate a /\ ar_var a' = ar_var a.
  Proof.
    unfold score1. destruct (fold a 1) as [f|e]; [|intros E; injection E as <- <-; auto 6].
    destruct (e_score eo (ar_eta a) f) as [h r0]. intros E. injection E as <- <-. simpl. auto 6.
  Qed.

  (** everything after absorb leaves the folds, the counter and delta alone *)
  Lemma ss_frame opts (a : arm) d delta g a1 g1 e :
    absorb o vnone w tr (so_stable opts) a d delta g = ((a1, g1), e) ->
    forall a' g' r, ss_update o vnone eo w tr opts a d delta g = ((a', g'), r) ->
    ar_split a' = ar_split a1 /\ ar_pulled a' = ar_pulled a1 /\ ar_delta a' = ar_delta a1 /\
    (forall x, e = Some x -> a' = a1 /\ g' = g1 /\ r = Err x).
  Proof.
    intros Ea a' g' r. unfold ss_update. rewrite Ea.
    destruct e as [x|]; [intros E; injection E as <- <- <-; repeat split; congruence|].
    intros Hu. cut (ar_split a' = ar_split a1 /\ ar_pulled a' = ar_pulled a1 /\ ar_delta a' = ar_delta a1);
      [intuition discriminate|]. revert Hu.
    destruct (fold a1 0) as [f0|]; [|intros E; injection E as <- <- <-; auto].
    destruct (e_fit eo (ar_eta a1) f0 g1) as [[h g2] [e|]]; [intros E; injection E as <- <- <-; auto|].
    destruct (e_enough eo h); cbn [negb]; [|intros E; injection E as <- <- <-; auto].
    destruct (score1 eo (set_eta a1 h)) as [a3 [s1|e]] eqn:E3; apply score1_frame in E3 as (P1 & P2 & P3 & _);
      simpl in P1, P2, P3; [|intros E; injection E as <- <- <-; auto].
    destruct (score1 eo (set_ate a3 _)) as [a5 [s2|e]] eqn:E5; apply score1_frame in E5 as (Q1 & Q2 & Q3 & _);
      simpl in Q1, Q2, Q3; [|intros E; injection E as <- <- <-; intuition congruence].
    destruct (nisnan o _); [intros E; injection E as <- <- <-; simpl; intuition congruence|].
    destruct (fold (set_var a5 _) 1) as [f1|]; [|intros E; injection E as <- <- <-; simpl; intuition congruence].
    destruct (so_ci opts).
    - destruct (chi2_ci o w _ delta _) as [l u]. intros E; injection E as <- <- <-; simpl; intuition congruence.
    - destruct (score1 eo (set_var a5 _)) as [a7 [s3|e]] eqn:E7; apply score1_frame in E7 as (R1 & R2 & R3 & _);
        simpl in R1, R2, R3; [|intros E; injection E as <- <- <-; intuition congruence].
      destruct (clt_ci o w _ _ _ _ _) as [l u]. intros E; injection E as <- <- <-; simpl; intuition congruence.
    - destruct (_ || _ || _); [intros E; injection E as <- <- <-; simpl; intuition congruence|].
      destruct (e_width eo _ _ _ _) as [ew|]; [|intros E; injection E as <- <- <-; simpl; intuition congruence].
      destruct (nltb o _ (so_burn opts)); [intros E; injection E as <- <- <-; simpl; intuition congruence|].
      destruct ew as [x|]; [|intros E; injection E as <- <- <-; simpl; intuition congruence].
      destruct (fs_ci o _ _) as [l u]. intros E; injection E as <- <- <-; simpl; intuition congruence.
    - intros E; injection E as <- <- <-; simpl; intuition congruence.
  Qed.

  Lemma boot_loop_frame total n : forall (a : arm) g acc a' g' r,
    boot_loop o eo w total n a g acc = ((a', g'), r) ->
    ar_split a' = ar_split a /\ ar_pulled a' = ar_pulled a /\ ar_delta a' = ar_delta a /\ ar_ci a' = ar_ci a /\
    ar_ate a' = ar_ate a /\ ar_var a' = ar_var a.
  Proof.
    induction n as [|n IH]; intros a g acc a' g' r; cbn [boot_loop]; [intros E; injection E as <- <- <-; auto 6|].
    destruct (fold a 0) as [f0|]; [|intros E; injection E as <- <- <-; auto 6].
    destruct (subsample _ f0 _) as [[din dout]|]; [|intros E; injection E as <- <- <-; auto 6].
    destruct (e_fit eo (ar_eta a) din _) as [[h g2] [e|]]; [intros E; injection E as <- <- <-; auto 6|].
    destruct (e_score eo h dout) as [h2 [s|e]]; [|intros E; injection E as <- <- <-; auto 6].
    intros E. apply IH in E. simpl in E. exact E.
  Qed.

  Lemma bs_frame stable nb (a : arm) d delta g a1 g1 e :
    absorb o vnone w tr stable a d delta g = ((a1, g1), e) ->
    forall a' g' r, bs_update o vnone eo w tr stable nb a d delta g = ((a', g'), r) ->
    ar_split a' = ar_split a1 /\ ar_pulled a' = ar_pulled a1 /\ ar_delta a' = ar_delta a1 /\
    (forall x, e = Some x -> a' = a1 /\ g' = g1 /\ r = Err x).
  Proof.
    intros Ea a' g' r. unfold bs_update. rewrite Ea.
    destruct e as [x|]; [intros E; injection E as <- <- <-; repeat split; congruence|].
    intros Hu. cut (ar_split a' = ar_split a1 /\ ar_pulled a' = ar_pulled a1 /\ ar_delta a' = ar_delta a1);
      [intuition discriminate|]. revert Hu.
    destruct (fold a1 0) as [f0|]; [|intros E; injection E as <- <- <-; auto].
    destruct (e_fit eo (ar_eta a1) f0 g1) as [[h g2] [e|]]; [intros E; injection E as <- <- <-; auto|].
    destruct (boot_count o nb delta) as [b|]; [|intros E; injection E as <- <- <-; auto].
    destruct (boot_loop o eo w _ _ _ _ _) as [[a3 g3] [samples|]] eqn:Eb; apply boot_loop_frame in Eb as (P1 & P2 & P3 & _);
      simpl in P1, P2, P3; [|intros E; injection E as <- <- <-; auto].
    destruct (bind _ _) as [[l u]|]; [|intros E; injection E as <- <- <-; auto].
    destruct (score1 eo (set_ci a3 l u)) as [a5 [s1|]] eqn:E5; apply score1_frame in E5 as (Q1 & Q2 & Q3 & _);
      simpl in Q1, Q2, Q3; [|intros E; injection E as <- <- <-; intuition congruence].
    destruct (score1 eo (set_ate a5 _)) as [a7 [s2|]] eqn:E7; apply score1_frame in E7 as (R1 & R2 & R3 & _);
      simpl in R1, R2, R3; intros E; injection E as <- <- <-; simpl; intuition congruence.
  Qed.

  (** ** C28 *)
  Lemma ss_invalid_l opts (a : arm) d delta g : valid_delta o delta = false ->
    ss_update o vnone eo w tr opts a d delta g = ((a, g), Err ValueError).
  Proof. intros Hd. unfold ss_update. rewrite absorb_invalid by exact Hd. reflexivity. Qed.
  Lemma bs_invalid_l stable nb (a : arm) d delta g : valid_delta o delta = false ->
    bs_update o vnone eo w tr stable nb a d delta g = ((a, g), Err ValueError).
  Proof. intros Hd. unfold bs_update. rewrite absorb_invalid by exact Hd. reflexivity. Qed.
  Lemma ss_pulled_l opts (a : arm) d delta g a' g' r : valid_delta o delta = true ->
    ss_update o vnone eo w tr opts a d delta g = ((a', g'), r) ->
    ar_pulled a' = S (ar_pulled a) /\ ar_delta a' = Some delta.
  Proof.
    intros Hd E. destruct (absorb o vnone w tr (so_stable opts) a d delta g) as [[a1 g1] e] eqn:Ea.
    destruct (ss_frame _ _ _ _ _ _ _ _ Ea _ _ _ E) as (_ & -> & -> & _).
    destruct (absorb_pulled o vnone w tr _ a d delta g Hd _ _ _ Ea) as (-> & _ & _ & _ & _ & ->). auto.
  Qed.
  Lemma bs_pulled_l stable nb (a : arm) d delta g a' g' r : valid_delta o delta = true ->
    bs_update o vnone eo w tr stable nb a d delta g = ((a', g'), r) ->
    ar_pulled a' = S (ar_pulled a) /\ ar_delta a' = Some delta.
  Proof.
    intros Hd E. destruct (absorb o vnone w tr stable a d delta g) as [[a1 g1] e] eqn:Ea.
    destruct (bs_frame _ _ _ _ _ _ _ _ _ Ea _ _ _ E) as (_ & -> & -> & _).
    destruct (absorb_pulled o vnone w tr _ a d delta g Hd _ _ _ Ea) as (-> & _ & _ & _ & _ & ->). auto.
  Qed.

  (** ** C25, generic over the two kinds of update *)
  Section Hist.
    Variable upd : arm -> expdata V -> N -> G -> (arm * G) * res (N * N).
    Variable stable : bool.
    (** [upd] starts with absorb and then leaves the folds alone *)
    Hypothesis Hupd : forall (a : arm) d delta g a1 g1 e, absorb o vnone w tr stable a d delta g = ((a1, g1), e) ->
      forall a' g' r, upd a d delta g = ((a', g'), r) -> ar_split a' = ar_split a1.
    Hypothesis Hinvd : forall (a : arm) d delta g, valid_delta o delta = false -> fst (fst (upd a d delta g)) = a.
    Hypothesis Hperm : fair_perm w.

    Notation unit := (option (list V) * option (option (list V)) * option (option (list V)))%type.
    Definition folds_are (t0 : expdata V) (a : arm) (p : list (list unit * list unit)) : Prop :=
      match ar_split a with
      | None => p = []
      | Some fs => p <> [] /\ exists f0 f1, fs = [f0; f1] /\ aligned f0 /\ aligned f1 /\ same_shape t0 f0 /\ same_shape t0 f1 /\
                     units f0 = concat (map fst p) /\ units f1 = concat (map snd p)
      end.

    Lemma upd_step t0 (a : arm) p d delta g : folds_are t0 a p ->
      (valid_delta o delta = true -> forall t, tr d = Ok t -> aligned t /\ same_shape t0 t) ->
      exists q, Forall2 halves (transformed o tr [(d, delta)]) q /\
        folds_are t0 (fst (fst (upd a d delta g)))
                  (if stable then p ++ q else match q with [] => p | _ => q end).
    Proof.
      intros Hp Hs. unfold transformed. cbn [flat_map snd fst]. rewrite app_nil_r.
      destruct (valid_delta o delta) eqn:Hd.
      - specialize (Hs eq_refl).
        assert (Hinv : match ar_split a with
                       | None => True
                       | Some fs => exists f0 f1, fs = [f0; f1] /\ aligned f0 /\ aligned f1 /\ same_shape t0 f0 /\ same_shape t0 f1
                       end).
        { unfold folds_are in Hp. destruct (ar_split a); [|exact I]. destruct Hp as (_ & f0 & f1 & -> & ? & ? & ? & ? & _ & _).
          exists f0, f1. auto 6. }
        pose proof (absorb_data o vnone w tr stable a d delta g t0 Hperm Hd Hs Hinv) as Hab.
        destruct (tr d) as [t|e] eqn:Et.
        + destruct Hab as (a1 & g1 & f0 & f1 & n0 & n1 & Ea & Esp & A0 & A1 & S0 & S1 & Hh & Hu).
          exists [(n0, n1)]. split; [constructor; [exact Hh|constructor]|].
          destruct (upd a d delta g) as [[a' g'] r] eqn:Eu. pose proof (Hupd _ _ _ _ _ _ _ Ea _ _ _ Eu) as Esp'.
          cbn [fst]. unfold folds_are. rewrite Esp', Esp.
          split; [destruct stable; [destruct p|]; discriminate|]. exists f0, f1.
          do 5 (split; [auto|]).
          destruct stable.
          * rewrite !map_app, !concat_app. simpl. rewrite !app_nil_r.
            unfold folds_are in Hp. destruct (ar_split a) as [fs|].
            -- destruct Hp as (_ & p0 & p1 & -> & _ & _ & _ & _ & <- & <-). injection Hu as -> ->. auto.
            -- subst p. injection Hu as -> ->. auto.
          * simpl. rewrite !app_nil_r. injection Hu as -> ->. auto.
        + destruct Hab as (a1 & Ea & Esp). exists []. split; [constructor|].
          destruct (upd a d delta g) as [[a' g'] r] eqn:Eu. pose proof (Hupd _ _ _ _ _ _ _ Ea _ _ _ Eu) as Esp'.
          cbn [fst]. rewrite app_nil_r. replace (if stable then p else p) with p by (destruct stable; reflexivity).
          unfold folds_are in *. rewrite Esp', Esp. exact Hp.
      - exists []. split; [constructor|]. rewrite Hinvd by exact Hd. rewrite app_nil_r. destruct stable; exact Hp.
    Qed.

    Lemma transformed_cons b h : transformed o tr (b :: h) = transformed o tr [b] ++ transformed o tr h.
    Proof. unfold transformed. simpl. rewrite app_nil_r. reflexivity. Qed.

    Lemma shaped_head t0 d delta h : well_shaped o tr t0 ((d, delta) :: h) ->
      valid_delta o delta = true -> forall t, tr d = Ok t -> aligned t /\ same_shape t0 t.
    Proof.
      unfold well_shaped. rewrite transformed_cons. intros Hw Hd t Et. rewrite Forall_forall in Hw. apply Hw, in_or_app. left.
      unfold transformed. simpl. rewrite Hd, Et. left. reflexivity.
    Qed.
    Lemma shaped_tail t0 b h : well_shaped o tr t0 (b :: h) -> well_shaped o tr t0 h.
    Proof. unfold well_shaped. rewrite transformed_cons. intros Hw. apply Forall_app in Hw. tauto. Qed.

    Lemma transformed_one d delta : transformed o tr [(d, delta)] = [] \/ exists t, transformed o tr [(d, delta)] = [t].
    Proof.
      unfold transformed. simpl. destruct (valid_delta o delta); [|auto]. destruct (tr d) as [t|]; [right; exists t|left]; reflexivity.
    Qed.

    Lemma feed_stable t0 : stable = true -> forall h a g p, folds_are t0 a p -> well_shaped o tr t0 h ->
      exists q, Forall2 halves (transformed o tr h) q /\ folds_are t0 (fst (fst (feed upd a g h))) (p ++ q).
    Proof.
      intros Hst. induction h as [|[d delta] h IH]; intros a g p Hp Hw.
      - exists []. simpl. rewrite app_nil_r. split; [constructor|exact Hp].
      - destruct (upd_step t0 a p d delta g Hp (shaped_head _ _ _ _ Hw)) as (q1 & F1 & P1). rewrite Hst in P1.
        cbn [feed]. destruct (upd a d delta g) as [[a1 g1] r]. cbn [fst] in P1.
        destruct (IH a1 g1 _ P1 (shaped_tail _ _ _ Hw)) as (q2 & F2 & P2).
        destruct (feed upd a1 g1 h) as [[a2 g2] rs]. cbn [fst] in *.
        exists (q1 ++ q2). split; [rewrite transformed_cons; apply Forall2_app; assumption|]. rewrite app_assoc. exact P2.
    Qed.

    Lemma feed_unstable t0 : stable = false -> forall h a g p, folds_are t0 a p -> well_shaped o tr t0 h ->
      exists q, folds_are t0 (fst (fst (feed upd a g h))) q /\
        (transformed o tr h = [] -> q = p) /\
        (forall l t, transformed o tr h = l ++ [t] -> exists x, q = [x] /\ halves t x).
    Proof.
      intros Hst. induction h as [|[d delta] h IH]; intros a g p Hp Hw.
      - exists p. simpl. split; [exact Hp|]. split; [auto|]. intros [|? l] t E; discriminate.
      - destruct (upd_step t0 a p d delta g Hp (shaped_head _ _ _ _ Hw)) as (q1 & F1 & P1). rewrite Hst in P1.
        cbn [feed]. destruct (upd a d delta g) as [[a1 g1] r]. cbn [fst] in P1.
        destruct (IH a1 g1 _ P1 (shaped_tail _ _ _ Hw)) as (q2 & P2 & Q1 & Q2).
        destruct (feed upd a1 g1 h) as [[a2 g2] rs]. cbn [fst] in *.
        exists q2. split; [exact P2|]. rewrite transformed_cons.
        destruct (transformed_one d delta) as [E1|(t1 & E1)]; rewrite E1 in F1 |- *.
        + inversion F1; subst q1. split; assumption.
        + inversion F1 as [|? y ? ? Hy Hn]; subst. inversion Hn; subst. split; [discriminate|].
          intros l t E. destruct l as [|x l]; simpl in E.
          * injection E as -> E. rewrite (Q1 E). exists y. auto.
          * injection E as -> E. apply (Q2 l t E).
    Qed.

    Lemma units_total (T : list (expdata V)) q : Forall2 halves T q ->
      Permutation (concat (map fst q) ++ concat (map snd q)) (concat (map units T)).
    Proof.
      induction 1 as [|t [p0 p1] T q (Hp & _) _ IH]; simpl; [constructor|].
      simpl in Hp. rewrite <- IH, <- Hp. rewrite <- !app_assoc. apply Permutation_app_head.
      rewrite !app_assoc. apply Permutation_app_tail. apply Permutation_app_comm.
    Qed.

    Lemma folds_units t0 (a : arm) p : folds_are t0 a p ->
      ss_units a = length (concat (map fst p) ++ concat (map snd p)).
    Proof.
      unfold folds_are, ss_units. destruct (ar_split a) as [fs|].
      - intros (_ & f0 & f1 & -> & _ & _ & _ & _ & <- & <-). simpl. rewrite app_length, !units_length. lia.
      - intros ->. reflexivity.
    Qed.
  End Hist.

  Definition ss_upd opts := ss_update o vnone eo w tr opts.
  Definition bs_upd stable nb := bs_update o vnone eo w tr stable nb.

  Lemma total_units (T : list (expdata V)) : length (concat (map units T)) = list_sum (map (@n_units V) T).
  Proof. induction T as [|t T IH]; simpl; [reflexivity|]. rewrite app_length, units_length, IH. reflexivity. Qed.

  Lemma ss_frame' opts : forall (a : arm) d delta g a1 g1 e, absorb o vnone w tr (so_stable opts) a d delta g = ((a1, g1), e) ->
      forall a' g' r, ss_update o vnone eo w tr opts a d delta g = ((a', g'), r) -> ar_split a' = ar_split a1.
  Proof. intros a d delta g a1 g1 e Ea a' g' r E. apply (ss_frame _ _ _ _ _ _ _ _ Ea _ _ _ E). Qed.
  Lemma ss_inv' opts (a : arm) d delta g : valid_delta o delta = false -> fst (fst (ss_update o vnone eo w tr opts a d delta g)) = a.
  Proof. intros Hd. rewrite ss_invalid_l by exact Hd. reflexivity. Qed.

  Lemma ss_partition_l opts (a : arm) g h t0 : so_stable opts = true -> fair_perm w -> ar_split a = None -> well_shaped o tr t0 h ->
    let a' := fst (fst (feed (ss_update o vnone eo w tr opts) a g h)) in
    exists parts, Forall2 halves (transformed o tr h) parts /\
      (transformed o tr h = [] -> ar_split a' = None) /\
      (transformed o tr h <> [] -> exists f0 f1, ar_split a' = Some [f0; f1] /\
         units f0 = concat (map fst parts) /\ units f1 = concat (map snd parts) /\
         Permutation (units f0 ++ units f1) (concat (map units (transformed o tr h)))) /\
      ss_units a' = list_sum (map (@n_units V) (transformed o tr h)).
  Proof.
    intros Hst Hp Hn Hw. cbv zeta.
    destruct (feed_stable _ _ (ss_frame' opts) (ss_inv' opts) Hp t0 Hst h a g []) as (q & Hq & Hf);
      [unfold folds_are; rewrite Hn; reflexivity|exact Hw|].
    simpl in Hf. exists q. split; [exact Hq|].
    pose proof (units_total _ _ Hq) as Ht. pose proof (folds_units _ _ _ Hf) as Hu.
    split; [|split].
    - intros E. rewrite E in Hq. inversion Hq; subst q. unfold folds_are in Hf. revert Hf. destruct (ar_split (fst _)); [intros [Hf _]; congruence|reflexivity].
    - intros E. unfold folds_are in Hf. revert Hf. destruct (ar_split (fst _)) as [fs|]; intros Hf.
      + destruct Hf as (_ & f0 & f1 & -> & _ & _ & _ & _ & U0 & U1). exists f0, f1. rewrite U0, U1. auto.
      + subst q. inversion Hq. congruence.
    - rewrite Hu, (Permutation_length Ht). apply total_units.
  Qed.

  Lemma absorb_unstable (a : arm) d delta g t : fair_perm w -> valid_delta o delta = true -> tr d = Ok t -> aligned t ->
    exists a' g' f0 f1, absorb o vnone w tr false a d delta g = ((a', g'), None) /\ ar_split a' = Some [f0; f1] /\
      halves t (units f0, units f1).
  Proof.
    intros Hp Hd Et Ha. unfold valid_delta in Hd. unfold absorb. rewrite Hd. cbn [negb].
    destruct (split_new_ok w tr d g t Hp Et Ha) as (m0 & m1 & g' & Es & _ & _ & _ & _ & Hh). rewrite Es.
    exists (mkArm (ar_ci a) (ar_eta a) (ar_ate a) (ar_var a) (S (ar_pulled a)) (Some [m0; m1]) (Some delta)), g', m0, m1.
    split; [destruct (ar_split a); reflexivity|]. split; [reflexivity|exact Hh].
  Qed.

  Lemma halves_size (t f0 f1 : expdata V) : halves t (units f0, units f1) -> n_units f0 + n_units f1 = n_units t.
  Proof. intros (Hp & _). simpl in Hp. apply Permutation_length in Hp. rewrite app_length, !units_length in Hp. exact Hp. Qed.

  (** the folds after a history depend only on the last transformed batch *)
  Lemma ss_forgets_l opts : so_stable opts = false -> fair_perm w -> forall h (a : arm) g l t,
    Forall aligned (transformed o tr h) -> transformed o tr h = l ++ [t] ->
    let a' := fst (fst (feed (ss_update o vnone eo w tr opts) a g h)) in
    exists f0 f1, ar_split a' = Some [f0; f1] /\ halves t (units f0, units f1) /\ ss_units a' = n_units t.
  Proof.
    intros Hst Hp. cbv zeta.
    assert (Hnil : forall h (a : arm) g, transformed o tr h = [] -> ar_split (fst (fst (feed (ss_update o vnone eo w tr opts) a g h))) = ar_split a).
    { induction h as [|[d delta] h IH]; intros a g E; [reflexivity|]. rewrite transformed_cons in E. apply app_eq_nil in E as [E1 E2].
      cbn [feed]. destruct (ss_update o vnone eo w tr opts a d delta g) as [[a1 g1] r] eqn:Eu.
      specialize (IH a1 g1 E2). destruct (feed _ a1 g1 h) as [[a2 g2] rs]. cbn [fst] in *. rewrite IH.
      unfold transformed in E1. cbn [flat_map fst snd] in E1. rewrite app_nil_r in E1.
      destruct (valid_delta o delta) eqn:Hd; [|rewrite (ss_invalid_l opts a d delta g Hd) in Eu; injection Eu as <- _ _; reflexivity].
      destruct (tr d) as [t|e] eqn:Et; [discriminate|].
      destruct (absorb o vnone w tr (so_stable opts) a d delta g) as [[b gb] eb] eqn:Ea.
      rewrite (ss_frame' opts _ _ _ _ _ _ _ Ea _ _ _ Eu). revert Ea. unfold absorb. unfold valid_delta in Hd. rewrite Hd. cbn [negb].
      rewrite (split_new_err w tr d g e Et). intros Ea. injection Ea as <- _ _. reflexivity. }
    induction h as [|[d delta] h IH]; intros a g l t Hal E; [destruct l; discriminate|].
    rewrite transformed_cons in E, Hal. apply Forall_app in Hal as [Hal1 Hal2].
    cbn [feed]. destruct (ss_update o vnone eo w tr opts a d delta g) as [[a1 g1] r] eqn:Eu.
    destruct (transformed o tr h) as [|x T _] eqn:ET using rev_ind.
    - specialize (Hnil h a1 g1 ET). destruct (feed _ a1 g1 h) as [[a2 g2] rs]. cbn [fst] in *.
      rewrite app_nil_r in E. unfold transformed in E, Hal1. cbn [flat_map fst snd] in E, Hal1. rewrite app_nil_r in E, Hal1.
      destruct (valid_delta o delta) eqn:Hd; [|destruct l; discriminate].
      destruct (tr d) as [t1|] eqn:Et; [|destruct l; discriminate].
      destruct l as [|? [|]]; try discriminate. injection E as ->. inversion Hal1; subst.
      destruct (absorb_unstable a d delta g t Hp Hd Et H2) as (b & gb & f0 & f1 & Ea & Es & Hh). rewrite <- Hst in Ea.
      exists f0, f1. pose proof (ss_frame' opts _ _ _ _ _ _ _ Ea _ _ _ Eu) as E1.
      split; [congruence|]. split; [exact Hh|]. unfold ss_units. rewrite Hnil, E1, Es. simpl. rewrite <- (halves_size _ _ _ Hh). lia.
    - rewrite app_assoc in E. apply app_inj_tail in E as [_ ->].
      specialize (IH a1 g1 T t Hal2 eq_refl). destruct (feed _ a1 g1 h) as [[a2 g2] rs]. exact IH.
  Qed.
End Frame.
