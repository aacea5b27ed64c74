(** Proofs about the subclasses of AIPW: no missing attributes while scoring, training without set_to_truth. *)
From Coq Require Import List Arith ZArith Lia Bool.
From Verif Require Import PyBase PyLemmas NumOps DataModel ScmModel ArmModel ParamModel ParamSpec ParamSpec2 ParamProofs ParamProofs2 LinModel LinSpec LinProofs.
Import ListNotations.
Open Scope nat_scope.

(** ** computations that do not raise AttributeError *)
Definition quiet {A} (r : res A) : Prop := r <> Err AttributeError.
Lemma quiet_bind {A B} (r : res A) (k : A -> res B) : quiet r -> (forall a, r = Ok a -> quiet (k a)) -> quiet (do x <- r; k x).
Proof. unfold quiet. destruct r as [a|e]; intros H1 H2; cbn; [auto|congruence]. Qed.
Lemma quiet_ok {A} (a : A) : quiet (Ok a).
Proof. discriminate. Qed.
Lemma quiet_mapM {A B} (f : A -> res B) l : (forall a, quiet (f a)) -> quiet (mapM f l).
Proof.
  intros H. induction l as [|a l IH]; [discriminate|]. cbn [mapM]. apply quiet_bind; [apply H|]. intros b _. apply quiet_bind; [exact IH|]. discriminate.
Qed.
Section Quiet.
  Context {N : Type} (o : numops N).
  Lemma quiet_vec (a : option (arr N)) : quiet (vec_of a).
  Proof. destruct a as [a|]; [|discriminate]. cbn. destruct (atail a); [|discriminate]. apply quiet_mapM. intros [|v [|w r]]; discriminate. Qed.
  Lemma quiet_arr (a : option (arr N)) : quiet (arr_of a).
  Proof. destruct a; discriminate. Qed.
  Lemma quiet_with_cov x (d : expdata N) : quiet (with_cov x d).
  Proof.
    apply quiet_bind; [apply quiet_arr|]. intros c _. unfold column_stack. cbn [map hcats]. apply quiet_bind; [|discriminate].
    unfold hcat. destruct (atail (as_column (vec x))); [discriminate|]. destruct (atail (as_column c)); [discriminate|]. destruct (_ && _); discriminate.
  Qed.
  Lemma quiet_stack (cs : list (list N)) : quiet (stack_columns o cs).
  Proof. destruct cs; [discriminate|]. unfold stack_columns. destruct (forallb _ _); discriminate. Qed.
  Lemma quiet_bzip (f : N -> N -> N) a b : quiet (bzip f a b).
  Proof. unfold bzip. destruct (_ =? _); [discriminate|]. destruct a as [|x [|x' a]], b as [|y [|y' b]]; discriminate. Qed.
  Lemma quiet_phi eta (d : expdata N) : quiet (aipw_phi o eta d).
  Proof.
    unfold aipw_phi. destruct (wrong_width 4 eta); [discriminate|]. cbn zeta. destruct (_ || _); [discriminate|].
    repeat (apply quiet_bind; [first [apply quiet_bzip|apply quiet_vec]|intros ? _]). apply quiet_bzip.
  Qed.
  Lemma quiet_linear a c (b : N) : quiet (linear_values o a c b).
  Proof. unfold linear_values. destruct (atail a) as [|k [|k' t]]; try discriminate. destruct (_ =? _); discriminate. Qed.
  Lemma quiet_score {M P} (pr : predictor N M) (pp : predictor N P) cf s d :
    (ap_fit s = true -> (forall a, quiet (pr_predict pr (ap_resp s) a)) /\ (forall a, quiet (pr_predict pp (ap_prop s) a))) ->
    quiet (aipw_score o pr pp cf s d).
  Proof.
    intros H. unfold aipw_score. apply quiet_bind; [|intros; apply quiet_phi]. unfold aipw_transform.
    destruct (ap_fit s); cbn [negb]; [|discriminate]. destruct (H eq_refl) as [H1 H2]. destruct (_ =? _); cbn [negb]; [|discriminate].
    apply quiet_bind; [apply quiet_arr|intros c _]. apply quiet_bind; [apply H2|intros p _]. cbn zeta.
    repeat (apply quiet_bind; [first [apply quiet_with_cov|apply H1|apply quiet_vec]|intros ? _]). apply quiet_stack.
  Qed.
End Quiet.

Section Complete.
  Context {N : Type} (o : numops N) (solve : arr N -> list N -> res (list N))
    (lsolve : option (list N * N) -> arr N -> list N -> res (list N * N)) (la : linalg N) (cf : aipw_conf N).
  Let pr := ridge_ops o solve.
  Let pp := logit_ops o lsolve.
  (** has_enough_samples: all attributes that predict reads exist *)
  Definition complete (s : aipw N (ridge N) (logit N)) : Prop :=
    ap_fit s = true -> (exists c, rg_coef (ap_resp s) = Some c) /\ (exists b, rg_icept (ap_resp s) = Some b) /\
      (exists c, lo_coef (ap_prop s) = Some c) /\ (exists b, lo_icept (ap_prop s) = Some b) /\ lo_classes (ap_prop s) = true.
  Lemma complete_fit s d : complete s -> complete (fst (aipw_fit o pr pp cf s d)).
  Proof.
    intros H. destruct (aipw_fit_inv o pr pp cf s d) as [(E1 & E2 & E3)|[(a & y & e & E1 & E2 & E3)|(a & y & c & x & e & E1 & E2 & E3)]];
      set (s' := fst (aipw_fit o pr pp cf s d)) in *; clearbody s'; unfold complete in *.
    - rewrite E1, E2, E3. exact H.
    - cbn [pr ridge_ops pr_fit] in E1. destruct (solve a y); [discriminate|]. injection E1 as <- _. rewrite E2, E3. exact H.
    - cbn [pr ridge_ops pr_fit] in E1. destruct (solve a y) as [c1|]; [|discriminate]. injection E1 as <-. cbn [rg_coef rg_icept].
      cbn [pp logit_ops pr_fit] in E2. destruct (one_class o x).
      + injection E2 as <- <-. rewrite E3. intros Hf. destruct (H Hf) as (_ & _ & H3 & H4 & H5). eauto 8.
      + destruct (do s <- warm_start (ap_prop s); lsolve s c x) as [[c2 b2]|]; injection E2 as <- <-.
        { intros _. cbn. repeat split; eauto. }
        rewrite E3. intros Hf. destruct (H Hf) as (_ & _ & H3 & H4 & H5). eauto 8.
  Qed.
  Lemma complete_truth s g : complete s -> complete (fst (aipw_truth o pr pp cf s g)).
  Proof.
    intros H. destruct g as [g|]; [|exact H]. unfold aipw_truth.
    destruct (_ =? _); unfold complete in *; cbn; intros Hf; destruct (H Hf) as (_ & H2 & H3 & H4 & H5); eauto 8.
  Qed.
  Lemma complete_after l s : complete s -> complete (after (aipw_methods o pr pp la cf) s l).
  Proof.
    apply (acts_inv o pr pp la cf (fun _ => true)); [intros; now apply complete_fit|intros; now apply complete_truth| |now induction l].
    intros s' _ _ Hf. discriminate.
  Qed.
  Lemma complete_quiet s d : complete s -> quiet (aipw_score o pr pp cf s d).
  Proof.
    intros H. apply quiet_score. intros Hf. destruct (H Hf) as ([c Ec] & [b Eb] & [c' Ec'] & [b' Eb'] & El). split; intros a.
    - cbn. rewrite Ec, Eb. cbn. apply quiet_linear.
    - cbn. rewrite Ec', Eb'. cbn. apply quiet_bind; [apply quiet_linear|]. intros v _. rewrite El. discriminate.
  Qed.
End Complete.

(** ** without set_to_truth *)
Section Clean.
  Context {N M : Type} (o : numops N) (pr : predictor N M)
    (lsolve : option (list N * N) -> arr N -> list N -> res (list N * N)) (la : linalg N) (cf : aipw_conf N).
  Let pp := logit_ops o lsolve.
  Definition clean (s : aipw N M (logit N)) : Prop := lo_coef (ap_prop s) = None \/ exists c b, lo_coef (ap_prop s) = Some c /\ lo_icept (ap_prop s) = Some (InArray b).
  Lemma clean_warm s : clean s -> exists w, warm_start (ap_prop s) = Ok w.
  Proof. unfold warm_start. intros [->|(c & b & -> & ->)]; cbn; eauto. Qed.
  Lemma clean_fit s d : clean s -> clean (fst (aipw_fit o pr pp cf s d)).
  Proof.
    intros H. destruct (aipw_fit_inv o pr pp cf s d) as [(_ & E2 & _)|[(a & y & e & _ & E2 & _)|(a & y & c & x & e & _ & E2 & _)]];
      set (s' := fst (aipw_fit o pr pp cf s d)) in *; clearbody s'; unfold clean in *; [rewrite E2; exact H|rewrite E2; exact H|].
    cbn [pp logit_ops pr_fit] in E2. destruct (one_class o x); [injection E2 as <- _; exact H|].
    destruct (do s <- warm_start (ap_prop s); lsolve s c x) as [[c2 b2]|]; injection E2 as <- _; [right; cbn; eauto|exact H].
  Qed.
  Lemma clean_after l s : forallb (fun a => negb (is_truth a)) l = true -> clean s -> clean (after (aipw_methods o pr pp la cf) s l).
  Proof.
    intros Hl. apply (acts_inv o pr pp la cf (fun a => negb (is_truth a))); [intros; now apply clean_fit|intros ? ? H; discriminate H| |exact Hl].
    intros s' _ _. left. reflexivity.
  Qed.
  Lemma clean_trains B s d rows bs y m : counting o B -> tells_apart o -> (1 <= ac_min cf)%Z -> clean s ->
    dataset d (ac_dim cf) rows (bits o bs) y -> (Z.of_nat (length bs) + Z.abs (ac_min cf) <= B)%Z -> large_enough (ac_min cf) bs ->
    pr_fit pr (ap_resp s) (with_exposure (bits o bs) (ac_dim cf) rows) y = (m, None) ->
    exists w, warm_start (ap_prop s) = Ok w /\
    aipw_fit o pr pp cf s d =
      match lsolve w (mkArr [ac_dim cf] rows) (bits o bs) with
      | Ok (c, b) => (mkAipw m (mkLogit (Some c) (Some (InArray b)) true) true (Some d), None)
      | Err e => (mkAipw m (ap_prop s) (ap_fit s) (Some d), Some e)
      end.
  Proof.
    intros Hc Ha Hm Hs Hd HB [L1 L2] Ef. destruct (clean_warm s Hs) as [w Ew]. exists w. split; [exact Ew|].
    rewrite (aipw_fit_dataset o pr pp cf s d rows (bits o bs) y Hd).
    assert (El : length rows = length bs). { destruct Hd as (_ & _ & _ & _ & _ & L & _). unfold bits in L. rewrite map_length in L. now rewrite L. }
    rewrite El. rewrite (proj2 (too_few_bits o B (ac_min cf) bs Hc HB)) by (split; assumption). rewrite Ef.
    cbn [pp logit_ops pr_fit]. rewrite one_class_bits by (assumption || lia). rewrite Ew. cbn [bind].
    destruct (lsolve w _ _) as [[c b]|]; reflexivity.
  Qed.
End Clean.
Lemma after_app {N S} (m : methods N S) l l' s : after m s (l ++ l') = after m (after m s l) l'.
Proof.
  unfold after. revert s. induction l as [|a l IH]; intros s; [reflexivity|]. cbn [acts app]. destruct (act m s a) as [s1 x]. specialize (IH s1).
  destruct (acts m s1 l) as [s2 xs]. cbn [fst] in *. rewrite <- IH. destruct (acts m s1 (l ++ l')). reflexivity.
Qed.
