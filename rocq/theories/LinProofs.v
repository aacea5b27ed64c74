(** Proofs about the subclasses of AIPW: attributes of the estimators over histories. *)
From Coq Require Import List Arith ZArith Lia Bool.
From Verif Require Import PyBase PyLemmas NumOps DataModel ArmModel ParamModel ParamSpec ParamSpec2 ParamProofs ParamProofs2 LinModel LinSpec.
Import ListNotations.
Open Scope nat_scope.

(** an invariant of fit, set_to_truth and reset holds after every history *)
Lemma acts_inv {N M P} (o : numops N) (pr : predictor N M) (pp : predictor N P) la cf (ok : action N -> bool) (Inv : aipw N M P -> Prop) :
  (forall s d, ok (Fit d) = true -> Inv s -> Inv (fst (aipw_fit o pr pp cf s d))) ->
  (forall s g, ok (Truth g) = true -> Inv s -> Inv (fst (aipw_truth o pr pp cf s g))) ->
  (forall s, ok Reset = true -> Inv s -> Inv (aipw_reset pr pp s)) ->
  forall l s, forallb ok l = true -> Inv s -> Inv (after (aipw_methods o pr pp la cf) s l).
Proof.
  intros Hf Ht Hr l. unfold after. induction l as [|a l IH]; intros s Hl H; [exact H|].
  cbn [forallb] in Hl. apply andb_true_iff in Hl as [Ha Hl].
  cbn [acts]. set (m := aipw_methods o pr pp la cf) in *.
  assert (Hs : Inv (fst (act m s a))).
  { destruct a; cbn [act m aipw_methods m_fit m_score m_width m_enough m_truth m_reset].
    - specialize (Hf s d Ha H). destruct (aipw_fit _ _ _ _ _ _); exact Hf.
    - exact H.
    - exact H.
    - exact H.
    - specialize (Ht s gen Ha H). destruct (aipw_truth _ _ _ _ _ _); exact Ht.
    - exact (Hr s Ha H). }
  destruct (act m s a) as [s1 x]. cbn [fst] in Hs. specialize (IH s1 Hl Hs). destruct (acts m s1 l) as [s2 xs]. exact IH.
Qed.

(** what fit can do to a state *)
Lemma aipw_fit_inv {N M P} (o : numops N) (pr : predictor N M) (pp : predictor N P) cf s d :
  let s' := fst (aipw_fit o pr pp cf s d) in
  (ap_resp s' = ap_resp s /\ ap_prop s' = ap_prop s /\ ap_fit s' = ap_fit s) \/
  (exists a y e, pr_fit pr (ap_resp s) a y = (ap_resp s', Some e) /\ ap_prop s' = ap_prop s /\ ap_fit s' = ap_fit s) \/
  (exists a y c x e, pr_fit pr (ap_resp s) a y = (ap_resp s', None) /\ pr_fit pp (ap_prop s) c x = (ap_prop s', e) /\
     ap_fit s' = match e with None => true | Some _ => ap_fit s end).
Proof.
  cbv zeta. unfold aipw_fit. destruct (negb _); [auto|]. destruct (vec_of (dexp d)) as [x|]; [|auto]. destruct (too_few _ _ _ _); [auto|].
  destruct (do a <- with_cov x d; _) as [[[a y] c]|]; [|auto]. cbn [ap_resp ap_prop ap_fit].
  destruct (pr_fit pr (ap_resp s) a y) as [m [e|]] eqn:E1; [right; left; exists a, y, e; auto|].
  destruct (pr_fit pp (ap_prop s) c x) as [p [e|]] eqn:E2; right; right; [exists a, y, c, x, (Some e)|exists a, y, c, x, None]; auto.
Qed.

Section Linear.
  Context {N : Type} (o : numops N) (solve : arr N -> list N -> res (list N))
    (lsolve : option (list N * N) -> arr N -> list N -> res (list N * N)) (la : linalg N) (cf : aipw_conf N).
  Let pr := ridge_ops o solve.
  Let pp := logit_ops o lsolve.
  Let meth := aipw_methods o pr pp la cf.

  (** coef_ and intercept_ of the response: what can be missing, and the value of the intercept *)
  Definition ridge_ok (s : aipw N (ridge N) (logit N)) : Prop :=
    (rg_icept (ap_resp s) = None /\ ap_fit s = false) \/ (rg_icept (ap_resp s) = Some (nint o 0) /\ exists c, rg_coef (ap_resp s) = Some c).
  Lemma ridge_ok_fit s d : ridge_ok s -> ridge_ok (fst (aipw_fit o pr pp cf s d)).
  Proof.
    intros H. destruct (aipw_fit_inv o pr pp cf s d) as [(E1 & _ & E3)|[(a & y & e & E1 & E2 & E3)|(a & y & c & x & e & E1 & E2 & E3)]];
      set (s' := fst (aipw_fit o pr pp cf s d)) in *; clearbody s'.
    - unfold ridge_ok. rewrite E1, E3. exact H.
    - unfold ridge_ok. cbn [pr ridge_ops pr_fit] in E1. destruct (solve a y); [discriminate|]. injection E1 as <- _. rewrite E3. exact H.
    - unfold ridge_ok. cbn [pr ridge_ops pr_fit] in E1. destruct (solve a y) as [c1|]; [|discriminate]. injection E1 as <-. right. cbn. split; [reflexivity|eauto].
  Qed.
  Lemma ridge_ok_truth s g : ridge_ok s -> ridge_ok (fst (aipw_truth o pr pp cf s g)).
  Proof.
    intros H. destruct g as [g|]; [|exact H]. unfold aipw_truth. destruct H as [[H1 H2]|[H1 _]]; destruct (_ =? _); unfold ridge_ok; cbn; rewrite H1; eauto.
  Qed.
  Lemma ridge_ok_after l s : ridge_ok s -> ridge_ok (after meth s l).
  Proof.
    apply (acts_inv o pr pp la cf (fun _ => true)); [intros; now apply ridge_ok_fit|intros; now apply ridge_ok_truth| |now induction l].
    intros s' _ _. left. split; reflexivity.
  Qed.
  Lemma ridge_ok_new : ridge_ok linear_logistic_new.
  Proof. left. split; reflexivity. Qed.

  (** no fit: no intercept *)
  Lemma no_fit l s : forallb (fun a => negb (is_fit a)) l = true -> rg_icept (ap_resp s) = None ->
    rg_icept (ap_resp (after meth s l)) = None.
  Proof.
    intros Hl H. refine (acts_inv o pr pp la cf (fun a => negb (is_fit a)) (fun s => rg_icept (ap_resp s) = None) _ _ _ l s Hl H).
    - intros s' d Hd. discriminate.
    - intros s' [g|] _ E; [|exact E]. unfold aipw_truth. destruct (_ =? _); cbn; exact E.
    - reflexivity.
  Qed.

  (** after set_to_truth the intercept of the propensity is a Python number, until reset *)
  Definition spoiled {M} (s : aipw N M (logit N)) : Prop := exists c b, lo_coef (ap_prop s) = Some c /\ lo_icept (ap_prop s) = Some (Number b).
  Lemma spoiled_fit {M} (pr' : predictor N M) s d : spoiled s -> spoiled (fst (aipw_fit o pr' pp cf s d)) /\
    ap_fit (fst (aipw_fit o pr' pp cf s d)) = ap_fit s /\ ap_prop (fst (aipw_fit o pr' pp cf s d)) = ap_prop s.
  Proof.
    intros (c & b & E1 & E2).
    assert (E : ap_fit (fst (aipw_fit o pr' pp cf s d)) = ap_fit s /\ ap_prop (fst (aipw_fit o pr' pp cf s d)) = ap_prop s).
    { destruct (aipw_fit_inv o pr' pp cf s d) as [(_ & H2 & H3)|[(a & y & e & _ & H2 & H3)|(a & y & c' & x & e & _ & H2 & H3)]]; auto.
      cbn [pp logit_ops pr_fit] in H2. unfold warm_start in H2. rewrite E1, E2 in H2. cbn [attr bind] in H2.
      destruct (one_class o x); injection H2 as <- <-; auto. }
    split; [|exact E]. destruct E as [_ E]. exists c, b. rewrite E. auto.
  Qed.
  Lemma spoiled_truth {M} (pr' : predictor N M) s g : spoiled s -> spoiled (fst (aipw_truth o pr' pp cf s g)).
  Proof.
    intros (c & b & E1 & E2). destruct g as [g|]; [|exists c, b; auto]. unfold aipw_truth. destruct (_ =? _); [|exists c, b; auto].
    exists (lg_gamma g), (nint o 0). split; reflexivity.
  Qed.
  Lemma spoiled_after {M} (pr' : predictor N M) l s : forallb (fun a => negb (is_reset a)) l = true -> spoiled s ->
    spoiled (after (aipw_methods o pr' pp la cf) s l).
  Proof.
    intros Hl. apply (acts_inv o pr' pp la cf (fun a => negb (is_reset a))); [| |intros ? H; discriminate H|exact Hl].
    - intros s' d _ H. apply spoiled_fit, H.
    - intros s' g _ H. apply spoiled_truth, H.
  Qed.
  Lemma truth_spoils {M} (pr' : predictor N M) s g s' : aipw_truth o pr' pp cf s (Some g) = (s', None) -> spoiled s'.
  Proof.
    unfold aipw_truth. destruct (_ =? _); [|discriminate]. intros E. injection E as <-. exists (lg_gamma g), (nint o 0). split; reflexivity.
  Qed.
End Linear.
Lemma one_class_bits {N} (o : numops N) bs : tells_apart o -> (1 <= Z.of_nat (treated bs))%Z -> (1 <= Z.of_nat (control bs))%Z ->
  one_class o (bits o bs) = false.
Proof.
  intros [H1 H2] Ht Hc. destruct bs as [|b bs]; [cbn in Ht; lia|]. unfold one_class, bits. cbn [map].
  apply not_true_iff_false. intros H. rewrite forallb_forall in H.
  assert (Hn : forall b', In b' bs -> b' = b).
  { intros b' Hb. specialize (H (bit o b') (in_map _ _ _ Hb)). unfold bit in H. destruct b, b'; try reflexivity; congruence. }
  unfold treated, control in Ht, Hc. cbn [count_occ] in Ht, Hc.
  assert (Hz : count_occ bool_dec bs (negb b) = 0) by (apply count_occ_not_In; intros Hb; apply Hn in Hb; destruct b; discriminate).
  destruct b; cbn [negb] in Hz; destruct (bool_dec true false), (bool_dec false true); try discriminate; cbn in Ht, Hc; lia.
Qed.
