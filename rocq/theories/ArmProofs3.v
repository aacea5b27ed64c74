(** Arms: inversion of an update, logs, resets (C26, C29, C32, C34). *)
From Coq Require Import List Arith ZArith Bool Permutation Lia.
From Verif Require Import PyBase PyLemmas Num NumOps DataModel DataSpec DataProofs DataProofs2 ArmModel ArmSpec ArmProofs1 ArmProofs2.
Import ListNotations.

Section Inv.
  Context {N V H G : Type} (o : numops N) (vnone : V) (eo : eta_ops N V H G) (w : arm_world N G)
          (tr : expdata V -> res (expdata V)).
  Notation arm := (arm N V H).

  Lemma ss_ok_inv opts (a : arm) d delta g a' g' l u :
    ss_update o vnone eo w tr opts a d delta g = ((a', g'), Ok (l, u)) ->
    ar_ci a' = (Some l, Some u) /\
    exists a1 g1 f0 h g2,
      absorb o vnone w tr (so_stable opts) a d delta g = ((a1, g1), None) /\
      fold a1 0 = Ok f0 /\ e_fit eo (ar_eta a1) f0 g1 = ((h, g2), None) /\ g' = g2 /\
      ((e_enough eo h = false /\ l = nint o 0 /\ u = ninf o /\ ar_ate a' = Some (nnan o) /\
        ar_var a' = Some (ninf o) /\ ar_eta a' = h) \/
       (e_enough eo h = true /\
        exists f1 h1 h2 s1 s2 ate v,
          fold a1 1 = Ok f1 /\ e_score eo h f1 = (h1, Ok s1) /\ e_score eo h1 f1 = (h2, Ok s2) /\
          ate = nmean o s1 /\ ar_ate a' = Some ate /\
          v = nmean o (map (fun s => nsq o (nsub o s ate)) s2) /\ ar_var a' = Some v /\ nisnan o v = false /\
          match so_ci opts with
          | CHI2 => ar_eta a' = h2 /\ (l, u) = chi2_ci o w v delta (n_units f1)
          | CLT => exists s3, e_score eo h2 f1 = (ar_eta a', Ok s3) /\
                     (l, u) = clt_ci o w v ate (clt_delta o delta (ar_pulled a')) s3 (n_units f1)
          | FINITE_SAMPLE =>
              ar_eta a' = h2 /\
              nleb o (so_tau opts) (nint o 0) = false /\ nleb o (so_burn opts) (nint o 1) = false /\
              nleb o (so_subg opts) (nint o 0) = false /\
              exists ew, e_width eo h2 (ndiv o delta (nint o 2)) (so_eta_subg opts) (so_rho opts) = Ok ew /\
                ((nltb o (nnat o (n_units f1)) (so_burn opts) = true /\ l = nint o 0 /\ u = ninf o) \/
                 (nltb o (nnat o (n_units f1)) (so_burn opts) = false /\
                  exists x, ew = Some x /\ (l, u) = fs_ci o v (fs_width o opts delta (n_units f1) x)))
          | OtherCI => False
          end)).
  Proof.
    unfold ss_update.
    destruct (absorb o vnone w tr (so_stable opts) a d delta g) as [[a1 g1] [e|]]; [discriminate|].
    destruct (fold a1 0) as [f0|] eqn:E0; [|discriminate].
    destruct (e_fit eo (ar_eta a1) f0 g1) as [[h g2] [e|]] eqn:Ef; [discriminate|].
    destruct (e_enough eo h) eqn:Een; cbn [negb].
    2:{ intros E. injection E as <- <- <- <-. split; [reflexivity|]. exists a1, g1, f0, h, g2.
        do 4 (split; [auto|]). left. simpl. auto 7. }
    unfold score1 at 1. change (fold (set_eta a1 h) 1) with (fold a1 1).
    destruct (fold a1 1) as [f1|] eqn:E1; [|discriminate]. cbn [ar_eta set_eta].
    destruct (e_score eo h f1) as [h1 [s1|]] eqn:Es1; [|discriminate].
    set (a4 := set_ate (set_eta (set_eta a1 h) h1) (nmean o s1)).
    unfold score1 at 1. change (fold a4 1) with (fold a1 1). rewrite E1. change (ar_eta a4) with h1.
    destruct (e_score eo h1 f1) as [h2 [s2|]] eqn:Es2; [|discriminate].
    set (v := nmean o (map (fun s => nsq o (nsub o s (nmean o s1))) s2)).
    destruct (nisnan o v) eqn:Ev; [discriminate|].
    set (a6 := set_var (set_eta a4 h2) v). change (fold a6 1) with (fold a1 1). rewrite E1.
    intros E.
    cut (ar_ci a' = (Some l, Some u) /\ g' = g2 /\ ar_ate a' = Some (nmean o s1) /\ ar_var a' = Some v /\
          match so_ci opts with
          | CHI2 => ar_eta a' = h2 /\ (l, u) = chi2_ci o w v delta (n_units f1)
          | CLT => exists s3, e_score eo h2 f1 = (ar_eta a', Ok s3) /\
                     (l, u) = clt_ci o w v (nmean o s1) (clt_delta o delta (ar_pulled a')) s3 (n_units f1)
          | FINITE_SAMPLE =>
              ar_eta a' = h2 /\
              nleb o (so_tau opts) (nint o 0) = false /\ nleb o (so_burn opts) (nint o 1) = false /\
              nleb o (so_subg opts) (nint o 0) = false /\
              exists ew, e_width eo h2 (ndiv o delta (nint o 2)) (so_eta_subg opts) (so_rho opts) = Ok ew /\
                ((nltb o (nnat o (n_units f1)) (so_burn opts) = true /\ l = nint o 0 /\ u = ninf o) \/
                 (nltb o (nnat o (n_units f1)) (so_burn opts) = false /\
                  exists x, ew = Some x /\ (l, u) = fs_ci o v (fs_width o opts delta (n_units f1) x)))
          | OtherCI => False
          end).
    { intros (H1 & -> & H2 & H3 & H4). split; [exact H1|]. exists a1, g1, f0, h, g2. do 4 (split; [auto|]). right.
      split; [exact Een|]. exists f1, h1, h2, s1, s2, (nmean o s1), v. do 8 (split; [auto|]). exact H4. }
    destruct (so_ci opts).
    - destruct (chi2_ci o w v delta (n_units f1)) as [l0 u0] eqn:Ec. injection E as <- <- <- <-. do 5 (split; [reflexivity|]). first [reflexivity | symmetry; exact Ec].
    - unfold score1 in E. change (fold a6 1) with (fold a1 1) in E. rewrite E1 in E. change (ar_eta a6) with h2 in E.
      destruct (e_score eo h2 f1) as [h3 [s3|]] eqn:Es3; [|discriminate].
      destruct (clt_ci o w v _ _ s3 _) as [l0 u0] eqn:Ec. injection E as <- <- <- <-. simpl. do 4 (split; [auto|]).
      exists s3. split; [reflexivity|]. first [reflexivity | symmetry; exact Ec].
    - destruct (nleb o (so_tau opts) (nint o 0)); [discriminate|]. destruct (nleb o (so_burn opts) (nint o 1)); [discriminate|].
      destruct (nleb o (so_subg opts) (nint o 0)); [discriminate|]. cbn [orb] in E. change (ar_eta a6) with h2 in E.
      destruct (e_width eo h2 _ _ _) as [ew|]; [|discriminate].
      destruct (nltb o (nnat o (n_units f1)) (so_burn opts)).
      + injection E as <- <- <- <-. simpl. do 4 (split; [auto|]). do 4 (split; [reflexivity|]). exists ew. auto 6.
      + destruct ew as [x|]; [|discriminate]. destruct (fs_ci o v _) as [l0 u0] eqn:Ec. injection E as <- <- <- <-. simpl.
        do 4 (split; [auto|]). do 4 (split; [reflexivity|]). exists (Some x). split; [reflexivity|]. right. split; [reflexivity|].
        exists x. split; [reflexivity|]. first [reflexivity | symmetry; exact Ec].
    - discriminate.
  Qed.

  Lemma ss_ok_ci opts (a : arm) d delta g a' g' l u :
    ss_update o vnone eo w tr opts a d delta g = ((a', g'), Ok (l, u)) -> ar_ci a' = (Some l, Some u).
  Proof. intros E. apply (ss_ok_inv _ _ _ _ _ _ _ _ _ E). Qed.

  Lemma absorb_ci stable (a a1 : arm) d delta g g1 e : absorb o vnone w tr stable a d delta g = ((a1, g1), e) ->
    ar_ci a1 = ar_ci a /\ ar_eta a1 = ar_eta a.
  Proof.
    intros E. destruct (valid_delta o delta) eqn:Hd.
    - destruct (absorb_pulled o vnone w tr _ a d delta g Hd _ _ _ E) as (_ & -> & _ & _ & -> & _). auto.
    - rewrite absorb_invalid in E by exact Hd. injection E as <- _ _. auto.
  Qed.

  (** an exception leaves the stored interval alone *)
  Lemma ss_err_ci opts (a : arm) d delta g a' g' e :
    ss_update o vnone eo w tr opts a d delta g = ((a', g'), Err e) -> ar_ci a' = ar_ci a.
  Proof.
    unfold ss_update.
    destruct (absorb o vnone w tr (so_stable opts) a d delta g) as [[a1 g1] e1] eqn:Ea.
    destruct (absorb_ci _ _ _ _ _ _ _ _ Ea) as [<- _].
    destruct e1 as [x|]; [intros E; injection E as <- <- <-; reflexivity|].
    destruct (fold a1 0) as [f0|]; [|intros E; injection E as <- <- <-; reflexivity].
    destruct (e_fit eo (ar_eta a1) f0 g1) as [[h g2] [x|]]; [intros E; injection E as <- <- <-; reflexivity|].
    destruct (e_enough eo h); cbn [negb]; [|discriminate].
    destruct (score1 eo (set_eta a1 h)) as [a3 [s1|x]] eqn:E3; apply score1_frame in E3 as (_ & _ & _ & P & _);
      simpl in P; [|intros E; injection E as <- <- <-; exact P].
    destruct (score1 eo (set_ate a3 _)) as [a5 [s2|x]] eqn:E5; apply score1_frame in E5 as (_ & _ & _ & Q & _);
      simpl in Q; [|intros E; injection E as <- <- <-; congruence].
    destruct (nisnan o _); [intros E; injection E as <- <- <-; simpl; congruence|].
    destruct (fold (set_var a5 _) 1) as [f1|]; [|intros E; injection E as <- <- <-; simpl; congruence].
    destruct (so_ci opts).
    - destruct (chi2_ci o w _ delta _) as [l u]. discriminate.
    - destruct (score1 eo (set_var a5 _)) as [a7 [s3|x]] eqn:E7; apply score1_frame in E7 as (_ & _ & _ & R & _);
        simpl in R; [destruct (clt_ci o w _ _ _ _ _); discriminate|intros E; injection E as <- <- <-; congruence].
    - destruct (_ || _ || _); [intros E; injection E as <- <- <-; simpl; congruence|].
      destruct (e_width eo _ _ _ _) as [ew|]; [|intros E; injection E as <- <- <-; simpl; congruence].
      destruct (nltb o _ (so_burn opts)); [discriminate|].
      destruct ew as [x|]; [|intros E; injection E as <- <- <-; simpl; congruence].
      destruct (fs_ci o _ _) as [l u]. discriminate.
    - intros E; injection E as <- <- <-; simpl; congruence.
  Qed.

  Lemma score1_eq (a : arm) f0 f1 : ar_split a = Some [f0; f1] ->
    score1 eo a = (set_eta a (fst (e_score eo (ar_eta a) f1)), snd (e_score eo (ar_eta a) f1)).
  Proof. intros E. unfold score1, fold. rewrite E. cbn [nth_error]. destruct (e_score eo (ar_eta a) f1). reflexivity. Qed.

  (** ** what happens once the data is absorbed (forward direction) *)
  Lemma ss_forward opts (a : arm) d delta g a1 g1 f0 f1 :
    absorb o vnone w tr (so_stable opts) a d delta g = ((a1, g1), None) -> ar_split a1 = Some [f0; f1] ->
    forall h g2, e_fit eo (ar_eta a) f0 g1 = ((h, g2), None) ->
    (e_enough eo h = false ->
       ss_update o vnone eo w tr opts a d delta g =
         ((mkArm (Some (nint o 0), Some (ninf o)) h (Some (nnan o)) (Some (ninf o)) (ar_pulled a1) (Some [f0; f1]) (ar_delta a1), g2),
          Ok (nint o 0, ninf o))) /\
    (e_enough eo h = true -> forall h1 s1 h2 s2, e_score eo h f1 = (h1, Ok s1) -> e_score eo h1 f1 = (h2, Ok s2) ->
       forall a' g' r, ss_update o vnone eo w tr opts a d delta g = ((a', g'), r) ->
       g' = g2 /\ ar_ate a' = Some (nmean o s1) /\
       ar_var a' = Some (nmean o (map (fun s => nsq o (nsub o s (nmean o s1))) s2)) /\
       (nisnan o (nmean o (map (fun s => nsq o (nsub o s (nmean o s1))) s2)) = true -> r = Err ValueError) /\
       (so_ci opts = FINITE_SAMPLE ->
          nleb o (so_tau opts) (nint o 0) || nleb o (so_burn opts) (nint o 1) || nleb o (so_subg opts) (nint o 0) = true ->
          r = Err ValueError)).
  Proof.
    intros Ea Es h g2 Ef. destruct (absorb_ci _ _ _ _ _ _ _ _ Ea) as [_ Eeta].
    assert (Hf0 : fold a1 0 = Ok f0) by (unfold fold; rewrite Es; reflexivity).
    unfold ss_update. rewrite Ea, Hf0, Eeta, Ef.
    split.
    - intros ->. cbn [negb]. unfold set_var, set_ate, set_ci, set_eta. cbn [ar_ci ar_eta ar_ate ar_var ar_pulled ar_split ar_delta].
      rewrite Es. reflexivity.
    - intros -> h1 s1 h2 s2 E1 E2 a' g' r. cbn [negb].
      rewrite (score1_eq (set_eta a1 h) f0 f1 Es). cbn [set_eta ar_eta]. rewrite E1. cbn [fst snd].
      rewrite (score1_eq (set_ate _ _) f0 f1) by exact Es. cbn [set_eta set_ate ar_eta]. rewrite E2. cbn [fst snd].
      destruct (nisnan o _) eqn:Ev; [intros E; injection E as <- <- <-; simpl; auto 7|].
      match goal with |- context [fold ?x 1] => assert (Hf1 : fold x 1 = Ok f1) by (unfold fold; cbn; rewrite Es; reflexivity); rewrite Hf1; clear Hf1 end.
      intros E. cut (g' = g2 /\ ar_ate a' = Some (nmean o s1) /\
        ar_var a' = Some (nmean o (map (fun s => nsq o (nsub o s (nmean o s1))) s2)) /\
       (so_ci opts = FINITE_SAMPLE ->
          nleb o (so_tau opts) (nint o 0) || nleb o (so_burn opts) (nint o 1) || nleb o (so_subg opts) (nint o 0) = true ->
          r = Err ValueError)); [intuition discriminate|]. revert E.
      destruct (so_ci opts).
      + destruct (chi2_ci o w _ delta _) as [l u]. intros E; injection E as <- <- <-; simpl. intuition discriminate.
      + match goal with |- context [score1 eo ?x] => destruct (score1 eo x) as [a7 [s3|e]] eqn:E7 end;
          apply score1_frame in E7 as (_ & _ & _ & _ & R1 & R2); simpl in R1, R2.
        * destruct (clt_ci o w _ _ _ _ _) as [l u]. intros E; injection E as <- <- <-; simpl. intuition discriminate.
        * intros E; injection E as <- <- <-. intuition discriminate.
      + destruct (_ || _ || _); [intros E; injection E as <- <- <-; simpl; auto|].
        destruct (e_width eo _ _ _ _) as [ew|]; [|intros E; injection E as <- <- <-; simpl; intuition discriminate].
        destruct (nltb o _ (so_burn opts)); [intros E; injection E as <- <- <-; simpl; intuition discriminate|].
        destruct ew as [x|]; [|intros E; injection E as <- <- <-; simpl; intuition discriminate].
        destruct (fs_ci o _ _) as [l u]. intros E; injection E as <- <- <-; simpl; intuition discriminate.
      + intros E; injection E as <- <- <-; simpl; auto.
  Qed.

  (** ** C34: arms equal up to ci and delta behave alike *)
  Lemma same_update opts (a b : arm) d delta g : same_but_ci a b ->
    let A := ss_update o vnone eo w tr opts a d delta g in
    let B := ss_update o vnone eo w tr opts b d delta g in
    same_but_ci (fst (fst A)) (fst (fst B)) /\ snd (fst A) = snd (fst B) /\ snd A = snd B.
  Proof.
    destruct a as [ca ha ta va pa sa da], b as [cb hb tb vb pb sb db]. unfold same_but_ci. simpl.
    intros (-> & -> & -> & -> & ->). unfold ss_update.
    assert (Hab : exists x y (p : unit * G * option exn), absorb o vnone w tr (so_stable opts) (mkArm ca hb tb vb pb sb da) d delta g = ((x, snd (fst p)), snd p) /\
                   absorb o vnone w tr (so_stable opts) (mkArm cb hb tb vb pb sb db) d delta g = ((y, snd (fst p)), snd p) /\
                   same_but_ci x y).
    { unfold absorb. destruct (negb _); [exists (mkArm ca hb tb vb pb sb da), (mkArm cb hb tb vb pb sb db), ((tt, g), Some ValueError); unfold same_but_ci; auto 8|].
      destruct (split_new w tr d g) as [[ns|x] g1]; cbn [ar_split].
      - destruct sb as [fs|]; [destruct (so_stable opts)|].
        + cbn [ar_split ar_pulled ar_ci ar_eta ar_ate ar_var]. destruct (append_folds vnone fs ns) as [fs' e].
          do 2 eexists. exists ((tt, g1), e). split; [reflexivity|]. split; [reflexivity|]. unfold same_but_ci. simpl. auto 8.
        + do 2 eexists. exists ((tt, g1), None). split; [reflexivity|]. split; [reflexivity|]. unfold same_but_ci. simpl. auto 8.
        + do 2 eexists. exists ((tt, g1), None). split; [reflexivity|]. split; [reflexivity|]. unfold same_but_ci. simpl. auto 8.
      - do 2 eexists. exists ((tt, g1), Some x). split; [reflexivity|]. split; [reflexivity|]. unfold same_but_ci. simpl. auto 8. }
    destruct Hab as (x & y & [[[] g1] e] & -> & -> & Hs). cbn [fst snd]. clear ca cb da hb tb vb pb sb db.
    destruct x as [ca ha ta va pa sa da], y as [cb hb tb vb pb sb db]. unfold same_but_ci in Hs. simpl in Hs.
    destruct Hs as (-> & -> & -> & -> & ->). unfold same_but_ci.
    destruct e as [x|]; [simpl; auto 8|]. unfold score1, fold, set_var, set_eta, set_ate, set_ci. cbv zeta.
    cbn [ar_split ar_eta ar_ci ar_ate ar_var ar_pulled ar_delta].
    destruct sb as [fs|]; [|simpl; auto 8]. destruct (nth_error fs 0) as [f0|]; [|simpl; auto 8].
    destruct (e_fit eo hb f0 g1) as [[h g2] [x|]]; [simpl; auto 8|]. destruct (e_enough eo h); cbn [negb]; [|simpl; auto 8].
    destruct (nth_error fs 1) as [f1|] eqn:En; [|simpl; auto 8].
    destruct (e_score eo h f1) as [h1 [s1|]]; cbn [ar_split ar_eta ar_ci ar_ate ar_var ar_pulled ar_delta]; rewrite ?En; [|simpl; auto 8].
    destruct (e_score eo h1 f1) as [h2 [s2|]]; cbn [ar_split ar_eta ar_ci ar_ate ar_var ar_pulled ar_delta]; rewrite ?En; [|simpl; auto 8].
    destruct (nisnan o _); [simpl; auto 8|].
    destruct (so_ci opts).
    - destruct (chi2_ci o w _ delta _) as [l u]. simpl; auto 8.
    - destruct (e_score eo h2 f1) as [h3 [s3|]]; cbn [ar_split ar_eta ar_ci ar_ate ar_var ar_pulled ar_delta]; [|simpl; auto 8].
      destruct (clt_ci o w _ _ _ _ _) as [l u]. simpl; auto 8.
    - destruct (_ || _ || _); [simpl; auto 8|]. destruct (e_width eo _ _ _ _) as [ew|]; [|simpl; auto 8].
      destruct (nltb o _ (so_burn opts)); [simpl; auto 8|]. destruct ew as [x|]; [|simpl; auto 8].
      destruct (fs_ci o _ _) as [l u]. simpl; auto 8.
    - simpl; auto 8.
  Qed.

  Lemma same_feed opts h : forall (a b : arm) g, same_but_ci a b ->
    let A := feed (ss_update o vnone eo w tr opts) a g h in
    let B := feed (ss_update o vnone eo w tr opts) b g h in
    same_but_ci (fst (fst A)) (fst (fst B)) /\ snd (fst A) = snd (fst B) /\ snd A = snd B.
  Proof.
    induction h as [|[d delta] h IH]; intros a b g Hs; [simpl; auto|]. cbn [feed]. cbv zeta in IH |- *.
    pose proof (same_update opts a b d delta g Hs) as Hu. cbv zeta in Hu.
    destruct (ss_update o vnone eo w tr opts a d delta g) as [[a1 g1] r1], (ss_update o vnone eo w tr opts b d delta g) as [[b1 g1'] r1'].
    cbn [fst snd] in Hu. destruct Hu as (Hs1 & <- & <-). specialize (IH a1 b1 g1 Hs1).
    destruct (feed _ a1 g1 h) as [[a2 g2] rs], (feed _ b1 g1 h) as [[b2 g2'] rs']. cbn [fst snd] in *.
    destruct IH as (? & ? & ->). auto.
  Qed.

  (** the interval stored after a history is the last one returned *)
  Lemma feed_ci opts h : forall (a : arm) g,
    ar_ci (fst (fst (feed (ss_update o vnone eo w tr opts) a g h))) =
    fold_left (fun c r => match r with Ok (l, u) => (Some l, Some u) | Err _ => c end)
              (snd (feed (ss_update o vnone eo w tr opts) a g h)) (ar_ci a).
  Proof.
    induction h as [|[d delta] h IH]; intros a g; [reflexivity|]. cbn [feed].
    destruct (ss_update o vnone eo w tr opts a d delta g) as [[a1 g1] r] eqn:Eu. specialize (IH a1 g1).
    destruct (feed _ a1 g1 h) as [[a2 g2] rs]. cbn [fst snd fold_left] in *. rewrite IH. f_equal.
    destruct r as [[l u]|e]; [apply (ss_ok_ci _ _ _ _ _ _ _ _ _ Eu)|apply (ss_err_ci _ _ _ _ _ _ _ _ Eu)].
  Qed.
End Inv.

(** ** logs *)
Section Logs.
  Context {N V H G : Type} (o : numops N) (vnone : V) (eo : eta_ops N V H G) (w : arm_world N G)
          (tr : expdata V -> res (expdata V)).
  Notation larm := (arm N V (H * list (event V))).
  Notation lo := (logged_eta eo).

  Lemma absorb_log stable (a a1 : larm) d delta g g1 e : absorb o vnone w tr stable a d delta g = ((a1, g1), e) -> log_of a1 = log_of a.
  Proof. intros E. unfold log_of. rewrite (proj2 (absorb_ci o vnone w tr _ _ _ _ _ _ _ _ E)). reflexivity. Qed.

  Lemma score1_log (a a' : larm) r : score1 lo a = (a', r) ->
    (log_of a' = log_of a /\ (forall f, fold a 1 <> Ok f)) \/ exists f, fold a 1 = Ok f /\ log_of a' = log_of a ++ [EScore f].
  Proof.
    unfold score1, log_of. destruct (fold a 1) as [f|e]; [|intros E; injection E as <- <-; left; split; [reflexivity|discriminate]].
    simpl. destruct (e_score eo (fst (ar_eta a)) f) as [h r0]. simpl. intros E. injection E as <- <-. simpl. right. exists f. auto.
  Qed.

  Lemma ss_log opts (a : larm) d delta g a1 g1 e f0 f1 :
    absorb o vnone w tr (so_stable opts) a d delta g = ((a1, g1), e) -> (e = None -> ar_split a1 = Some [f0; f1]) ->
    forall a' g' r, ss_update o vnone lo w tr opts a d delta g = ((a', g'), r) ->
    (e <> None -> log_of a' = log_of a) /\
    (e = None -> exists k, k <= 3 /\ log_of a' = log_of a ++ EFit f0 :: repeat (EScore f1) k).
  Proof.
    intros Ea Hf a' g' r. unfold ss_update. rewrite Ea. rewrite <- (absorb_log _ _ _ _ _ _ _ _ Ea).
    destruct e as [x|]; [intros E; injection E as <- <- <-; split; [reflexivity|discriminate]|].
    specialize (Hf eq_refl). intros Hu. split; [congruence|]. intros _.
    unfold fold in Hu at 1. rewrite Hf in Hu. cbn [nth_error] in Hu. cbn [e_fit logged_eta] in Hu.
    destruct (e_fit eo (fst (ar_eta a1)) f0 g1) as [[h g2] x] eqn:Ef. 
    assert (Hfit : log_of (set_eta a1 (h, snd (ar_eta a1) ++ [EFit f0])) = log_of a1 ++ [EFit f0]) by reflexivity.
    set (a2 := set_eta a1 (h, snd (ar_eta a1) ++ [EFit f0])) in *.
    assert (Hk : forall k (b : larm), k <= 3 -> log_of b = log_of a2 ++ repeat (EScore f1) k ->
              exists k, k <= 3 /\ log_of b = log_of a1 ++ EFit f0 :: repeat (EScore f1) k).
    { intros k b Hk Hb. exists k. split; [exact Hk|]. rewrite Hb, Hfit, <- app_assoc. reflexivity. }
    assert (Hs2 : ar_split a2 = Some [f0; f1]) by exact Hf.
    assert (H0 : log_of a2 = log_of a2 ++ repeat (EScore f1) 0) by (simpl; rewrite app_nil_r; reflexivity).
    assert (Hsc : forall k (b b' : larm) r, ar_split b = Some [f0; f1] -> log_of b = log_of a2 ++ repeat (EScore f1) k ->
              score1 lo b = (b', r) -> ar_split b' = Some [f0; f1] /\ log_of b' = log_of a2 ++ repeat (EScore f1) (S k)).
    { intros k b b' r' Hb Hl Hs. pose proof (score1_frame _ _ _ _ Hs) as (Hsp & _). split; [congruence|].
      apply score1_log in Hs as [[_ Hn]|(f & Hf1 & Hl')]; unfold fold in *; rewrite Hb in *; [destruct (Hn f1 eq_refl)|].
      injection Hf1 as <-. rewrite Hl', Hl, <- app_assoc. f_equal. rewrite <- (Nat.add_1_r k), repeat_app. reflexivity. }
    clearbody a2. destruct x as [x|]; [injection Hu as <- <- <-; apply (Hk 0); [lia|exact H0]|].
    destruct (e_enough lo _); cbn [negb] in Hu; [|injection Hu as <- <- <-; apply (Hk 0); [lia|exact H0]].
    destruct (score1 lo a2) as [a3 [s1|x]] eqn:E3; destruct (Hsc 0 _ _ _ Hs2 H0 E3) as [S3 L3];
      [|injection Hu as <- <- <-; apply (Hk 1); [lia|exact L3]].
    destruct (score1 lo (set_ate a3 _)) as [a5 [s2|x]] eqn:E5; destruct (Hsc 1 (set_ate a3 _) _ _ S3 L3 E5) as [S5 L5];
      [|injection Hu as <- <- <-; apply (Hk 2); [lia|exact L5]].
    destruct (nisnan o _); [injection Hu as <- <- <-; apply (Hk 2); [lia|exact L5]|].
    destruct (fold (set_var a5 _) 1) as [q|]; [|injection Hu as <- <- <-; apply (Hk 2); [lia|exact L5]].
    destruct (so_ci opts).
    - destruct (chi2_ci o w _ delta _) as [l u]. injection Hu as <- <- <-; apply (Hk 2); [lia|exact L5].
    - destruct (score1 lo (set_var a5 _)) as [a7 [s3|x]] eqn:E7; destruct (Hsc 2 (set_var a5 _) _ _ S5 L5 E7) as [S7 L7].
      + destruct (clt_ci o w _ _ _ _ _) as [l u]. injection Hu as <- <- <-; apply (Hk 3); [lia|exact L7].
      + injection Hu as <- <- <-; apply (Hk 3); [lia|exact L7].
    - destruct (_ || _ || _); [injection Hu as <- <- <-; apply (Hk 2); [lia|exact L5]|].
      destruct (e_width lo _ _ _ _) as [ew|]; [|injection Hu as <- <- <-; apply (Hk 2); [lia|exact L5]].
      destruct (nltb o _ (so_burn opts)); [injection Hu as <- <- <-; apply (Hk 2); [lia|exact L5]|].
      destruct ew as [x|]; [|injection Hu as <- <- <-; apply (Hk 2); [lia|exact L5]].
      destruct (fs_ci o _ _) as [l u]. injection Hu as <- <- <-; apply (Hk 2); [lia|exact L5].
    - injection Hu as <- <- <-; apply (Hk 2); [lia|exact L5].
  Qed.
End Logs.
