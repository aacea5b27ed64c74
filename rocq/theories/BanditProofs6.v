(** Single-armed bandits; what the arms are fed (logged runs). *)
From Coq Require Import List Arith ZArith Lia Bool Reals Lra.
From Flocq Require Import Core BinarySingleNaN.
From Verif Require Import PyBase PyLemmas Num NumLemmas BanditModel BanditSpec BanditProofs1 BanditProofs2 BanditProofs3 BanditProofs4 BanditProofs5.
Import ListNotations.
Open Scope nat_scope.

Section P.
  Context {A D G : Type} (ops : arm_ops A D G) (w : world D G) (cfg : config).
  Notation bstate := (bstate (A := A) (G := G)).
  Implicit Types s : bstate.

  Lemma one_reading arms rs : length arms = 1 -> collect ops arms = Ok rs -> exists r, rs = [r].
  Proof.
    intros H1 Hc. pose proof (collect_length ops _ _ Hc). destruct rs as [|r [|]]; simpl in *; try lia. eauto.
  Qed.

  Lemma uniform_single fuel all a g :
    match run Uniform ops w cfg fuel all [a] g with
    | Returned _ s => exceeds (b_total s) (c_limit cfg) /\
        forall t r, S t < length (b_cum s) -> recorded s 0 t = Some r -> undecided r
    | Raised _ _ => True
    | OutOfFuel s => forall t r, recorded s 0 t = Some r -> undecided r
    end.
  Proof.
    assert (match run Uniform ops w cfg fuel all [a] g with
    | Returned _ s => exceeds (b_total s) (c_limit cfg) /\
        forall t r, S t < length (b_cum s) -> recorded s 0 t = Some r -> undecided r
    | Raised _ _ => True
    | OutOfFuel s => shape ops 1 s /\ forall t r, recorded s 0 t = Some r -> undecided r
    end) as H.
    2:{ destruct (run Uniform ops w cfg fuel all [a] g); tauto. }
    apply run_inv; [|discriminate|].
    - intros _. split; [apply (shape_init ops [a] g)|]. intros t r. unfold recorded. simpl. destruct t; discriminate.
    - intros s [Hs Hun]. pose proof (uniform_step_inv ops w cfg all s) as H.
      assert (Hrec : forall arms' g2 rs t, length arms' = 1 -> collect ops arms' = Ok rs ->
        recorded (u_next cfg s arms' g2 rs) 0 t = if t =? length (b_cum s) then nth_error rs 0 else recorded s 0 t).
      { intros arms' g2 rs t H1 Hc. pose proof (collect_length ops _ _ Hc).
        apply (recorded_next ops s arms' g2 rs (map (fun _ => c_units cfg) (b_arms s)) (b_total s + length (b_arms s) * c_units cfg) (b_cand s) 1 0 t Hs); lia. }
      destruct (uniform_step ops w cfg all s) as [s'|best s'|e s']; [| |exact I].
      + destruct H as (start & d & g1 & arms' & g2 & rs & b & _ & _ & Hp & Hc & -> & Ho & He).
        assert (Hal : length arms' = 1) by (eapply pull_all_len'; [apply Hs|exact Hp]).
        split; [apply shape_u_next; assumption|]. intros t r. rewrite Hrec by assumption.
        destruct (t =? length (b_cum s)); [|apply Hun].
        destruct (one_reading _ _ Hal Hc) as (r0 & ->). simpl. intros E; injection E as <-.
        unfold check_end in He. simpl in He. unfold undecided.
        destruct (fisinf (r_ucb r0)); [auto|]. simpl in He. destruct (fisnan (r_var r0)); [auto|discriminate].
      + destruct H as (start & d & g1 & arms' & g2 & rs & _ & _ & Hp & Hc & -> & Hx).
        assert (Hal : length arms' = 1) by (eapply pull_all_len'; [apply Hs|exact Hp]).
        split.
        * destruct Hx as [[Ho _]|[_ He]]; [apply over_limit_exceeds, Ho|].
          destruct (one_reading _ _ Hal Hc) as (r0 & ->). apply check_end_single in He. discriminate.
        * intros t r Ht. rewrite Hrec by assumption. simpl in Ht. rewrite app_length in Ht. simpl in Ht.
          assert ((t =? length (b_cum s)) = false) as -> by (apply Nat.eqb_neq; lia). apply Hun.
  Qed.

  Lemma uniform_single_raises fuel all a g d g1 a' g2 r :
    get_data w cfg all (match all with Some _ => a_units ops a | None => 0 end) g = (Ok d, g1) ->
    a_update ops a d (delta_of cfg [a]) g1 = ((a', g2), None) ->
    reports ops a' r -> fisinf (r_ucb r) = false -> fisnan (r_var r) = false ->
    over_limit (c_units cfg) (c_limit cfg) = Ok false ->
    exists s, run Uniform ops w cfg (S fuel) all [a] g = Raised ValueError s.
  Proof.
    intros Hd Hu Hr Hi Hn Ho. apply read_reports in Hr.
    simpl. unfold run_uniform. cbn [loop]. unfold uniform_step. cbn [b_arms b_g binit].
    replace (match all with Some _ => Ok (a_units ops a) | None => Ok 0 end)
      with (@Ok nat (match all with Some _ => a_units ops a | None => 0 end)) by (destruct all; reflexivity).
    rewrite Hd. cbn [pull_all]. rewrite Hu, Hr. cbn [b_total binit length Nat.add Nat.mul]. rewrite Nat.add_0_r, Ho.
    cbn [collect mapM]. unfold collect. cbn [mapM]. rewrite Hr. cbn [bind].
    rewrite check_end_single_raises by assumption. eauto.
  Qed.

  Lemma select_single a g : exists e, select_arms ops w [a] g = (Err e, g) /\
    (forall r, collect ops [a] = Ok [r] -> e = ValueError).
  Proof.
    unfold select_arms. destruct (collect ops [a]) as [rs|e] eqn:Hc; [|exists e; split; [reflexivity|discriminate]].
    destruct (one_reading [a] rs eq_refl Hc) as (r & ->). exists ValueError. split; [|reflexivity].
    simpl. destruct (fisnan (r_var r)) eqn:En; [reflexivity|].
    assert (feqb (r_var r) (r_var r) = true) as -> by (apply feqb_spec; auto).
    reflexivity.
  Qed.

  Lemma lucb_single fuel all a g :
    match run LUCB ops w cfg (S fuel) all [a] g with
    | Returned _ s => exceeds (c_units cfg) (c_limit cfg) /\ length (b_cum s) = 1
    | Raised e s => (b_cum s <> [] /\ (exists z, c_limit cfg = LInt z) /\ ~ exceeds (c_units cfg) (c_limit cfg)) -> e = ValueError
    | OutOfFuel s => False
    end.
  Proof.
    simpl. unfold run_lucb. pose proof (lucb_start_inv ops w cfg all [a] g) as H.
    pose proof (fun s => lucb_acc_start ops w cfg 1 s [a] g all eq_refl) as Hst.
    destruct (lucb_start ops w cfg all [a] g) as [s| |e s] eqn:Est; [|contradiction|].
    - destruct (Hst s eq_refl) as [Hacc Hlen]. destruct Hacc as (Hs & _ & Htot & _).
      destruct H as (d & g1 & arms' & g2 & rs & _ & Hp & Hc & Es).
      assert (Ht : b_total s = c_units cfg) by (rewrite Htot, Hlen; simpl; lia).
      cbn [loop]. unfold lucb_step. rewrite Ht.
      destruct (over_limit (c_units cfg) (c_limit cfg)) as [[]|e] eqn:Eo.
      + destruct (do rs0 <- collect ops (b_arms s); argmin_arms (map r_var rs0)).
        * split; [apply over_limit_exceeds, Eo|exact Hlen].
        * intros (_ & _ & Hne). exfalso. apply Hne, over_limit_exceeds, Eo.
      + assert (Hal : length (b_arms s) = 1) by apply Hs.
        destruct (b_arms s) as [|a1 [|]] eqn:Ea; simpl in Hal; try lia.
        destruct (select_single a1 (b_g s)) as (e & -> & He). intros _.
        assert (Ea' : arms' = [a1]) by (rewrite <- Ea, Es; reflexivity). subst arms'.
        destruct (one_reading [a1] rs eq_refl Hc) as (r & ->). eapply He; eauto.
      + intros (_ & (z & Hz) & _). rewrite Hz in Eo. discriminate.
    - intros (Hne & _). exfalso. apply Hne. unfold lucb_start in Est.
      destruct (get_data w cfg all 0 g) as [[d|e0] g1]; [|injection Est as _ <-; reflexivity].
      destruct (pull_all ops d (delta_of cfg [a]) [a] g1) as [[arms' g2] [rs|e0]]; [discriminate|injection Est as _ <-; reflexivity].
  Qed.

  Lemma se_single fuel all a g : run SE ops w cfg (S fuel) all [a] g = Returned [0] (binit [a] g).
  Proof. reflexivity. Qed.
End P.

(** * logged runs are the same runs *)
Section Log.
  Context {A D G : Type} (ops : arm_ops A D G) (w : world D G) (cfg : config).
  Notation LA := (A * list (D * F))%type.
  Notation lops := (logged ops).

  Definition erase_step {R} (x : step (bstate (A := LA) (G := G)) R) : step (bstate (A := A) (G := G)) R :=
    match x with Continue s => Continue (erase s) | Finish r s => Finish r (erase s) | Fail e s => Fail e (erase s) end.

  Lemma read_logged x : read lops x = read ops (fst x).
  Proof. reflexivity. Qed.
  Lemma collect_logged l : collect lops l = collect ops (map fst l).
  Proof. unfold collect. induction l as [|x l IH]; simpl; [reflexivity|]. rewrite read_logged, IH. reflexivity. Qed.
  Lemma delta_logged l : delta_of cfg (map (@fst A (list (D * F))) l) = delta_of cfg l.
  Proof. unfold delta_of. rewrite map_length. reflexivity. Qed.

  Lemma pull_all_logged d delta : forall l g,
    pull_all ops d delta (map fst l) g =
    (let '((l', g'), r) := pull_all lops d delta l g in ((map fst l', g'), r)).
  Proof.
    induction l as [|x l IH]; intros g; simpl; [reflexivity|].
    destruct (a_update ops (fst x) d delta g) as [[a' g1] [e|]]; [reflexivity|].
    rewrite read_logged. simpl. destruct (read ops a'); [|reflexivity].
    rewrite IH. destruct (pull_all lops d delta l g1) as [[l' g2] [rs|e]]; reflexivity.
  Qed.
  Lemma map_modify_const {X Y} (h : X -> Y) i y : forall l, map h (modify i (fun _ => y) l) = modify i (fun _ => h y) (map h l).
  Proof. revert i. induction i as [|i IH]; intros [|x l]; simpl; try reflexivity. rewrite IH. reflexivity. Qed.
  Lemma pull_list_logged all delta is : forall l g,
    pull_list ops w cfg all delta is (map fst l) g =
    (let '((l', g'), r) := pull_list lops w cfg all delta is l g in ((map fst l', g'), r)).
  Proof.
    induction is as [|i is IH]; intros l g; simpl; [reflexivity|].
    rewrite nth_error_map. destruct (nth_error l i) as [x|]; simpl; [|reflexivity].
    destruct (get_data w cfg all (a_units ops (fst x)) g) as [[d|e] g1]; [|reflexivity].
    destruct (a_update ops (fst x) d delta g1) as [[a' g2] [e|]].
    - rewrite map_modify_const. reflexivity.
    - rewrite <- IH, map_modify_const. reflexivity.
  Qed.
  Lemma select_logged l g : select_arms ops w (map fst l) g = select_arms lops w l g.
  Proof. unfold select_arms. rewrite collect_logged, map_length. reflexivity. Qed.

  Lemma uniform_logged all s : uniform_step ops w cfg all (erase s) = erase_step (uniform_step lops w cfg all s).
  Proof.
    unfold uniform_step. cbn [b_arms b_g b_total erase].
    assert (E : (match all with Some _ => match map fst (b_arms s) with [] => Err IndexError | a :: _ => Ok (a_units ops a) end | None => Ok 0 end) =
      (match all with Some _ => match b_arms s with [] => Err IndexError | a :: _ => Ok (a_units lops a) end | None => Ok 0 end)).
    { destruct all; [|reflexivity]. destruct (b_arms s); reflexivity. }
    rewrite E. clear E.
    destruct (match all with Some _ => match b_arms s with [] => Err IndexError | a :: _ => Ok (a_units lops a) end | None => Ok 0 end) as [start|e]; [|reflexivity].
    destruct (get_data w cfg all start (b_g s)) as [[d|e] g1]; [|reflexivity].
    rewrite pull_all_logged, delta_logged.
    destruct (pull_all lops d (delta_of cfg (b_arms s)) (b_arms s) g1) as [[arms' g2] [rs|e]]; [|reflexivity].
    rewrite map_length, <- collect_logged, map_map.
    destruct (over_limit _ _) as [[]|e]; [| |reflexivity].
    - destruct (do rs' <- collect lops arms'; argmin_arms (map r_var rs')); reflexivity.
    - destruct (do rs' <- collect lops arms'; check_end cfg rs') as [[[] b]|e]; reflexivity.
  Qed.
  Lemma lucb_logged all s : lucb_step ops w cfg all (erase s) = erase_step (lucb_step lops w cfg all s).
  Proof.
    unfold lucb_step. cbn [b_arms b_g b_total erase].
    rewrite <- collect_logged, select_logged, delta_logged, map_length.
    destruct (over_limit _ _) as [[]|e]; [| |reflexivity].
    - destruct (do rs' <- collect lops (b_arms s); argmin_arms (map r_var rs')); reflexivity.
    - destruct (select_arms lops w (b_arms s) (b_g s)) as [[is|e] g1]; [|reflexivity].
      rewrite pull_list_logged.
      destruct (pull_list lops w cfg all (delta_of cfg (b_arms s)) is (b_arms s) g1) as [[arms' g2] [e|]]; [reflexivity|].
      rewrite <- collect_logged. destruct (collect lops arms') as [rs|e]; [|reflexivity].
      destruct (check_end cfg rs) as [[[] b]|e]; reflexivity.
  Qed.
  Lemma se_logged all s : se_step ops w cfg all (erase s) = erase_step (se_step lops w cfg all s).
  Proof.
    unfold se_step. cbn [b_arms b_g b_total b_cand erase].
    destruct (negb (1 <? length (b_cand s))); [reflexivity|].
    rewrite <- collect_logged, delta_logged, map_length.
    destruct (over_limit _ _) as [[]|e]; [| |reflexivity].
    - destruct (do rs' <- collect lops (b_arms s); argmin_arms (map r_var rs')); reflexivity.
    - rewrite pull_list_logged.
      destruct (pull_list lops w cfg all (delta_of cfg (b_arms s)) (b_cand s) (b_arms s) (b_g s)) as [[arms' g2] [e|]]; [reflexivity|].
      rewrite <- collect_logged. destruct (collect lops arms') as [rs|e]; [|reflexivity].
      destruct (eliminate (b_cand s) rs) as [c|e]; [|reflexivity]. destruct (length c =? 1); reflexivity.
  Qed.
  Lemma loop_erase {R} fuel : forall body (lbody : bstate (A := LA) (G := G) -> step _ R), (forall s, body (erase s) = erase_step (lbody s)) ->
    forall s, loop fuel body (erase s) = erase_outcome (loop fuel lbody s).
  Proof.
    induction fuel as [|n IH]; intros body lbody H s; simpl; [reflexivity|].
    rewrite H. destruct (lbody s); simpl; [apply IH; exact H|reflexivity|reflexivity].
  Qed.
  Lemma binit_erase (arms : list A) (g : G) : binit arms g = erase (binit (with_log (D := D) arms) g).
  Proof. unfold binit, erase, with_log. simpl. rewrite !map_map, map_length, map_id. reflexivity. Qed.

  Lemma set_erase (arms : list A) (l : list LA) (g g1 : G) :
    erase (set_arms (binit (with_log arms) g) l g1) = set_arms (binit arms g) (map fst l) g1.
  Proof. unfold binit, erase, with_log, set_arms. simpl. rewrite !map_map, map_length. reflexivity. Qed.

  Lemma run_logged alg fuel all arms g :
    run alg ops w cfg fuel all arms g = erase_outcome (run alg lops w cfg fuel all (with_log arms) g).
  Proof.
    assert (Em : map fst (with_log (D := D) arms) = arms) by (unfold with_log; rewrite map_map, map_id; reflexivity).
    destruct alg; simpl.
    - unfold run_uniform. rewrite binit_erase. apply loop_erase, uniform_logged.
    - unfold run_lucb, lucb_start. 
      destruct (get_data w cfg all 0 g) as [[d|e] g1]; cbn [erase_outcome].
      2:{ rewrite set_erase, Em. reflexivity. }
      pose proof (pull_all_logged d (delta_of cfg arms) (with_log arms) g1) as E. rewrite Em in E. rewrite E.
      rewrite <- (delta_logged (with_log arms)), Em. clear E.
      destruct (pull_all lops d (delta_of cfg arms) (with_log arms) g1) as [[arms' g2] [rs|e]]; cbn [erase_outcome].
      + rewrite <- (loop_erase fuel _ _ (lucb_logged all)). f_equal.
        unfold erase at 1, record_round. cbn [b_arms b_g b_hist b_smp b_cum b_total b_cand].
        rewrite <- set_erase. unfold with_log. rewrite map_map, map_length. reflexivity.
      + rewrite set_erase. reflexivity.
    - unfold run_se. rewrite binit_erase. apply loop_erase, se_logged.
  Qed.

  (** * uniform: all arms see the same batches *)
  Definition fed (K : nat) (s : bstate (A := LA) (G := G)) : Prop :=
    exists batches : list D, length batches = length (b_cum s) /\
      forall x, In x (b_arms s) -> snd x = map (fun b => (b, fdiv (c_error_prob cfg) (f_of_nat K))) batches.
  Lemma pull_all_fed d delta : forall l g l' g' rs, pull_all lops d delta l g = ((l', g'), Ok rs) ->
    Forall2 (fun x x' => snd x' = snd x ++ [(d, delta)]) l l'.
  Proof.
    induction l as [|x l IH]; simpl; intros g l' g' rs H; [injection H as <- <- <-; constructor|].
    destruct (a_update ops (fst x) d delta g) as [[a' g1] [e|]]; [discriminate|].
    rewrite read_logged in H. simpl in H. destruct (read ops a'); [|discriminate].
    destruct (pull_all lops d delta l g1) as [[l2 g2] [rs2|e]] eqn:E; [|discriminate].
    injection H as <- <- <-. constructor; [reflexivity|]. eapply IH; eauto.
  Qed.
  Lemma run_uniform_fed fuel all arms g :
    match run Uniform lops w cfg fuel all (with_log arms) g with
    | Returned _ s => fed (length arms) s | Raised _ _ => True | OutOfFuel s => fed (length arms) s end.
  Proof.
    assert (match run Uniform lops w cfg fuel all (with_log arms) g with
    | Returned _ s => fed (length arms) s | Raised _ _ => True
    | OutOfFuel s => shape lops (length arms) s /\ fed (length arms) s end) as H.
    2:{ destruct (run Uniform lops w cfg fuel all (with_log arms) g); tauto. }
    apply run_inv; [|discriminate|].
    - intros _. split. { pose proof (shape_init lops (with_log arms) g) as H. unfold with_log in H at 1. rewrite map_length in H. exact H. }
      exists []. split; [reflexivity|]. simpl. unfold with_log. intros x Hx. apply in_map_iff in Hx as (a & <- & _). reflexivity.
    - intros s [Hs (bs & Hb & Hf)].
      assert (HN : forall d g1 arms' g2 rs, pull_all lops d (delta_of cfg (b_arms s)) (b_arms s) g1 = ((arms', g2), Ok rs) ->
               fed (length arms) (u_next cfg s arms' g2 rs)).
      { intros d g1 arms' g2 rs Hp. exists (bs ++ [d]). split; [simpl; rewrite !app_length, Hb; reflexivity|].
        simpl. intros x Hx. pose proof (pull_all_fed _ _ _ _ _ _ _ Hp) as HF.
        assert (Hd : delta_of cfg (b_arms s) = fdiv (c_error_prob cfg) (f_of_nat (length arms))) by (unfold delta_of; rewrite (sh_arms _ _ _ Hs); reflexivity).
        rewrite Hd in HF. rewrite map_app. simpl.
        clear -HF Hf Hx. induction HF as [|y y' l l' E HF IH]; [contradiction|].
        destruct Hx as [<-|Hx]; [rewrite E, Hf by (left; reflexivity); reflexivity|]. apply IH; [|exact Hx]. intros z Hz. apply Hf. right; exact Hz. }
      pose proof (uniform_step_inv lops w cfg all s) as H. pose proof (uniform_shape lops w cfg (length arms) all s Hs) as HS.
      destruct (uniform_step lops w cfg all s) as [s'|best s'|e s']; [| |exact I].
      + destruct H as (start & d & g1 & arms' & g2 & rs & b & _ & _ & Hp & Hc & E & _). split; [exact HS|]. rewrite E. eapply HN; eauto.
      + destruct H as (start & d & g1 & arms' & g2 & rs & _ & _ & Hp & Hc & E & _). rewrite E. eapply HN; eauto.
  Qed.
End Log.
