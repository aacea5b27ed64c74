(** Basic facts about the bandit model: step inversion, shape of the histories. *)
From Coq Require Import List Arith ZArith Lia Bool Reals Lra.
From Flocq Require Import Core BinarySingleNaN.
From Verif Require Import PyBase PyLemmas Num NumLemmas BanditModel BanditSpec.
Import ListNotations.
Open Scope nat_scope.

Lemma push_length {X} (h : list (list X)) xs : length h = length xs -> length (push h xs) = length h.
Proof. intros H. unfold push. rewrite map2_length, H, Nat.min_id. reflexivity. Qed.
Lemma nth_push {X} (h : list (list X)) xs j :
  nth_error (push h xs) j =
  match nth_error h j, nth_error xs j with Some l, Some x => Some (l ++ [x]) | _, _ => None end.
Proof. apply nth_error_map2. Qed.
Lemma Forall_push {X} (h : list (list X)) xs n :
  Forall (fun l => length l = n) h -> Forall (fun l => length l = S n) (push h xs).
Proof.
  unfold push. revert xs; induction h as [|l h IH]; intros [|x xs] H; simpl; constructor.
  - inversion H; subst. rewrite app_length. simpl. lia.
  - apply IH. inversion H; assumption.
Qed.

Lemma nth_error_snoc {X} (l : list X) x t :
  nth_error (l ++ [x]) t = if t =? length l then Some x else nth_error l t.
Proof.
  destruct (Nat.eqb_spec t (length l)) as [->|H].
  - rewrite nth_error_app2, Nat.sub_diag by lia. reflexivity.
  - destruct (Nat.lt_ge_cases t (length l)).
    + apply nth_error_app1; assumption.
    + rewrite nth_error_app2 by lia.
      replace (nth_error l t) with (@None X) by (symmetry; apply nth_error_None; lia).
      destruct (t - length l) as [|k] eqn:E; [lia|]. destruct k; reflexivity.
Qed.

Section P.
  Context {A D G : Type} (ops : arm_ops A D G) (w : world D G) (cfg : config).
  Notation bstate := (bstate (A := A) (G := G)).
  Implicit Types s : bstate.

  Lemma read_reports a r : read ops a = Ok r <-> reports ops a r.
  Proof.
    unfold read, reports, scaled. destruct (a_ci ops a) as [l u]. simpl.
    split.
    - destruct l as [l|]; simpl; [|discriminate]. destruct u as [u|]; simpl; [|discriminate].
      destruct (a_var ops a) as [v|]; simpl; [|discriminate].
      intros H. injection H as <-. exists l, u, v. repeat split; reflexivity.
    - intros (l' & u' & v' & Hc & Hv & H1 & H2 & H3). injection Hc as -> ->. rewrite Hv. simpl.
      destruct r; simpl in *; subst. reflexivity.
  Qed.

  Lemma pull_all_ok d delta arms : forall g arms' g' rs,
    pull_all ops d delta arms g = ((arms', g'), Ok rs) ->
    collect ops arms' = Ok rs /\ length arms' = length arms.
  Proof.
    induction arms as [|a rest IH]; simpl; intros g arms' g' rs H.
    - injection H as <- <- <-. split; reflexivity.
    - destruct (a_update ops a d delta g) as [[a' g1] [e|]]; [discriminate|].
      destruct (read ops a') as [r|e] eqn:Er; [|discriminate].
      destruct (pull_all ops d delta rest g1) as [[rest' g2] [rs'|e]] eqn:Ep; [|discriminate].
      injection H as <- <- <-. destruct (IH _ _ _ _ Ep) as [H1 H2].
      unfold collect in *. simpl. rewrite Er. simpl. rewrite H1. simpl. split; [reflexivity|]. rewrite H2. reflexivity.
  Qed.
  Lemma pull_all_length d delta arms : forall g,
    length (fst (fst (pull_all ops d delta arms g))) = length arms.
  Proof.
    induction arms as [|a rest IH]; simpl; intros g; [reflexivity|].
    destruct (a_update ops a d delta g) as [[a' g1] [e|]]; [reflexivity|].
    destruct (read ops a') as [r|e]; [|reflexivity].
    specialize (IH g1). destruct (pull_all ops d delta rest g1) as [[rest' g2] [rs'|e]]; simpl in *; rewrite IH; reflexivity.
  Qed.
  Lemma pull_list_length all delta is : forall arms g,
    length (fst (fst (pull_list ops w cfg all delta is arms g))) = length arms.
  Proof.
    induction is as [|i is IH]; simpl; intros arms g; [reflexivity|].
    destruct (nth_error arms i) as [a|]; [|reflexivity].
    destruct (get_data w cfg all (a_units ops a) g) as [[d|e] g1]; [|reflexivity].
    destruct (a_update ops a d delta g1) as [[a' g2] [e|]]; simpl.
    - apply modify_length.
    - rewrite IH. apply modify_length.
  Qed.
  Lemma collect_length arms rs : collect ops arms = Ok rs -> length rs = length arms.
  Proof. apply mapM_length. Qed.
  Lemma collect_nth arms rs j a : collect ops arms = Ok rs -> nth_error arms j = Some a ->
    exists r, nth_error rs j = Some r /\ reports ops a r.
  Proof.
    intros H Hj. destruct (mapM_nth _ _ _ _ _ H Hj) as (r & Hr & Hok). exists r. split; [exact Hr|].
    apply read_reports, Hok.
  Qed.

  (** * step inversion *)
  Definition u_next s arms' g2 rs : bstate :=
    record_round (set_arms s arms' g2) rs (map (fun _ => c_units cfg) (b_arms s))
                 (b_total s + length (b_arms s) * c_units cfg).

  Lemma uniform_step_inv all s :
    match uniform_step ops w cfg all s with
    | Fail e s' => True
    | Finish best s' =>
        exists start d g1 arms' g2 rs,
          (all = None \/ exists a, nth_error (b_arms s) 0 = Some a /\ start = a_units ops a) /\
          get_data w cfg all start (b_g s) = (Ok d, g1) /\
          pull_all ops d (delta_of cfg (b_arms s)) (b_arms s) g1 = ((arms', g2), Ok rs) /\
          collect ops arms' = Ok rs /\
          s' = u_next s arms' g2 rs /\
          ((over_limit (b_total s') (c_limit cfg) = Ok true /\ argmin_arms (map r_var rs) = Ok best) \/
           (over_limit (b_total s') (c_limit cfg) = Ok false /\ check_end cfg rs = Ok (true, best)))
    | Continue s' =>
        exists start d g1 arms' g2 rs b,
          (all = None \/ exists a, nth_error (b_arms s) 0 = Some a /\ start = a_units ops a) /\
          get_data w cfg all start (b_g s) = (Ok d, g1) /\
          pull_all ops d (delta_of cfg (b_arms s)) (b_arms s) g1 = ((arms', g2), Ok rs) /\
          collect ops arms' = Ok rs /\
          s' = u_next s arms' g2 rs /\
          over_limit (b_total s') (c_limit cfg) = Ok false /\ check_end cfg rs = Ok (false, b)
    end.
  Proof.
    unfold uniform_step.
    set (st := match all with Some _ => _ | None => Ok 0 end).
    assert (Hst : forall x, st = Ok x -> all = None \/ exists a, nth_error (b_arms s) 0 = Some a /\ x = a_units ops a).
    { intros x. unfold st. destruct all; [|auto]. destruct (b_arms s) as [|a r]; simpl; [discriminate|].
      intros H; injection H as <-. right. eauto. }
    destruct st as [start|e]; [|auto]. specialize (Hst start eq_refl).
    destruct (get_data w cfg all start (b_g s)) as [[d|e] g1] eqn:Eg; [|auto].
    destruct (pull_all ops d _ (b_arms s) g1) as [[arms' g2] [rs|e]] eqn:Ep; [|auto].
    destruct (pull_all_ok _ _ _ _ _ _ _ Ep) as [Hc Hl]. rewrite Hc. simpl bind.
    change (record_round _ rs _ _) with (u_next s arms' g2 rs).
    destruct (over_limit (b_total s + length (b_arms s) * c_units cfg) (c_limit cfg)) as [[]|e] eqn:Eo; [| |auto].
    - destruct (argmin_arms (map r_var rs)) as [best|e] eqn:Ea; [|auto].
      exists start, d, g1, arms', g2, rs. do 5 (split; [assumption || reflexivity|]). left. auto.
    - destruct (check_end cfg rs) as [[[] best]|e] eqn:Ec; [| |auto].
      + exists start, d, g1, arms', g2, rs. do 5 (split; [assumption || reflexivity|]). right. auto.
      + exists start, d, g1, arms', g2, rs, best. do 5 (split; [assumption || reflexivity|]). auto.
  Qed.

  Definition smp_of (is : list nat) (k : nat) : list nat :=
    map (fun i => if existsb (Nat.eqb i) is then c_units cfg else 0) (seq 0 k).
  Definition l_next s is arms' g2 rs : bstate :=
    record_round (set_arms s arms' g2) rs (smp_of is (length (b_arms s))) (b_total s + 2 * c_units cfg).

  Lemma lucb_step_inv all s :
    match lucb_step ops w cfg all s with
    | Fail e s' => True
    | Finish best s' =>
        (s' = s /\ over_limit (b_total s) (c_limit cfg) = Ok true /\
         exists rs, collect ops (b_arms s) = Ok rs /\ argmin_arms (map r_var rs) = Ok best) \/
        (over_limit (b_total s) (c_limit cfg) = Ok false /\
         exists is g1 arms' g2 rs, select_arms ops w (b_arms s) (b_g s) = (Ok is, g1) /\
          pull_list ops w cfg all (delta_of cfg (b_arms s)) is (b_arms s) g1 = ((arms', g2), None) /\
          collect ops arms' = Ok rs /\ s' = l_next s is arms' g2 rs /\ check_end cfg rs = Ok (true, best))
    | Continue s' =>
        over_limit (b_total s) (c_limit cfg) = Ok false /\
         exists is g1 arms' g2 rs b, select_arms ops w (b_arms s) (b_g s) = (Ok is, g1) /\
          pull_list ops w cfg all (delta_of cfg (b_arms s)) is (b_arms s) g1 = ((arms', g2), None) /\
          collect ops arms' = Ok rs /\ s' = l_next s is arms' g2 rs /\ check_end cfg rs = Ok (false, b)
    end.
  Proof.
    unfold lucb_step.
    destruct (over_limit (b_total s) (c_limit cfg)) as [[]|e] eqn:Eo; [| |exact I].
    - destruct (collect ops (b_arms s)) as [rs|e] eqn:Ec; simpl; [|exact I].
      destruct (argmin_arms (map r_var rs)) as [best|e] eqn:Ea; [|exact I]. left. eauto.
    - destruct (select_arms ops w (b_arms s) (b_g s)) as [[is|e] g1] eqn:Es; [|exact I].
      destruct (pull_list ops w cfg all _ is (b_arms s) g1) as [[arms' g2] [e|]] eqn:Ep; [exact I|].
      destruct (collect ops arms') as [rs|e] eqn:Ec; [|exact I].
      change (record_round _ rs _ _) with (l_next s is arms' g2 rs).
      destruct (check_end cfg rs) as [[[] best]|e] eqn:Ee; [| |exact I].
      + right. split; [reflexivity|]. exists is, g1, arms', g2, rs. auto.
      + split; [reflexivity|]. exists is, g1, arms', g2, rs, best. auto.
  Qed.

  Definition s_next s arms' g2 rs cand' : bstate :=
    let s' := record_round (set_arms s arms' g2) rs (smp_of (b_cand s) (length (b_arms s)))
                 (b_total s + length (b_cand s) * c_units cfg) in
    mkB (b_arms s') (b_g s') (b_hist s') (b_smp s') (b_cum s') (b_total s') cand'.

  Lemma se_step_inv all s :
    match se_step ops w cfg all s with
    | Fail e s' => True
    | Finish best s' =>
        (s' = s /\ best = b_cand s /\ length (b_cand s) <= 1) \/
        (s' = s /\ 1 < length (b_cand s) /\ over_limit (b_total s) (c_limit cfg) = Ok true /\
         exists rs, collect ops (b_arms s) = Ok rs /\ argmin_arms (map r_var rs) = Ok best) \/
        (1 < length (b_cand s) /\ over_limit (b_total s) (c_limit cfg) = Ok false /\
         exists arms' g2 rs,
          pull_list ops w cfg all (delta_of cfg (b_arms s)) (b_cand s) (b_arms s) (b_g s) = ((arms', g2), None) /\
          collect ops arms' = Ok rs /\ eliminate (b_cand s) rs = Ok best /\
          s' = s_next s arms' g2 rs best /\ length best = 1)
    | Continue s' =>
        1 < length (b_cand s) /\ over_limit (b_total s) (c_limit cfg) = Ok false /\
         exists arms' g2 rs cand',
          pull_list ops w cfg all (delta_of cfg (b_arms s)) (b_cand s) (b_arms s) (b_g s) = ((arms', g2), None) /\
          collect ops arms' = Ok rs /\ eliminate (b_cand s) rs = Ok cand' /\
          s' = s_next s arms' g2 rs cand' /\ length cand' <> 1
    end.
  Proof.
    unfold se_step.
    destruct (Nat.ltb_spec 1 (length (b_cand s))) as [Hlt|Hge]; simpl negb; cbv iota.
    2:{ left. auto. }
    destruct (over_limit (b_total s) (c_limit cfg)) as [[]|e] eqn:Eo; [| |exact I].
    - destruct (collect ops (b_arms s)) as [rs|e] eqn:Ec; simpl; [|exact I].
      destruct (argmin_arms (map r_var rs)) as [best|e] eqn:Ea; [|exact I]. right. left. eauto 6.
    - destruct (pull_list ops w cfg all _ (b_cand s) (b_arms s) (b_g s)) as [[arms' g2] [e|]] eqn:Ep; [exact I|].
      destruct (collect ops arms') as [rs|e] eqn:Ec; [|exact I].
      destruct (eliminate (b_cand s) rs) as [cand'|e] eqn:Ee; [|exact I].
      destruct (Nat.eqb_spec (length cand') 1) as [E|E].
      + right. right. split; [exact Hlt|]. split; [reflexivity|].
        exists arms', g2, rs. unfold s_next, smp_of. auto 6.
      + split; [exact Hlt|]. split; [reflexivity|].
        exists arms', g2, rs, cand'. unfold s_next, smp_of. auto 6.
  Qed.

  (** * shape invariant *)
  Record shape (K : nat) s : Prop := mkShape {
    sh_arms : length (b_arms s) = K;
    sh_hist : length (b_hist s) = K;
    sh_smp : length (b_smp s) = K;
    sh_hlen : Forall (fun l => length l = length (b_cum s)) (b_hist s);
    sh_slen : Forall (fun l => length l = length (b_cum s)) (b_smp s);
    sh_last : b_cum s = [] \/ exists rs, collect ops (b_arms s) = Ok rs /\
                forall j, recorded_last s j = nth_error rs j }.

  Lemma shape_init arms g : shape (length arms) (binit arms g).
  Proof.
    constructor; simpl; rewrite ?map_length; auto.
    - apply Forall_map, Forall_forall. auto.
    - apply Forall_map, Forall_forall. auto.
  Qed.

  Lemma recorded_push (h : list (list reading)) rs (n : nat) j :
    Forall (fun l => length l = n) h -> length h = length rs ->
    match nth_error (push h rs) j with Some l => nth_error l n | None => None end = nth_error rs j.
  Proof.
    intros Hf Hl. rewrite nth_push.
    destruct (nth_error h j) as [l|] eqn:Eh.
    - destruct (nth_error rs j) as [r|]; [|reflexivity].
      rewrite nth_error_snoc.
      rewrite Forall_forall in Hf. rewrite (Hf l) by (eapply nth_error_In; eauto).
      rewrite Nat.eqb_refl. reflexivity.
    - symmetry. apply nth_error_None. apply nth_error_None in Eh. lia.
  Qed.

  Lemma shape_record K s arms' g2 rs smp total cand' : shape K s -> length arms' = K ->
    collect ops arms' = Ok rs -> length smp = K ->
    let s' := record_round (set_arms s arms' g2) rs smp total in
    shape K (mkB (b_arms s') (b_g s') (b_hist s') (b_smp s') (b_cum s') (b_total s') cand').
  Proof.
    intros [H1 H2 H3 H4 H5 H6] Hl Hc Hs. pose proof (collect_length _ _ Hc) as Hrl.
    constructor; simpl.
    - exact Hl.
    - rewrite push_length; lia.
    - rewrite push_length; lia.
    - rewrite app_length. simpl. rewrite Nat.add_1_r. apply Forall_push, H4.
    - rewrite app_length. simpl. rewrite Nat.add_1_r. apply Forall_push, H5.
    - right. exists rs. split; [exact Hc|]. intros j. unfold recorded_last, recorded. simpl.
      rewrite app_length. simpl. rewrite Nat.add_sub. apply recorded_push; [exact H4|lia].
  Qed.

  Lemma shape_u_next K s arms' g2 rs : shape K s -> length arms' = K -> collect ops arms' = Ok rs ->
    shape K (u_next s arms' g2 rs).
  Proof.
    intros Hs Hl Hc.
    apply (shape_record K s arms' g2 rs (map (fun _ => c_units cfg) (b_arms s))
             (b_total s + length (b_arms s) * c_units cfg) (b_cand s) Hs Hl Hc).
    rewrite map_length. apply Hs.
  Qed.
  Lemma smp_of_length is k : length (smp_of is k) = k.
  Proof. unfold smp_of. rewrite map_length, seq_length. reflexivity. Qed.
  Lemma shape_l_next K s is arms' g2 rs : shape K s -> length arms' = K -> collect ops arms' = Ok rs ->
    shape K (l_next s is arms' g2 rs).
  Proof.
    intros Hs Hl Hc.
    apply (shape_record K s arms' g2 rs (smp_of is (length (b_arms s))) (b_total s + 2 * c_units cfg) (b_cand s) Hs Hl Hc).
    rewrite smp_of_length. apply Hs.
  Qed.
  Lemma shape_s_next K s arms' g2 rs cand' : shape K s -> length arms' = K -> collect ops arms' = Ok rs ->
    shape K (s_next s arms' g2 rs cand').
  Proof.
    intros Hs Hl Hc.
    apply (shape_record K s arms' g2 rs (smp_of (b_cand s) (length (b_arms s)))
             (b_total s + length (b_cand s) * c_units cfg) cand' Hs Hl Hc).
    rewrite smp_of_length. apply Hs.
  Qed.

  Lemma pull_all_len' K d delta arms g arms' g2 rs : length arms = K ->
    pull_all ops d delta arms g = ((arms', g2), Ok rs) -> length arms' = K.
  Proof. intros H E. pose proof (pull_all_length d delta arms g) as L. rewrite E in L. simpl in L. lia. Qed.
  Lemma pull_list_len' K all delta is arms g arms' g2 e : length arms = K ->
    pull_list ops w cfg all delta is arms g = ((arms', g2), e) -> length arms' = K.
  Proof. intros H E. pose proof (pull_list_length all delta is arms g) as L. rewrite E in L. simpl in L. lia. Qed.

  Lemma uniform_shape K all s : shape K s ->
    match uniform_step ops w cfg all s with
    | Continue s' => shape K s' | Finish _ s' => shape K s' | Fail _ _ => True end.
  Proof.
    intros Hs. pose proof (uniform_step_inv all s) as H.
    destruct (uniform_step ops w cfg all s) as [s'|best s'|e s']; [| |exact I].
    - destruct H as (start & d & g1 & arms' & g2 & rs & b & _ & _ & Hp & Hc & -> & _).
      apply shape_u_next; auto. eapply pull_all_len'; [apply Hs|exact Hp].
    - destruct H as (start & d & g1 & arms' & g2 & rs & _ & _ & Hp & Hc & -> & _).
      apply shape_u_next; auto. eapply pull_all_len'; [apply Hs|exact Hp].
  Qed.
  Lemma lucb_shape K all s : shape K s ->
    match lucb_step ops w cfg all s with
    | Continue s' => shape K s' | Finish _ s' => shape K s' | Fail _ _ => True end.
  Proof.
    intros Hs. pose proof (lucb_step_inv all s) as H.
    destruct (lucb_step ops w cfg all s) as [s'|best s'|e s']; [| |exact I].
    - destruct H as (_ & is & g1 & arms' & g2 & rs & b & _ & Hp & Hc & -> & _).
      apply shape_l_next; auto. eapply pull_list_len'; [apply Hs|exact Hp].
    - destruct H as [(-> & _)|(_ & is & g1 & arms' & g2 & rs & _ & Hp & Hc & -> & _)]; [exact Hs|].
      apply shape_l_next; auto. eapply pull_list_len'; [apply Hs|exact Hp].
  Qed.
  Lemma se_shape K all s : shape K s ->
    match se_step ops w cfg all s with
    | Continue s' => shape K s' | Finish _ s' => shape K s' | Fail _ _ => True end.
  Proof.
    intros Hs. pose proof (se_step_inv all s) as H.
    destruct (se_step ops w cfg all s) as [s'|best s'|e s']; [| |exact I].
    - destruct H as (_ & _ & arms' & g2 & rs & c & Hp & Hc & _ & -> & _).
      apply shape_s_next; auto. eapply pull_list_len'; [apply Hs|exact Hp].
    - destruct H as [(-> & _)|[(-> & _)|(_ & _ & arms' & g2 & rs & Hp & Hc & _ & -> & _)]]; [exact Hs|exact Hs|].
      apply shape_s_next; auto. eapply pull_list_len'; [apply Hs|exact Hp].
  Qed.

  Lemma lucb_start_inv all arms g :
    match lucb_start ops w cfg all arms g with
    | Fail e s' => True
    | Finish best s' => False
    | Continue s' =>
        exists d g1 arms' g2 rs,
          get_data w cfg all 0 g = (Ok d, g1) /\
          pull_all ops d (delta_of cfg arms) arms g1 = ((arms', g2), Ok rs) /\
          collect ops arms' = Ok rs /\
          s' = u_next (binit arms g) arms' g2 rs
    end.
  Proof.
    unfold lucb_start.
    destruct (get_data w cfg all 0 g) as [[d|e] g1] eqn:Eg; [|exact I].
    destruct (pull_all ops d _ arms g1) as [[arms' g2] [rs|e]] eqn:Ep; [|exact I].
    destruct (pull_all_ok _ _ _ _ _ _ _ Ep) as [Hc Hl].
    exists d, g1, arms', g2, rs. repeat split; auto.
  Qed.

  (** generic rule for all three algorithms: an invariant of the loop states, kept by the
      recorded rounds *)
  Lemma run_inv alg fuel all arms g (J : bstate -> Prop) (Q : list nat -> bstate -> Prop) :
    (alg <> LUCB -> J (binit arms g)) ->
    (alg = LUCB -> match lucb_start ops w cfg all arms g with Continue s' => J s' | _ => True end) ->
    (forall s, J s -> match (match alg with Uniform => uniform_step ops w cfg all s
                             | LUCB => lucb_step ops w cfg all s
                             | SE => se_step ops w cfg all s end) with
                      | Continue s' => J s' | Finish r s' => Q r s' | Fail _ _ => True end) ->
    match run alg ops w cfg fuel all arms g with
    | Returned r s' => Q r s' | Raised _ _ => True | OutOfFuel s' => J s' end.
  Proof.
    intros Hi Hl Hs.
    assert (HL : forall body, (forall s, J s -> match body s with
                      | Continue s' => J s' | Finish r s' => Q r s' | Fail _ _ => True end) ->
              forall s, J s -> match loop fuel body s with
                      | Returned r s' => Q r s' | Raised _ _ => True | OutOfFuel s' => J s' end).
    { intros body Hb. apply (loop_inv body J Q (fun _ _ => True)). exact Hb. }
    destruct alg; simpl in *.
    - apply HL; [exact Hs|]. apply Hi. discriminate.
    - unfold run_lucb. specialize (Hl eq_refl). pose proof (lucb_start_inv all arms g) as Hinv.
      destruct (lucb_start ops w cfg all arms g); [|contradiction|exact Logic.I].
      apply HL; assumption.
    - apply HL; [exact Hs|]. apply Hi. discriminate.
  Qed.

  Lemma run_shape alg fuel all arms g :
    match run alg ops w cfg fuel all arms g with
    | Returned _ s' => shape (length arms) s' | Raised _ _ => True | OutOfFuel s' => shape (length arms) s' end.
  Proof.
    apply run_inv.
    - intros _. apply shape_init.
    - intros ->. pose proof (lucb_start_inv all arms g) as H.
      destruct (lucb_start ops w cfg all arms g); [|exact I|exact I].
      destruct H as (d & g1 & arms' & g2 & rs & _ & Hp & Hc & ->).
      apply shape_u_next; [apply shape_init| |exact Hc]. eapply pull_all_len'; [reflexivity|exact Hp].
    - intros s Hs. destruct alg; [apply uniform_shape|apply lucb_shape|apply se_shape]; exact Hs.
  Qed.
End P.
