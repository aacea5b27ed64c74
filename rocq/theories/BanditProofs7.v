(** Stable order: which rows of all_data every arm receives. *)
From Coq Require Import List Arith ZArith Lia Bool.
From Verif Require Import PyBase PyLemmas Num NumLemmas BanditModel BanditSpec BanditProofs1 BanditProofs2 BanditProofs3 BanditProofs4 BanditProofs5 BanditProofs6.
Import ListNotations.
Open Scope nat_scope.

(** invariant rule covering every outcome *)
Section All.
  Context {A D G : Type} (ops : arm_ops A D G) (w : world D G) (cfg : config).
  Notation bstate := (bstate (A := A) (G := G)).
  Lemma run_inv_all alg fuel all arms g (J Q : bstate -> Prop) :
    (forall s, J s -> Q s) ->
    (alg <> LUCB -> J (binit arms g)) ->
    (alg = LUCB -> match lucb_start ops w cfg all arms g with Continue s' => J s' | Finish _ s' => Q s' | Fail _ s' => Q s' end) ->
    (forall s, J s -> match (match alg with Uniform => uniform_step ops w cfg all s
                             | LUCB => lucb_step ops w cfg all s
                             | SE => se_step ops w cfg all s end) with
                      | Continue s' => J s' | Finish r s' => Q s' | Fail _ s' => Q s' end) ->
    Q (final_state (run alg ops w cfg fuel all arms g)).
  Proof.
    intros HJQ Hi Hl Hs.
    assert (HL : forall body : bstate -> step bstate (list nat), (forall s, J s -> match body s with
                      | Continue s' => J s' | Finish r s' => Q s' | Fail _ s' => Q s' end) ->
              forall s, J s -> Q (final_state (loop fuel body s))).
    { intros body Hb s Hs0. pose proof (loop_inv body J (fun _ => Q) (fun _ => Q) Hb fuel s Hs0) as H.
      destruct (loop fuel body s); simpl; auto. }
    destruct alg; simpl in *.
    - apply HL; [exact Hs|]. apply Hi. discriminate.
    - unfold run_lucb. specialize (Hl eq_refl).
      destruct (lucb_start ops w cfg all arms g); simpl; auto.
    - apply HL; [exact Hs|]. apply Hi. discriminate.
  Qed.
End All.

Section P.
  Context {A D G X : Type} (ops : arm_ops A D G) (w : world D G) (cfg : config).
  Context (rows : D -> list X) (d0 : D).
  Context (Hslice : forall a b d', w_slice w d0 a b = Ok d' -> rows d' = firstn (b - a) (skipn a (rows d0))).
  Context (Hcount : forall a d delta g a' g', a_update ops a d delta g = ((a', g'), None) ->
                      a_units ops a' = a_units ops a + length (rows d)).
  Notation LA := (A * list (D * F))%type.
  Notation lops := (logged ops).
  Notation bstate := (bstate (A := LA) (G := G)).
  Notation u := (c_units cfg).
  Notation n := (length (rows d0)).

  Definition window (k : nat) : list X := firstn u (skipn (k * u) (rows d0)).
  Definition log_ok (delta : F) (l : list (D * F)) : Prop :=
    forall k b dl, nth_error l k = Some (b, dl) -> rows b = window k /\ dl = delta.
  Definition arm_ok (delta : F) (x : LA) : Prop :=
    log_ok delta (snd x) /\ a_units ops (fst x) = Nat.min n (length (snd x) * u).

  Lemma skipn_min {Y} k (l : list Y) : skipn (Nat.min (length l) k) l = skipn k l.
  Proof.
    destruct (Nat.le_gt_cases k (length l)); [rewrite Nat.min_r by lia; reflexivity|].
    rewrite Nat.min_l by lia. rewrite !skipn_all2 by lia. reflexivity.
  Qed.
  Lemma window_length k : length (window k) = Nat.min u (n - k * u).
  Proof. unfold window. rewrite firstn_length, skipn_length. reflexivity. Qed.
  Lemma slice_window k d' : w_slice w d0 (Nat.min n (k * u)) (Nat.min n (k * u) + u) = Ok d' -> rows d' = window k.
  Proof.
    intros H. rewrite (Hslice _ _ _ H). replace (Nat.min n (k * u) + u - Nat.min n (k * u)) with u by lia.
    unfold window. rewrite skipn_min. reflexivity.
  Qed.
  Lemma log_ok_snoc delta l d : log_ok delta l -> rows d = window (length l) -> log_ok delta (l ++ [(d, delta)]).
  Proof.
    intros H Hd k b dl. rewrite nth_error_snoc. destruct (Nat.eqb_spec k (length l)) as [->|]; [|apply H].
    intros E; injection E as <- <-. auto.
  Qed.
  Lemma arm_ok_next delta x d a' g g' : arm_ok delta x -> rows d = window (length (snd x)) ->
    a_update ops (fst x) d delta g = ((a', g'), None) -> arm_ok delta (a', snd x ++ [(d, delta)]).
  Proof.
    intros [H1 H2] Hd Hu. split; simpl; [apply log_ok_snoc; assumption|].
    rewrite (Hcount _ _ _ _ _ _ Hu), H2, Hd, window_length, app_length. simpl. nia.
  Qed.

  Lemma pull_all_stable d delta k : rows d = window k -> forall l g,
    Forall (fun x => arm_ok delta x /\ length (snd x) = k) l ->
    let '((l', g'), r) := pull_all lops d delta l g in
    Forall (fun x => log_ok delta (snd x) /\ length (snd x) <= S k) l' /\
    (forall rs, r = Ok rs -> Forall (fun x => arm_ok delta x /\ length (snd x) = S k) l').
  Proof.
    intros Hd. induction l as [|x l IH]; intros g HF; simpl.
    { split; [constructor|]. intros; constructor. }
    inversion HF as [|? ? [Hx Hk] HF']; subst.
    assert (Hold : Forall (fun y : LA => log_ok delta (snd y) /\ length (snd y) <= S (length (snd x))) l).
    { eapply Forall_impl; [|exact HF']. intros y [[H1 _] H2]. split; [exact H1|lia]. }
    assert (Hnew : log_ok delta (snd x ++ [(d, delta)]) /\ length (snd x ++ [(d, delta)]) <= S (length (snd x))).
    { split; [apply log_ok_snoc; [apply Hx|exact Hd]|]. rewrite app_length. simpl. lia. }
    destruct (a_update ops (fst x) d delta g) as [[a' g1] [e|]] eqn:Eu.
    - split; [constructor; auto|discriminate].
    - rewrite read_logged. simpl. destruct (read ops a'); [|split; [constructor; auto|discriminate]].
      specialize (IH g1 HF'). destruct (pull_all lops d delta l g1) as [[l2 g2] [rs|e]].
      + destruct IH as [I1 I2]. split; [constructor; auto|]. intros _ _. constructor; [|eapply I2; reflexivity].
        split; [eapply arm_ok_next; eauto|]. simpl. rewrite app_length. simpl. lia.
      + destruct IH as [I1 I2]. split; [constructor; auto|discriminate].
  Qed.

  Lemma Forall_modify {Y} (P : Y -> Prop) i f : forall l, Forall P l -> (forall x, nth_error l i = Some x -> P (f x)) -> Forall P (modify i f l).
  Proof.
    induction i as [|i IH]; intros [|x l] H Hf; simpl; [exact H| |exact H|]; inversion H; subst; constructor; auto.
  Qed.

  Lemma pull_list_stable delta is : forall l g, Forall (arm_ok delta) l ->
    let '((l', g'), e) := pull_list lops w cfg (Some d0) delta is l g in
    Forall (fun x => log_ok delta (snd x)) l' /\ (e = None -> Forall (arm_ok delta) l') /\
    (forall j x', nth_error l' j = Some x' -> exists x, nth_error l j = Some x /\
        length (snd x') <= length (snd x) + count_occ Nat.eq_dec is j).
  Proof.
    induction is as [|i is IH]; intros l g HF; simpl.
    { split; [eapply Forall_impl; [|exact HF]; intros x Hx; apply Hx|]. split; [auto|]. intros j x H. exists x. split; [exact H|lia]. }
    assert (Hl : Forall (fun x : LA => log_ok delta (snd x)) l) by (eapply Forall_impl; [|exact HF]; intros y Hy; apply Hy).
    assert (Hsame : forall j (x' : LA), nth_error l j = Some x' -> exists x, nth_error l j = Some x /\
        length (snd x') <= length (snd x) + (if Nat.eq_dec i j then S (count_occ Nat.eq_dec is j) else count_occ Nat.eq_dec is j)).
    { intros j x H. exists x. split; [exact H|lia]. }
    destruct (nth_error l i) as [x|] eqn:Ei; [|split; [exact Hl|]; split; [discriminate|exact Hsame]].
    assert (Hx : arm_ok delta x) by (rewrite Forall_forall in HF; apply HF; eapply nth_error_In; eauto).
    rewrite (proj2 Hx).
    destruct (w_slice w d0 (Nat.min n (length (snd x) * u)) (Nat.min n (length (snd x) * u) + u)) as [d|e] eqn:Es;
      [|split; [exact Hl|]; split; [discriminate|exact Hsame]].
    apply slice_window in Es.
    destruct (a_update ops (fst x) d delta g) as [[a' g2] e] eqn:Eu.
    set (x1 := (a', snd x ++ [(d, delta)]) : LA).
    assert (Hlen : forall j (y : LA), nth_error (modify i (fun _ => x1) l) j = Some y -> exists x0, nth_error l j = Some x0 /\
        length (snd y) <= length (snd x0) + (if Nat.eq_dec i j then 1 else 0)).
    { intros j y. rewrite nth_error_modify. destruct (Nat.eqb_spec i j) as [<-|Hne].
      - rewrite Ei. simpl. intros E; injection E as <-. exists x. split; [reflexivity|]. simpl. rewrite app_length. simpl.
        destruct (Nat.eq_dec i i); [lia|contradiction].
      - intros H. exists y. split; [exact H|lia]. }
    destruct e as [e|].
    - split; [|split; [discriminate|]].
      + apply Forall_modify; [exact Hl|]. intros _ _. simpl. apply log_ok_snoc; [apply Hx|exact Es].
      + intros j y Hy. destruct (Hlen j y Hy) as (x0 & H1 & H2). exists x0. split; [exact H1|]. destruct (Nat.eq_dec i j); lia.
    - assert (HF1 : Forall (arm_ok delta) (modify i (fun _ => x1) l)).
      { apply Forall_modify; [exact HF|]. intros _ _. eapply arm_ok_next; eauto. }
      specialize (IH (modify i (fun _ => x1) l) g2 HF1).
      destruct (pull_list lops w cfg (Some d0) delta is (modify i (fun _ => x1) l) g2) as [[l' g'] e'].
      destruct IH as (I1 & I2 & I3). split; [exact I1|]. split; [exact I2|].
      intros j y Hy. destruct (I3 j y Hy) as (x2 & Hx2 & Hle). destruct (Hlen j x2 Hx2) as (x0 & H1 & H2).
      exists x0. split; [exact H1|]. destruct (Nat.eq_dec i j); lia.
  Qed.

  (** the number of units consumed by an arm stays below [bound] *)
  Definition bound (K : nat) : nat := match c_limit cfg with LInt z => Z.to_nat z + K * u | _ => 0 end.
  Definition finite_limit : Prop := exists z, c_limit cfg = LInt z.
  Definition final_ok K (s : bstate) : Prop :=
    Forall (fun x => log_ok (fdiv (c_error_prob cfg) (f_of_nat K)) (snd x) /\
                     (finite_limit -> length (snd x) * u <= bound K)) (b_arms s).

  Lemma not_exceeds_bound m : finite_limit -> ~ exceeds m (c_limit cfg) -> forall K, m + K * u <= bound K.
  Proof. intros (z & E). unfold bound, exceeds. rewrite E. intros H K. lia. Qed.

  Lemma arm_ok_log delta x : arm_ok delta x -> log_ok delta (snd x). Proof. intros H; apply H. Qed.

  Lemma delta_K K (s : bstate) : length (b_arms s) = K -> delta_of cfg (b_arms s) = fdiv (c_error_prob cfg) (f_of_nat K).
  Proof. intros <-. reflexivity. Qed.

  Lemma init_arm_ok delta arms : (forall a, In a arms -> a_units ops a = 0) -> 
    Forall (fun x : LA => arm_ok delta x /\ length (snd x) = 0) (with_log arms).
  Proof.
    intros H0. unfold with_log. apply Forall_map, Forall_forall. intros a Ha. split; [|reflexivity].
    split; simpl; [intros k b dl Hk; destruct k; discriminate|]. rewrite H0 by exact Ha. lia.
  Qed.

  (** ** Uniform *)
  Definition ju K (s : bstate) : Prop :=
    uni_acc lops cfg K s /\ (1 <= length (b_cum s) -> ~ exceeds (b_total s) (c_limit cfg)) /\
    Forall (fun x => arm_ok (fdiv (c_error_prob cfg) (f_of_nat K)) x /\ length (snd x) = length (b_cum s)) (b_arms s).

  Lemma uniform_stable K s : 1 <= K -> ju K s ->
    match uniform_step lops w cfg (Some d0) s with
    | Continue s' => ju K s' | Finish _ s' => final_ok K s' | Fail _ s' => final_ok K s' end.
  Proof.
    intros HK (Ha & Hn & HF). pose proof (uniform_acc lops w cfg K (Some d0) s Ha) as Hacc.
    pose proof (proj1 Ha) as Hsh. pose proof (sh_arms _ _ _ Hsh) as HKl.
    assert (Hb : finite_limit -> S (length (b_cum s)) * u <= bound K).
    { intros Hz. destruct (Nat.eq_dec (length (b_cum s)) 0) as [E|E].
      - rewrite E. destruct Hz as (z & Hz). unfold bound. rewrite Hz. nia.
      - pose proof (not_exceeds_bound _ Hz (Hn ltac:(lia)) K). destruct Ha as (_ & Ht & _). nia. }
    assert (Hfin0 : final_ok K s).
    { eapply Forall_impl; [|exact HF]. intros x [[H1 _] H2]. split; [exact H1|]. intros Hz. rewrite H2. specialize (Hb Hz). nia. }
    unfold uniform_step in *.
    destruct (b_arms s) as [|x0 xs] eqn:Earms; [simpl in HKl; lia|].
    assert (Hstart : a_units lops x0 = Nat.min n (length (b_cum s) * u)).
    { inversion HF as [|? ? [[_ H1] H2] _]; subst. simpl. rewrite H1, H2. reflexivity. }
    rewrite Hstart in *. unfold get_data in *.
    destruct (w_slice w d0 _ _) as [d|e] eqn:Es; [|unfold final_ok; simpl; rewrite <- Earms; exact Hfin0].
    apply slice_window in Es. rewrite <- Earms in *.
    pose proof (pull_all_stable d (delta_of cfg (b_arms s)) (length (b_cum s)) Es (b_arms s) (b_g s)) as Hp.
    rewrite (delta_K K s HKl) in *. specialize (Hp HF).
    destruct (pull_all lops d _ (b_arms s) (b_g s)) as [[arms' g2] r].
    destruct Hp as [Hp1 Hp2].
    assert (Hfin : Forall (fun x : LA => log_ok (fdiv (c_error_prob cfg) (f_of_nat K)) (snd x) /\ (finite_limit -> length (snd x) * u <= bound K)) arms').
    { eapply Forall_impl; [|exact Hp1]. intros x [H1 H2]. split; [exact H1|]. intros Hz. specialize (Hb Hz). nia. }
    destruct r as [rs|e]; [|exact Hfin].
    destruct (over_limit _ _) as [[]|e]; [| |exact Hfin].
    - destruct (do rs' <- collect lops arms'; argmin_arms (map r_var rs')); exact Hfin.
    - destruct (do rs' <- collect lops arms'; check_end cfg rs') as [[[] b]|e]; try exact Hfin.
      destruct Hacc as (H1 & H2 & H3). split; [exact H1|]. split; [intros _; exact H2|].
      rewrite H3. exact (Hp2 rs eq_refl).
  Qed.

  (** ** LUCB *)
  Definition jl K (s : bstate) : Prop :=
    lucb_acc lops cfg K s /\
    Forall (fun x => arm_ok (fdiv (c_error_prob cfg) (f_of_nat K)) x /\ length (snd x) <= 1 + 2 * (length (b_cum s) - 1)) (b_arms s) /\
    (finite_limit -> Forall (fun x => length (snd x) * u <= bound K) (b_arms s)).

  Lemma jl_final K s : jl K s -> final_ok K s.
  Proof.
    intros (_ & H1 & H2). unfold final_ok. rewrite Forall_forall in H1 |- *. intros x Hx. split; [apply H1, Hx|].
    intros Hz. specialize (H2 Hz). rewrite Forall_forall in H2. apply H2, Hx.
  Qed.

  Lemma count_le_two i j k : count_occ Nat.eq_dec [i; j] k <= 2.
  Proof. simpl. destruct (Nat.eq_dec j k), (Nat.eq_dec i k); lia. Qed.

  Lemma lucb_stable K s : fair_choice w -> 1 <= K -> jl K s ->
    match lucb_step lops w cfg (Some d0) s with
    | Continue s' => jl K s' | Finish _ s' => final_ok K s' | Fail _ s' => final_ok K s' end.
  Proof.
    intros Hfair HK Hj. pose proof (jl_final _ _ Hj) as Hfin0. destruct Hj as (Ha & HF & HB).
    pose proof (lucb_acc_step lops w cfg K (Some d0) s Ha) as Hacc.
    pose proof (proj1 Ha) as Hsh. pose proof (sh_arms _ _ _ Hsh) as HKl.
    unfold lucb_step in *.
    destruct (over_limit (b_total s) (c_limit cfg)) as [[]|e] eqn:Eo; [| |exact Hfin0].
    { destruct (do rs' <- collect lops (b_arms s); argmin_arms (map r_var rs')); exact Hfin0. }
    destruct (select_arms lops w (b_arms s) (b_g s)) as [[is|e] g1] eqn:Esel; [|exact Hfin0].
    destruct (select_two lops w _ _ _ _ Hfair Esel) as (HK2 & i & j & -> & Hi & Hj).
    pose proof (pull_list_stable (delta_of cfg (b_arms s)) [i; j] (b_arms s) g1) as Hp.
    rewrite (delta_K K s HKl) in *.
    assert (HF' : Forall (arm_ok (fdiv (c_error_prob cfg) (f_of_nat K))) (b_arms s)) by (eapply Forall_impl; [|exact HF]; intros x Hx; apply Hx).
    specialize (Hp HF').
    destruct (pull_list lops w cfg (Some d0) _ [i; j] (b_arms s) g1) as [[arms' g2] e].
    destruct Hp as (Hp1 & Hp2 & Hp3).
    assert (Hlen : forall x, In x arms' -> length (snd x) <= 3 + 2 * (length (b_cum s) - 1)).
    { intros x Hx. apply In_nth_error in Hx as (k & Hk). destruct (Hp3 k x Hk) as (x0 & H1 & H2).
      rewrite Forall_forall in HF. destruct (HF x0) as [_ H3]; [eapply nth_error_In; eauto|].
      pose proof (count_le_two i j k). lia. }
    assert (Hbd : finite_limit -> forall x, In x arms' -> length (snd x) * u <= bound K).
    { intros Hz x Hx. specialize (Hlen x Hx). apply over_limit_not in Eo.
      pose proof (not_exceeds_bound _ Hz Eo K) as Hb. destruct Ha as (_ & _ & Ht & _). rewrite Ht in Hb.
      assert (length (snd x) * u <= (3 + 2 * (length (b_cum s) - 1)) * u) by (apply Nat.mul_le_mono_r; exact Hlen). nia. }
    assert (Hfin : Forall (fun x : LA => log_ok (fdiv (c_error_prob cfg) (f_of_nat K)) (snd x) /\ (finite_limit -> length (snd x) * u <= bound K)) arms').
    { rewrite Forall_forall in *. intros x Hx. auto. }
    destruct e as [e|]; [exact Hfin|].
    destruct (collect lops arms') as [rs|e]; [|exact Hfin].
    destruct (check_end cfg rs) as [[[] b]|e]; try exact Hfin.
    destruct Hacc as (H1 & _ & H3). split; [exact H1|]. split.
    - specialize (Hp2 eq_refl). rewrite H3. simpl b_arms. rewrite Forall_forall in *. intros x Hx. split; [auto|].
      specialize (Hlen x Hx). destruct Ha as (_ & Hge & _). lia.
    - intros Hz. simpl b_arms. rewrite Forall_forall. intros x Hx. apply Hbd; assumption.
  Qed.

  Lemma lucb_start_stable arms g : arms <> [] -> (forall a, In a arms -> a_units ops a = 0) ->
    match lucb_start lops w cfg (Some d0) (with_log arms) g with
    | Continue s' => jl (length arms) s' | Finish _ s' => final_ok (length arms) s' | Fail _ s' => final_ok (length arms) s' end.
  Proof.
    intros Hne H0.
    assert (HK : 1 <= length arms) by (destruct arms; [contradiction|simpl; lia]).
    assert (Hlw : length (with_log (D := D) arms) = length arms) by (unfold with_log; apply map_length).
    pose proof (lucb_acc_start lops w cfg (length arms)) as Hacc.
    set (delta := fdiv (c_error_prob cfg) (f_of_nat (length arms))).
    pose proof (init_arm_ok delta arms H0) as HF.
    assert (Hb : finite_limit -> 1 * u <= bound (length arms)).
    { intros (z & Hz). unfold bound. rewrite Hz. nia. }
    assert (Hd : delta_of cfg (with_log (D := D) arms) = delta) by (unfold delta_of; rewrite Hlw; reflexivity).
    unfold lucb_start in *. unfold get_data in *. simpl in *.
    destruct (w_slice w d0 0 u) as [d|e] eqn:Es.
    2:{ unfold final_ok. simpl. eapply Forall_impl; [|exact HF]. intros x [[H1 _] H2]. split; [exact H1|]. rewrite H2. lia. }
    assert (Es' : rows d = window 0) by (apply (slice_window 0); simpl; rewrite Nat.min_0_r; exact Es).
    pose proof (pull_all_stable d delta 0 Es' (with_log arms) g HF) as Hp.
    rewrite Hd in *.
    destruct (pull_all lops d delta (with_log arms) g) as [[arms' g2] r] eqn:Ep. destruct Hp as [Hp1 Hp2].
    assert (Hfin : Forall (fun x : LA => log_ok delta (snd x) /\ (finite_limit -> length (snd x) * u <= bound (length arms))) arms').
    { eapply Forall_impl; [|exact Hp1]. intros x [H1 H2]. split; [exact H1|]. intros Hz. specialize (Hb Hz). nia. }
    destruct r as [rs|e]; [|exact Hfin].
    split; [|split].
    - destruct (Hacc (record_round (set_arms (binit (with_log arms) g) arms' g2) rs
                 (map (fun _ => u) (with_log (D := D) arms)) (length (with_log (D := D) arms) * u)) (with_log arms) g (Some d0) Hlw) as [H _]; [|exact H].
      rewrite Es, Hd, Ep. reflexivity.
    - simpl. specialize (Hp2 rs eq_refl). eapply Forall_impl; [|exact Hp2]. intros x [H1 H2]. split; [exact H1|]. lia.
    - intros Hz. simpl. eapply Forall_impl; [|exact Hfin]. intros x [_ H]. apply H, Hz.
  Qed.

  (** ** successive elimination *)
  Definition js K (s : bstate) : Prop :=
    se_inv lops cfg K s /\
    Forall (fun x => arm_ok (fdiv (c_error_prob cfg) (f_of_nat K)) x /\ length (snd x) <= length (b_cum s)) (b_arms s) /\
    (finite_limit -> Forall (fun x => length (snd x) * u <= bound K) (b_arms s)).
  Lemma js_final K s : js K s -> final_ok K s.
  Proof.
    intros (_ & H1 & H2). unfold final_ok. rewrite Forall_forall in H1 |- *. intros x Hx. split; [apply H1, Hx|].
    intros Hz. specialize (H2 Hz). rewrite Forall_forall in H2. apply H2, Hx.
  Qed.
  Lemma se_stable K s : 1 <= K -> js K s ->
    match se_step lops w cfg (Some d0) s with
    | Continue s' => js K s' | Finish _ s' => final_ok K s' | Fail _ s' => final_ok K s' end.
  Proof.
    intros HK Hj. pose proof (js_final _ _ Hj) as Hfin0. destruct Hj as (Ha & HF & HB).
    pose proof (se_inv_step lops w cfg K (Some d0) s Ha) as Hacc.
    pose proof (se_shp _ _ _ _ Ha) as Hsh. pose proof (sh_arms _ _ _ Hsh) as HKl.
    unfold se_step in *. destruct (negb (1 <? length (b_cand s))); [exact Hfin0|].
    destruct (over_limit (b_total s) (c_limit cfg)) as [[]|e] eqn:Eo; [| |exact Hfin0].
    { destruct (do rs' <- collect lops (b_arms s); argmin_arms (map r_var rs')); exact Hfin0. }
    pose proof (pull_list_stable (delta_of cfg (b_arms s)) (b_cand s) (b_arms s) (b_g s)) as Hp.
    rewrite (delta_K K s HKl) in *.
    assert (HF' : Forall (arm_ok (fdiv (c_error_prob cfg) (f_of_nat K))) (b_arms s)) by (eapply Forall_impl; [|exact HF]; intros x Hx; apply Hx).
    specialize (Hp HF').
    destruct (pull_list lops w cfg (Some d0) _ (b_cand s) (b_arms s) (b_g s)) as [[arms' g2] e].
    destruct Hp as (Hp1 & Hp2 & Hp3).
    assert (Hlen : forall x, In x arms' -> length (snd x) <= S (length (b_cum s))).
    { intros x Hx. apply In_nth_error in Hx as (k & Hk). destruct (Hp3 k x Hk) as (x0 & H1 & H2).
      rewrite Forall_forall in HF. destruct (HF x0) as [_ H3]; [eapply nth_error_In; eauto|].
      pose proof (proj1 (NoDup_count_occ Nat.eq_dec (b_cand s)) (se_nd _ _ _ _ Ha) k). lia. }
    assert (Hbd : finite_limit -> forall x, In x arms' -> length (snd x) * u <= bound K).
    { intros Hz x Hx. specialize (Hlen x Hx). apply over_limit_not in Eo.
      pose proof (not_exceeds_bound _ Hz Eo K) as Hb. pose proof (se_low _ _ _ _ Ha).
      assert (length (snd x) * u <= S (length (b_cum s)) * u) by (apply Nat.mul_le_mono_r; exact Hlen). nia. }
    assert (Hfin : Forall (fun x : LA => log_ok (fdiv (c_error_prob cfg) (f_of_nat K)) (snd x) /\ (finite_limit -> length (snd x) * u <= bound K)) arms').
    { rewrite Forall_forall in *. intros x Hx. auto. }
    destruct e as [e|]; [exact Hfin|].
    destruct (collect lops arms') as [rs|e]; [|exact Hfin].
    destruct (eliminate (b_cand s) rs) as [c|e]; [|exact Hfin].
    destruct (length c =? 1); [exact Hfin|].
    destruct Hacc as (H1 & _ & H3 & _). split; [exact H1|]. split.
    - specialize (Hp2 eq_refl). rewrite H3. simpl b_arms. rewrite Forall_forall in *. intros x Hx. split; auto.
    - intros Hz. simpl b_arms. rewrite Forall_forall. intros x Hx. apply Hbd; assumption.
  Qed.

  Lemma run_stable alg fuel arms g : arms <> [] -> (forall a, In a arms -> a_units ops a = 0) ->
    (alg = LUCB -> fair_choice w) ->
    final_ok (length arms) (final_state (run alg lops w cfg fuel (Some d0) (with_log arms) g)).
  Proof.
    intros Hne H0 Hfair.
    assert (HK : 1 <= length arms) by (destruct arms; [contradiction|simpl; lia]).
    assert (Hlw : length (with_log (D := D) arms) = length arms) by (unfold with_log; apply map_length).
    pose proof (init_arm_ok (fdiv (c_error_prob cfg) (f_of_nat (length arms))) arms H0) as HF.
    destruct alg.
    - apply run_inv_all with (J := ju (length arms)).
      + intros s ((_ & Ht & _) & Hn & HFs). unfold final_ok. rewrite Forall_forall in *.
        intros x Hx. destruct (HFs x Hx) as [[H1 _] H2]. split; [exact H1|]. intros Hz. rewrite H2.
        destruct (Nat.eq_dec (length (b_cum s)) 0) as [->|E]; [lia|].
        pose proof (not_exceeds_bound _ Hz (Hn ltac:(lia)) (length arms)). 
        nia.
      + intros _. split; [|split]; [rewrite <- Hlw; apply uni_acc_init|simpl; lia|exact HF].
      + discriminate.
      + intros s Hs. apply uniform_stable; assumption.
    - apply run_inv_all with (J := jl (length arms)).
      + apply jl_final.
      + congruence.
      + intros _. apply lucb_start_stable; assumption.
      + intros s Hs. apply lucb_stable; auto.
    - apply run_inv_all with (J := js (length arms)).
      + apply js_final.
      + intros _. split; [rewrite <- Hlw; apply se_inv_init|]. split; simpl.
        * eapply Forall_impl; [|exact HF]. intros x [H1 H2]. split; [exact H1|lia].
        * intros _. eapply Forall_impl; [|exact HF]. intros x [_ H2]. rewrite H2. lia.
      + discriminate.
      + intros s Hs. apply se_stable; assumption.
  Qed.
End P.
