(** Lemmas for NbProps.v: the bar of the uniform algorithm. *)
From Coq Require Import List Arith ZArith Lia Bool.
From Verif Require Import PyBase PyLemmas Num NumLemmas BanditModel BanditSpec BanditProofs1 BanditProofs2 BanditProofs3 BanditProofs4
  PlotModel PlotSpec PlotProofs NbModel NbSpec.
Import ListNotations.
Open Scope nat_scope.

Lemma max_nat_spec l : l <> [] -> exists m, py_max Nat.ltb l = Ok m /\ In m l /\ forall x, In x l -> x <= m.
Proof.
  destruct l as [|x l]; [congruence|]. intros _. cbn [py_max]. eexists. split; [reflexivity|].
  revert x; induction l as [|y l IH]; intros x; cbn [fold_left].
  - split; [now left|]. intros z [<-|[]]. lia.
  - destruct (IH (max_step Nat.ltb x y)) as [H1 H2]. unfold max_step in *. destruct (Nat.ltb_spec x y).
    + split; [destruct H1; cbn; auto|]. intros z [<-|[<-|Hz]]; [specialize (H2 y (or_introl eq_refl)); lia|apply H2; now left|apply H2; now right].
    + split; [destruct H1 as [<-|H1]; cbn; auto|]. intros z [<-|[<-|Hz]]; [apply H2; now left|specialize (H2 x (or_introl eq_refl)); lia|apply H2; now right].
Qed.

Lemma by_arm_sums (d : list (list nat)) : mapM (fun a => do l <- by_arm d a; Ok (list_sum l)) (seq 0 (length d)) = Ok (map list_sum d).
Proof.
  assert (H : forall pre suf, d = pre ++ suf -> mapM (fun a => do l <- by_arm d a; Ok (list_sum l)) (seq (length pre) (length suf)) = Ok (map list_sum suf)).
  { intros pre suf. revert pre. induction suf as [|x suf IH]; intros pre E; [reflexivity|]. cbn [length seq mapM map].
    unfold by_arm at 1. rewrite E, nth_error_app2, Nat.sub_diag by lia. cbn [nth_error bind]. rewrite <- E.
    specialize (IH (pre ++ [x])). rewrite app_length, Nat.add_1_r in IH. rewrite IH; [reflexivity|]. rewrite E, <- app_assoc. reflexivity. }
  exact (H [] d eq_refl).
Qed.

Lemma sum_repeat u n : list_sum (repeat u n) = u * n.
Proof. induction n as [|n IH]; cbn [repeat list_sum fold_right]; [lia|]. change (fold_right Nat.add 0 (repeat u n)) with (list_sum (repeat u n)). rewrite IH. lia. Qed.

Lemma sum_bound (l : list nat) b : Forall (fun x => x <= b) l -> list_sum l <= b * length l /\ (list_sum l = b * length l <-> Forall (fun x => x = b) l).
Proof.
  induction 1 as [|x l Hx _ [IH1 IH2]].
  - cbn. split; [lia|]. split; [constructor|lia].
  - change (list_sum (x :: l)) with (x + list_sum l). cbn [length]. split; [nia|]. split; intros H.
    + constructor; [nia|]. apply IH2. nia.
    + inversion H as [|? ? -> H']; subst. apply IH2 in H'. nia.
Qed.

Section P.
  Context {A D G : Type} (ops : arm_ops A D G) (w : world D G) (cfg : config).
  Notation bstate := (bstate (A := A) (G := G)).
  Implicit Types s : bstate.

  Lemma arm_sum K s j l : se_inv ops cfg K s -> nth_error (b_smp s) j = Some l ->
    exists r, r <= length (b_cum s) /\ l = repeat (c_units cfg) r ++ repeat 0 (length (b_cum s) - r) /\ list_sum l = c_units cfg * r.
  Proof.
    intros Hi Hl. assert (Hj : j < K) by (rewrite <- (sh_smp _ _ _ (se_shp _ _ _ _ Hi)); apply nth_error_Some; congruence).
    destruct (se_rec _ _ _ _ Hi j Hj) as (r & (H1 & H2 & H3 & _) & _). exists r. rewrite H3 in Hl. injection Hl as <-. split; [exact H1|]. split; [reflexivity|].
    rewrite list_sum_app, !sum_repeat. lia.
  Qed.

  Lemma bar_ok K s best : 0 < K -> se_more ops cfg K s ->
    uniform_bar (bandit_data best s) (seq 0 K) = Ok (K * (c_units cfg * length (b_cum s))).
  Proof.
    intros HK (Hi & _ & _ & Hj). destruct (Hj HK) as (j & HjK & Ej). pose proof (sh_smp _ _ _ (se_shp _ _ _ _ Hi)) as Hsm.
    unfold uniform_bar, bandit_data. cbn [bd_smp]. rewrite <- Hsm at 1. rewrite by_arm_sums. cbn [bind].
    destruct (max_nat_spec (map list_sum (b_smp s))) as (m & Em & Hin & Hmax); [destruct (b_smp s); [cbn in Hsm; lia|discriminate]|].
    rewrite Em. cbn [bind]. rewrite seq_length. f_equal. rewrite Nat.mul_comm. f_equal.
    assert (H1 : m <= c_units cfg * length (b_cum s)).
    { apply in_map_iff in Hin as (l & <- & Hl). apply In_nth_error in Hl as (i & Hl). destruct (arm_sum K s i l Hi Hl) as (r & Hr & _ & ->). nia. }
    assert (H2 : c_units cfg * length (b_cum s) <= m); [|lia].
    rewrite <- sum_repeat. apply Hmax, in_map. eapply nth_error_In; eauto.
  Qed.

  Lemma last_cum_ok K s best : se_more ops cfg K s -> b_cum s <> [] -> last_cum (bandit_data best s) = Ok (b_total s).
  Proof.
    intros (_ & _ & Hl & _) Hne. unfold last_cum, bandit_data. cbn [bd_cum]. destruct (exists_last Hne) as (l & x & E). rewrite E in *.
    rewrite rev_app_distr. cbn [rev app]. rewrite last_last in Hl. now rewrite Hl.
  Qed.

  Lemma total_bounds K s : se_more ops cfg K s ->
    b_total s <= K * (c_units cfg * length (b_cum s)) /\ 2 * (c_units cfg * length (b_cum s)) <= b_total s /\
    (0 < c_units cfg -> (b_total s = K * (c_units cfg * length (b_cum s)) <-> forall j t, j < K -> t < length (b_cum s) -> recorded_samples s j t = Some (c_units cfg))).
  Proof.
    intros (Hi & _). pose proof (se_tot _ _ _ _ Hi) as Ht. pose proof (se_low _ _ _ _ Hi) as Hlow. pose proof (sh_smp _ _ _ (se_shp _ _ _ _ Hi)) as Hsm.
    destruct (sum_bound (map list_sum (b_smp s)) (c_units cfg * length (b_cum s))) as [H1 H2].
    { apply Forall_forall. intros x Hx. apply in_map_iff in Hx as (l & <- & Hl). apply In_nth_error in Hl as (i & Hl). destruct (arm_sum K s i l Hi Hl) as (r & Hr & _ & ->). nia. }
    rewrite map_length, Hsm in H1, H2. rewrite Ht at 1 3. split; [nia|]. split; [nia|]. intros Hu.
    rewrite (Nat.mul_comm K). rewrite H2. rewrite Forall_forall. split; intros H.
    - intros j t Hj Htt. unfold recorded_samples. destruct (nth_error (b_smp s) j) as [l|] eqn:El; [|apply nth_error_None in El; lia].
      destruct (arm_sum K s j l Hi El) as (r & Hr & E & Es). specialize (H (list_sum l) (in_map _ _ _ (nth_error_In _ _ El))).
      assert (r = length (b_cum s)) by nia. subst r. rewrite E, Nat.sub_diag. cbn [repeat]. rewrite app_nil_r. now apply nth_error_repeat.
    - intros x Hx. apply in_map_iff in Hx as (l & <- & Hl). apply In_nth_error in Hl as (j & El).
      assert (Hj : j < K) by (rewrite <- Hsm; apply nth_error_Some; congruence).
      destruct (arm_sum K s j l Hi El) as (r & Hr & E & Es). rewrite Es. destruct (Nat.eq_dec r (length (b_cum s))) as [->|Hne]; [reflexivity|].
      specialize (H j r Hj ltac:(lia)). unfold recorded_samples in H. rewrite El, E, nth_error_app2, repeat_length, Nat.sub_diag in H by (rewrite repeat_length; lia).
      destruct (length (b_cum s) - r) as [|k] eqn:Ek; [lia|]. cbn in H. injection H as H. lia.
  Qed.
End P.
