(** Property theorems C25-C37 (arms). C68, which needs arms and bandits together, is in
    ArmProps2.v. *)
From Coq Require Import List Arith ZArith Lia Bool Reals Lra Permutation.
From Flocq Require Import Core BinarySingleNaN.
From Verif Require Import PyBase PyLemmas Num NumLemmas NumOps FloatOps NumLaws DataModel DataSpec DataProofs DataProofs2
  BanditModel BanditSpec BanditProofs2 ArmModel ArmSpec ArmProofs1 ArmProofs2 ArmProofs3 ArmProofs4 ArmProofs5 ArmProofs6 ArmProofs7.
Import ListNotations.
Open Scope nat_scope.

(** ** a concrete arm for the examples *)
(** np.mean as a left-to-right sum divided by the length *)
Definition seq_mean (l : list F) : F := fdiv (fold_left fadd l f0) (f_of_nat (length l)).
Definition toy_lib : libm := mkLibm (fun x => x) (fun x => x) seq_mean.
(** a nuisance parameter that counts its units, has enough of them from 2 on, scores a unit by
    its first covariate and has width 1/10 *)
Definition toy_eta : eta_ops F nat nat nat :=
  mkEta F nat nat nat
    (fun _ d g => ((n_units d, g), None))
    (fun h => 2 <=? h)
    (fun h d => (h, Ok (match dcov d with Some c => map (fun r => f_of_nat (hd 0 r)) (arows c) | None => [] end)))
    (fun _ _ _ _ => Ok (Some (flit 1 10)))
    (fun _ => 0).
(** the random state counts the permutations; every second one reverses *)
Definition toy_arm_world : arm_world F nat :=
  mkArmWorld F nat
    (fun g l => (if Nat.even g then l else rev l, S g))
    (fun g n => (repeat (flit 1 2) n, S g))
    (fun p _ => if fltb p (flit 1 2) then flit 1 2 else flit 5 1)
    (fun p => if fltb p (flit 1 2) then flit (-2) 1 else flit 2 1).
Definition toy_opts (c : ci_algorithm) (stable : bool) : ss_opts F :=
  mkSS c stable (flit 1 1) (flit 1 1) (flit 1 1) (flit 2 1) (flit 1 10).
Definition batch (l : list nat) : expdata nat :=
  ed_init (Some (mkArr [1] (map (fun x => [x]) l))) None (Some (mkArr [] (map (fun x => [x]) l))).
Definition tenth : F := flit 1 10.
Definition toy_upd c st := ss_update (f64 toy_lib) 0 toy_eta toy_arm_world (@identity_fn nat) (toy_opts c st).
Definition toy_hist : history F nat :=
  [(batch [1; 4; 9; 2], tenth); (batch [3; 7; 5], tenth); (batch [8], flit 2 1); (batch [6; 2; 1; 1], tenth)].
Definition toy_new : arm F nat nat := arm_new (f64 toy_lib) 0.

Lemma toy_perm : fair_perm toy_arm_world.
Proof. intros g l. simpl. destruct (Nat.even g); [reflexivity|]. symmetry. apply Permutation_rev. Qed.
Lemma batch_aligned l : aligned (batch l).
Proof.
  exists (mkArr [1] (map (fun x => [x]) l)). unfold batch, ed_init. simpl. unfold alen. simpl.
  repeat split; rewrite ?map_length; reflexivity.
Qed.
Lemma batch_shape l l' : same_shape (batch l) (batch l').
Proof. repeat split. Qed.
Lemma toy_shaped : well_shaped (f64 toy_lib) (@identity_fn nat) (batch []) toy_hist.
Proof.
  unfold well_shaped. apply Forall_forall. intros t Ht. unfold transformed in Ht. apply in_flat_map in Ht as ([d delta] & H1 & H2).
  cbn [fst snd identity_fn] in H2. destruct (valid_delta _ _); [|destruct H2]. destruct H2 as [<-|[]].
  assert (exists l, d = batch l) as (l & ->).
  { unfold toy_hist in H1. repeat destruct H1 as [H1|H1]; try (inversion H1; subst; eexists; reflexivity); try destruct H1. }
  split; [apply batch_aligned|apply batch_shape].
Qed.
(** sequential means of nonnegative numbers are nonnegative *)
Lemma toy_mean : mean_sane toy_lib.
Proof.
  intros l Hl Hn. simpl in *. unfold seq_mean in *.
  assert (Hs : forall l acc, (forall x, In x l -> num x -> 0 <= fkey x)%R -> (num acc -> 0 <= fkey acc)%R ->
             (num (fold_left fadd l acc) -> 0 <= fkey (fold_left fadd l acc))%R).
  { clear. induction l as [|x l IH]; intros acc Hl Ha; simpl; [exact Ha|]. apply IH; [intros; apply Hl; [right|]; assumption|].
    intros Hn. destruct (f_add_nan _ _ Hn) as [N1 N2]. specialize (Ha N1). specialize (Hl x (or_introl eq_refl) N2).
    pose proof (proj1 (f_add_key _ _ Hn) Hl). lra. }
  destruct (f_div_nan _ _ Hn) as [N1 N2]. destruct l as [|x l].
  { simpl in Hn. vm_compute in Hn. discriminate. }
  apply fdiv_nonneg; [| |exact Hn].
  - apply Hs; [exact Hl|simpl; lra|exact N1].
  - pose proof (of_Z_big (Z.of_nat (length (x :: l)))) as Hb. simpl length in Hb. unfold f_of_nat. simpl length.
    specialize (Hb ltac:(lia)). lra.
Qed.

Section Statements.
Context {N V H G : Type} (o : numops N) (vnone : V) (eo : eta_ops N V H G) (w : arm_world N G)
        (tr : expdata V -> res (expdata V)).
Notation arm := (arm N V H).
Notation larm := (ArmModel.arm N V (H * list (event V))).
Notation lo := (logged_eta eo).

(** ** C25: the folds after any history [h] of updates, some of which may raise. [parts] says
    how each transformed batch was divided. *)
Theorem C25_data_partitioned : forall opts (a : arm) g h t0,
  so_stable opts = true -> fair_perm w -> ar_split a = None -> well_shaped o tr t0 h ->
  let a' := fst (fst (feed (ss_update o vnone eo w tr opts) a g h)) in
  exists parts, Forall2 halves (transformed o tr h) parts /\
    (transformed o tr h = [] -> ar_split a' = None) /\
    (transformed o tr h <> [] -> exists f0 f1, ar_split a' = Some [f0; f1] /\
       units f0 = concat (map fst parts) /\ units f1 = concat (map snd parts) /\
       Permutation (units f0 ++ units f1) (concat (map units (transformed o tr h)))) /\
    ss_units a' = list_sum (map (@n_units V) (transformed o tr h)).
Proof. exact (ss_partition_l o vnone eo w tr). Qed.

(** ** C26 *)
(** all fits and scores of a history: fits see only first halves, scores only second halves *)
Theorem C26_separation : forall opts t0 h (a : larm) g,
  fair_perm w -> so_stable opts = true -> ar_split a = None -> log_of a = [] -> well_shaped o tr t0 h ->
  let a' := fst (fst (feed (ss_update o vnone lo w tr opts) a g h)) in
  exists parts, Forall2 halves (transformed o tr h) parts /\
    Forall (fun e => match e with
                     | EFit d => exists k, k <= length parts /\ units d = concat (map fst (firstn k parts))
                     | EScore d => exists k, k <= length parts /\ units d = concat (map snd (firstn k parts))
                     end) (log_of a') /\
    (NoDup (concat (map units (transformed o tr h))) ->
     forall d d' u, In (EFit d) (log_of a') -> In (EScore d') (log_of a') -> In u (units d) -> ~ In u (units d')).
Proof. exact (separation o vnone eo w tr). Qed.

(** recording the calls does not change the arm's behaviour *)
Theorem C26_log_faithful : forall opts h (a : larm) g,
  feed (ss_update o vnone eo w tr opts) (erase_arm a) g h =
  let '((a', g'), rs) := feed (ss_update o vnone lo w tr opts) a g h in ((erase_arm a', g'), rs).
Proof. exact (erase_feed o vnone eo w tr). Qed.

(** one update after any history: nothing is fitted or scored without new data; otherwise one
    fit on the current fold 0 followed by scores on the current fold 1 *)
Theorem C26_each_update : forall opts t0 h (a : larm) g d delta,
  fair_perm w -> so_stable opts = true -> ar_split a = None -> log_of a = [] -> well_shaped o tr t0 (h ++ [(d, delta)]) ->
  let upd := ss_update o vnone lo w tr opts in
  let a1 := fst (fst (feed upd a g h)) in
  let a2 := fst (fst (upd a1 d delta (snd (fst (feed upd a g h))))) in
  (transformed o tr [(d, delta)] = [] -> log_of a2 = log_of a1) /\
  (transformed o tr [(d, delta)] <> [] -> exists f0 f1 k, ar_split a2 = Some [f0; f1] /\ k <= 3 /\
     log_of a2 = log_of a1 ++ EFit f0 :: repeat (EScore f1) k).
Proof.
  intros opts t0 h a g d delta Hp Hs Ha Hl Hw. cbv zeta.
  assert (Hw' : Forall (fun t => aligned t /\ same_shape t0 t) (transformed o tr h) /\ Forall (fun t => aligned t /\ same_shape t0 t) (transformed o tr [(d, delta)])).
  { unfold well_shaped in Hw. unfold transformed in Hw at 1. rewrite flat_map_app in Hw. apply Forall_app in Hw. exact Hw. }
  destruct Hw' as [W1 W2].
  destruct (log_hist o vnone eo w tr opts t0 Hp Hs h a g []) as (q & _ & Hf & _).
  - unfold folds_are. rewrite Ha. reflexivity.
  - rewrite Hl. constructor.
  - exact W1.
  - destruct (ss_update o vnone lo w tr opts (fst (fst (feed (ss_update o vnone lo w tr opts) a g h))) d delta
                (snd (fst (feed (ss_update o vnone lo w tr opts) a g h)))) as [[a2 g2] r] eqn:E.
    eapply log_step in E; try eassumption.
    + destruct E as (q2 & _ & _ & [E|E] & Hiff).
      * split; [intros _; exact E|]. intros Hn. exfalso. apply Hn, Hiff, E.
      * split; [intros Hn; apply Hiff, Hn|intros _; exact E].
    + intros Hv t Ht. unfold transformed in W2. simpl in W2. rewrite Hv, Ht in W2. inversion W2; assumption.
Qed.

(** a unit's fold never changes: later folds extend earlier ones *)
Lemma feed_app : forall (upd : arm -> expdata V -> N -> G -> (arm * G) * res (N * N)) h1 h2 a g,
  fst (feed upd a g (h1 ++ h2)) = fst (feed upd (fst (fst (feed upd a g h1))) (snd (fst (feed upd a g h1))) h2).
Proof.
  intros upd h1. induction h1 as [|[d delta] h1 IH]; intros h2 a g; simpl; [reflexivity|].
  destruct (upd a d delta g) as [[a1 g1] r]. specialize (IH h2 a1 g1).
  destruct (feed upd a1 g1 (h1 ++ h2)) as [[? ?] ?]. destruct (feed upd a1 g1 h1) as [[? ?] ?]. exact IH.
Qed.
Theorem C26_folds_grow : forall opts t0 h1 h2 (a : arm) g f0 f1,
  fair_perm w -> so_stable opts = true -> ar_split a = None -> well_shaped o tr t0 (h1 ++ h2) ->
  ar_split (fst (fst (feed (ss_update o vnone eo w tr opts) a g h1))) = Some [f0; f1] ->
  exists f0' f1' r0 r1, ar_split (fst (fst (feed (ss_update o vnone eo w tr opts) a g (h1 ++ h2)))) = Some [f0'; f1'] /\
    units f0' = units f0 ++ r0 /\ units f1' = units f1 ++ r1.
Proof.
  intros opts t0 h1 h2 a g f0 f1 Hp Hs Ha Hw H1.
  assert (Hw' : well_shaped o tr t0 h1 /\ well_shaped o tr t0 h2).
  { unfold well_shaped in *. unfold transformed in Hw at 1. rewrite flat_map_app in Hw. apply Forall_app in Hw. exact Hw. }
  destruct Hw' as [W1 W2]. rewrite feed_app.
  set (a1 := fst (fst (feed _ a g h1))) in *. set (g1 := snd (fst (feed _ a g h1))) in *.
  destruct (feed_stable o vnone w tr (ss_update o vnone eo w tr opts) (so_stable opts)
              (ss_frame' o vnone eo w tr opts) (ss_inv' o vnone eo w tr opts) Hp t0 Hs h1 a g []) as (p & _ & Hf).
  { unfold folds_are. rewrite Ha. reflexivity. }
  { exact W1. }
  fold a1 in Hf. simpl app in Hf.
  destruct (feed_stable o vnone w tr (ss_update o vnone eo w tr opts) (so_stable opts)
              (ss_frame' o vnone eo w tr opts) (ss_inv' o vnone eo w tr opts) Hp t0 Hs h2 a1 g1 p Hf W2) as (q & _ & Hg).
  unfold folds_are in Hf. rewrite H1 in Hf. destruct Hf as (Hpn & e0 & e1 & E & _ & _ & _ & _ & U0 & U1). inversion E; subst e0 e1.
  unfold folds_are in Hg. destruct (ar_split (fst (fst (feed _ a1 g1 h2)))) as [fs|].
  - destruct Hg as (_ & e0 & e1 & -> & _ & _ & _ & _ & Q0 & Q1). exists e0, e1, (concat (map fst q)), (concat (map snd q)).
    split; [reflexivity|]. rewrite Q0, Q1, U0, U1, !map_app, !concat_app. auto.
  - apply app_eq_nil in Hg. tauto.
Qed.

(** ** C27 *)
Theorem C27_unstable_forgets : forall opts h (a : arm) g l t,
  so_stable opts = false -> fair_perm w -> Forall aligned (transformed o tr h) -> transformed o tr h = l ++ [t] ->
  let a' := fst (fst (feed (ss_update o vnone eo w tr opts) a g h)) in
  exists f0 f1, ar_split a' = Some [f0; f1] /\ halves t (units f0, units f1) /\ ss_units a' = n_units t.
Proof. intros opts h a g l t H1 H2. apply (ss_forgets_l o vnone eo w tr opts H1 H2). Qed.

(** ** C28 *)
Theorem C28_invalid_delta_changes_nothing : forall opts stable nb (a : arm) d delta g,
  ~ (nltb o (nint o 0) delta = true /\ nltb o delta (nint o 1) = true) ->
  ss_update o vnone eo w tr opts a d delta g = ((a, g), Err ValueError) /\
  bs_update o vnone eo w tr stable nb a d delta g = ((a, g), Err ValueError).
Proof.
  intros opts stable nb a d delta g Hd.
  assert (E : valid_delta o delta = false).
  { unfold valid_delta. apply not_true_iff_false. rewrite andb_true_iff. exact Hd. }
  split; [apply ss_invalid_l, E|apply bs_invalid_l, E].
Qed.
Theorem C28_valid_delta_counts : forall opts stable nb (a : arm) d delta g,
  nltb o (nint o 0) delta = true -> nltb o delta (nint o 1) = true ->
  ar_pulled (fst (fst (ss_update o vnone eo w tr opts a d delta g))) = S (ar_pulled a) /\
  ar_pulled (fst (fst (bs_update o vnone eo w tr stable nb a d delta g))) = S (ar_pulled a).
Proof.
  intros opts stable nb a d delta g H0 H1.
  assert (E : valid_delta o delta = true) by (unfold valid_delta; rewrite H0, H1; reflexivity). split.
  - destruct (ss_update o vnone eo w tr opts a d delta g) as [[a' g'] r] eqn:Eu. eapply ss_pulled_l in Eu; [|exact E]. apply Eu.
  - destruct (bs_update o vnone eo w tr stable nb a d delta g) as [[a' g'] r] eqn:Eu. eapply bs_pulled_l in Eu; [|exact E]. apply Eu.
Qed.

(** ** C29: [a] is any arm whose folds, if any, have the shape of the data *)
Definition folds_shaped (t0 : expdata V) (a : arm) : Prop :=
  match ar_split a with
  | None => True
  | Some fs => exists f0 f1, fs = [f0; f1] /\ aligned f0 /\ aligned f1 /\ same_shape t0 f0 /\ same_shape t0 f1
  end.
Theorem C29_too_few_samples : forall opts (a : arm) d delta g t0 t,
  fair_perm w -> nltb o (nint o 0) delta = true -> nltb o delta (nint o 1) = true ->
  tr d = Ok t -> aligned t -> same_shape t0 t -> folds_shaped t0 a ->
  exists f0 f1 g1, (** the folds after the update, and the random state before the fit *)
    ar_split (fst (fst (ss_update o vnone eo w tr opts a d delta g))) = Some [f0; f1] /\
    forall h g2, e_fit eo (ar_eta a) f0 g1 = ((h, g2), None) -> e_enough eo h = false ->
      snd (ss_update o vnone eo w tr opts a d delta g) = Ok (nint o 0, ninf o) /\
      let a' := fst (fst (ss_update o vnone eo w tr opts a d delta g)) in
      ar_ci a' = (Some (nint o 0), Some (ninf o)) /\ ar_ate a' = Some (nnan o) /\ ar_var a' = Some (ninf o) /\ ar_eta a' = h.
Proof.
  intros opts a d delta g t0 t Hp H0 H1 Ht Hal Hsh Hf.
  assert (E : valid_delta o delta = true) by (unfold valid_delta; rewrite H0, H1; reflexivity).
  pose proof (absorb_data o vnone w tr (so_stable opts) a d delta g t0 Hp E) as Ha.
  specialize (Ha ltac:(intros t' Ht'; rewrite Ht in Ht'; inversion Ht'; subst; auto) Hf). rewrite Ht in Ha.
  destruct Ha as (a1 & g1 & f0 & f1 & n0 & n1 & Ha & Hs & _).
  exists f0, f1, g1. split.
  - destruct (ss_update o vnone eo w tr opts a d delta g) as [[a' g'] r] eqn:Eu.
    destruct (ss_frame o vnone eo w tr opts a d delta g a1 g1 None Ha a' g' r Eu) as (Hx & _). simpl. rewrite Hx. exact Hs.
  - intros h g2 Hfit Hen. destruct (ss_forward o vnone eo w tr opts a d delta g a1 g1 f0 f1 Ha Hs h g2 Hfit) as [Hfw _].
    rewrite (Hfw Hen). simpl. auto.
Qed.

(** ** C34 *)
(** the results of a history, and everything but the interval, are the same on a reset arm
    and on a new one; the stored interval is the last one returned *)
Theorem C34_reset_as_new : forall opts eta0 h1 h2 (g g' : G),
  let upd := ss_update o vnone eo w tr opts in
  let used := fst (fst (feed upd (arm_new o eta0) g h1)) in
  e_reset eo (ar_eta used) = eta0 ->
  let A := feed upd (arm_reset eo used) g' h2 in
  let B := feed upd (arm_new o eta0) g' h2 in
  snd A = snd B /\ snd (fst A) = snd (fst B) /\
  ar_ate (fst (fst A)) = ar_ate (fst (fst B)) /\ ar_var (fst (fst A)) = ar_var (fst (fst B)) /\
  ar_pulled (fst (fst A)) = ar_pulled (fst (fst B)) /\ ar_split (fst (fst A)) = ar_split (fst (fst B)) /\
  ar_eta (fst (fst A)) = ar_eta (fst (fst B)) /\
  ((exists l u, In (Ok (l, u)) (snd A)) -> ar_ci (fst (fst A)) = ar_ci (fst (fst B))) /\
  ((forall l u, ~ In (Ok (l, u)) (snd A)) ->
     ar_ci (fst (fst A)) = (None, None) /\ ar_ci (fst (fst B)) = (Some (nsub o (nint o 0) (ninf o)), Some (ninf o))).
Proof.
  intros opts eta0 h1 h2 g g' upd used Hr A B.
  assert (Hsame : same_but_ci (arm_reset eo used) (arm_new o eta0)).
  { unfold same_but_ci, arm_reset, arm_new. simpl. rewrite Hr. auto. }
  destruct (same_feed o vnone eo w tr opts h2 _ _ g' Hsame) as ((S1 & S2 & S3 & S4 & S5) & S6 & S7).
  fold upd in S1, S2, S3, S4, S5, S6, S7. fold A in S1, S2, S3, S4, S5, S6, S7. fold B in S1, S2, S3, S4, S5, S6, S7.
  do 7 (split; [assumption|]).
  pose proof (feed_ci o vnone eo w tr opts h2 (arm_reset eo used) g') as CA.
  pose proof (feed_ci o vnone eo w tr opts h2 (arm_new o eta0) g') as CB. fold upd in CA, CB. fold A in CA. fold B in CB.
  rewrite <- S7 in CB. rewrite CA, CB. simpl ar_ci. clear.
  assert (Hf : forall rs : list (res (N * N)),
     (forall c c', (exists l u, In (Ok (l, u)) rs) ->
       fold_left (fun c r => match r with Ok (l, u) => (Some l, Some u) | Err _ => c end) rs c =
       fold_left (fun c r => match r with Ok (l, u) => (Some l, Some u) | Err _ => c end) rs c') /\
     (forall c, (forall l u, ~ In (Ok (l, u)) rs) ->
       fold_left (fun c r => match r with Ok (l, u) => (Some l, Some u) | Err _ => c end) rs c = c)).
  { induction rs as [|r rs [IH1 IH2]]; split.
    - intros c c' (l & u & []).
    - reflexivity.
    - intros c c' Hin. simpl. destruct r as [[l u]|e]; [reflexivity|]. apply IH1. destruct Hin as (l & u & [Hx|Hx]); [discriminate|eauto].
    - intros c Hin. simpl. destruct r as [[l u]|e]; [exfalso; apply (Hin l u); left; reflexivity|].
      apply IH2. intros l u Hx. apply (Hin l u). right. exact Hx. }
  destruct (Hf (snd A)) as [F1 F2]. split; [intros Hx; apply F1, Hx|]. intros Hx. split; apply F2, Hx.
Qed.

(** ** C35 *)
Theorem C35_base_arm : forall (a : arm),
  exists a', base_update o a = (a', Some AttributeError) /\ ar_ci a' = (Some (nint o 0), Some (ninf o)) /\
    ar_ate a' = ar_ate a /\ ar_var a' = ar_var a /\ ar_pulled a' = ar_pulled a /\ ar_split a' = ar_split a /\ ar_eta a' = ar_eta a.
Proof. intros a. eexists. split; [reflexivity|]. simpl. auto 10. Qed.

(** ** C37 *)
Theorem C37_last_fit_is_a_resample : forall stable nb (a : larm) d delta g a' g' l u b,
  bs_update o vnone lo w tr stable nb a d delta g = ((a', g'), Ok (l, u)) ->
  boot_count o nb delta = Ok b -> (1 <= b)%Z ->
  exists f0 f1 rest us din dout pre,
    ar_split a' = Some (f0 :: f1 :: rest) /\
    subsample (fun _ => us) f0 (fdiv (f_of_Z 1) (f_of_nat (Z.to_nat b))) = Ok (din, dout) /\
    log_of a' = pre ++ [EFit din; EScore dout; EScore f1; EScore f1].
Proof. exact (bs_last_fit_l o vnone eo w tr). Qed.
End Statements.
(** what a bandit is told by get_num_units: 0, however many units the arm holds *)
Theorem C37_units_always_zero :
  forall {V H G} lib (vnone : V) (eo : eta_ops F V H G) (w : arm_world F G) tr stable nb cost (a : ArmModel.arm F V H),
  a_units (bs_arm_ops lib vnone eo w tr stable nb cost) a = 0.
Proof. reflexivity. Qed.
Print Assumptions C25_data_partitioned.
Print Assumptions C26_separation.
Print Assumptions C26_log_faithful.
Print Assumptions C26_each_update.
Print Assumptions C26_folds_grow.
Print Assumptions C27_unstable_forgets.
Print Assumptions C28_invalid_delta_changes_nothing.
Print Assumptions C28_valid_delta_counts.
Print Assumptions C29_too_few_samples.
Print Assumptions C34_reset_as_new.
Print Assumptions C35_base_arm.
Print Assumptions C37_last_fit_is_a_resample.
Print Assumptions C37_units_always_zero.
