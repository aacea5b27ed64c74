(** Property theorem C68: arms under the bandit algorithms. *)
From Coq Require Import List Arith ZArith Lia Bool Reals Lra Permutation.
From Flocq Require Import Core BinarySingleNaN.
From Verif Require Import PyBase PyLemmas Num NumLemmas NumOps FloatOps NumLaws DataModel DataSpec
  BanditModel BanditSpec BanditProofs5 BanditProofs8 BanditProps ArmModel ArmSpec ArmProps ArmProps2.
Import ListNotations.
Open Scope nat_scope.

(** the random state counts the draws; a choice takes the first element *)
Definition shared_world : world (expdata nat) nat :=
  mkWorld (expdata nat) nat
    (fun g n => (Ok (batch (repeat g n)), S g))
    (fun d a b => getslice d (Some (Z.of_nat a)) (Some (Z.of_nat b)))
    (fun g l => (hd 0 l, S g))
    (fun g n => ((0, 1), S g)).
(** the permutation depends on the random state *)
Definition shared_arm_world : arm_world F nat :=
  mkArmWorld F nat
    (fun g l => (if (g mod 4 =? 1) || (g mod 4 =? 2) then rev l else l, S g))
    (aw_draw toy_arm_world) (aw_chi2 toy_arm_world) (aw_norm toy_arm_world).
Definition shared_ops : arm_ops (arm F nat nat) (expdata nat) nat :=
  ss_arm_ops toy_lib 0 toy_eta shared_arm_world (@identity_fn nat) (toy_opts FINITE_SAMPLE true) (f_of_Z 1).
Definition shared_cfg : config := mkConfig (flit 5 100) f0 (Some (flit 5 100)) (LInt 100) 4.
Definition shared_data : expdata nat := batch [1; 4; 9; 2; 3; 7; 5; 11; 6; 2; 8; 1].
Definition shared_arms : list (arm F nat nat) := [toy_new; toy_new].
Definition play alg fuel := run alg (logged shared_ops) shared_world shared_cfg fuel (Some shared_data) (with_log shared_arms) 0.
Definition arm0 alg fuel : option (arm F nat nat * list (expdata nat * F)) :=
  nth_error (b_arms (final_state (play alg fuel))) 0.

Definition ci_key (a : arm F nat nat) : option SpecFloat.spec_float * option SpecFloat.spec_float :=
  (option_map B2SF (fst (ar_ci a)), option_map B2SF (snd (ar_ci a))).

(** ** C68 *)
(** two runs on the same data, arms, configuration and initial random state: arm 0 has been
    updated twice, with the same batches and deltas, but its intervals differ *)
Theorem C68_sequences_differ :
  fair_choice shared_world /\ fair_perm shared_arm_world /\
  exists x y, arm0 Uniform 2 = Some x /\ arm0 LUCB 1 = Some y /\
    length (snd x) = 2 /\ map fst (snd x) = map fst (snd y) /\
    map (fun e => B2SF (snd e)) (snd x) = map (fun e => B2SF (snd e)) (snd y) /\
    ar_ci (fst x) <> ar_ci (fst y).
Proof.
  split.
  { split; [intros g [|x l] H; simpl; [contradiction|auto]|]. simpl. intros. lia. }
  split.
  { intros g l. cbn [shared_arm_world aw_perm fst]. destruct ((g mod 4 =? 1) || (g mod 4 =? 2)); [symmetry; apply Permutation_rev|reflexivity]. }
  assert (Nx : option_map (fun _ => tt) (arm0 Uniform 2) = Some tt) by (vm_compute; reflexivity).
  assert (Ny : option_map (fun _ => tt) (arm0 LUCB 1) = Some tt) by (vm_compute; reflexivity).
  destruct (arm0 Uniform 2) as [x|] eqn:Ex; [|discriminate Nx].
  destruct (arm0 LUCB 1) as [y|] eqn:Ey; [|discriminate Ny].
  clear Nx Ny.
  exists x, y. split; [reflexivity|]. split; [reflexivity|].
  assert (K : forall T (f : arm F nat nat * list (expdata nat * F) -> T),
              Some (f x) = option_map f (arm0 Uniform 2) /\ Some (f y) = option_map f (arm0 LUCB 1)).
  { intros. rewrite Ex, Ey. split; reflexivity. }
  assert (I : forall T (f : arm F nat nat * list (expdata nat * F) -> T),
              option_map f (arm0 Uniform 2) = option_map f (arm0 LUCB 1) -> f x = f y).
  { intros T f Hf. destruct (K T f) as [K1 K2]. congruence. }
  split; [destruct (K _ (fun z => length (snd z))) as [K1 _]; assert (E : option_map (fun z => length (snd z)) (arm0 Uniform 2) = Some 2) by (vm_compute; reflexivity); congruence|].
  split; [apply (I _ (fun z => map fst (snd z))); vm_compute; reflexivity|].
  split; [apply (I _ (fun z => map (fun e => B2SF (snd e)) (snd z))); vm_compute; reflexivity|].
  intros Hc. destruct (K _ (fun z => match fst (ar_ci (fst z)) with Some l => feqb l f0 | None => false end)) as [K1 K2].
  rewrite Hc in K1. rewrite K1 in K2. vm_compute in K2. discriminate.
Qed.
Print Assumptions C68_sequences_differ.

(** if the arms used no randomness and depended only on the units they are given, the
    sequences would be identical: the interval is a function of the number of updates *)
Theorem C68_identical_without_randomness : forall A D G X (rows : D -> list X) d0 alg alg' (ops : arm_ops A D G) w cfg fuel fuel' arms g g' i x y,
  slices_rows w rows d0 -> counts_rows ops rows -> fair_choice w -> arms <> [] -> (forall a, In a arms -> a_units ops a = 0) ->
  (forall a d d' delta g g', rows d = rows d' ->
     fst (fst (a_update ops a d delta g)) = fst (fst (a_update ops a d' delta g'))) ->
  nth_error (b_arms (final_state (run alg (logged ops) w cfg fuel (Some d0) (with_log arms) g))) i = Some x ->
  nth_error (b_arms (final_state (run alg' (logged ops) w cfg fuel' (Some d0) (with_log arms) g'))) i = Some y ->
  length (snd x) = length (snd y) -> fst x = fst y.
Proof.
  intros A D G X rows d0 alg alg' ops w cfg fuel fuel' arms g g' i x y H1 H2 H3 H4 H5 Hdet Hx Hy Hlen.
  (** the state of an arm is determined by its log *)
  set (upd1 := fun a (e : D * F) => fst (fst (a_update ops a (fst e) (snd e) g))).
  set (P := fun x0 x1 : A * list (D * F) => snd x0 = [] -> fst x1 = fold_left upd1 (snd x1) (fst x0)).
  assert (HP : forall alg fuel g, Forall2 (fun x0 x1 : A * list (D * F) => exists new, snd x1 = snd x0 ++ new /\ fst x1 = fold_left upd1 new (fst x0)) (with_log arms)
                  (b_arms (final_state (run alg (logged ops) w cfg fuel (Some d0) (with_log arms) g)))).
  { intros alg0 fuel0 g0. apply run_rel.
    - intros z. exists []. rewrite app_nil_r. auto.
    - intros a0 a d delta g1 a' g1' e (new & E1 & E2) Hu. simpl in Hu.
      destruct (a_update ops (fst a) d delta g1) as [[b gb] eb] eqn:Eu. inversion Hu; subst. simpl.
      exists (new ++ [(d, delta)]). rewrite E1, app_assoc. split; [reflexivity|]. rewrite fold_left_app. simpl. rewrite <- E2.
      unfold upd1. simpl. rewrite (Hdet _ _ d delta _ g1 eq_refl). rewrite Eu. reflexivity. }
  assert (HN : forall l, Forall2 (fun x0 x1 : A * list (D * F) => exists new, snd x1 = snd x0 ++ new /\ fst x1 = fold_left upd1 new (fst x0)) (with_log arms) l ->
             forall z, nth_error l i = Some z -> exists a0, nth_error arms i = Some a0 /\ fst z = fold_left upd1 (snd z) a0).
  { clear. unfold with_log. revert i. induction arms as [|a arms IH]; intros i l Hl z Hz.
    - inversion Hl; subst. destruct i; discriminate.
    - inversion Hl; subst. destruct i as [|i]; simpl in Hz.
      + inversion Hz; subst. destruct H1 as (new & E1 & E2). simpl in *. exists a. split; [reflexivity|]. rewrite E1. exact E2.
      + simpl. eapply IH; eauto. }
  destruct (HN _ (HP alg fuel g) x Hx) as (a0 & Ha & Ex). destruct (HN _ (HP alg' fuel' g') y Hy) as (a0' & Ha' & Ey).
  assert (a0' = a0) by congruence. subst a0'. rewrite Ex, Ey.
  assert (H3' : forall al, al = LUCB -> fair_choice w) by auto.
  destruct (C66_arms_read_sequentially _ rows d0 alg ops w cfg fuel arms g H1 H2 (H3' alg) H4 H5) as [_ L1].
  destruct (C66_arms_read_sequentially _ rows d0 alg' ops w cfg fuel' arms g' H1 H2 (H3' alg') H4 H5) as [_ L2].
  assert (Hl : Forall2 (fun e e' => rows (fst e) = rows (fst e') /\ snd e = snd e') (snd x) (snd y)).
  { apply nth_error_In in Hx, Hy. specialize (fun k b delta => L1 x k b delta Hx). specialize (fun k b delta => L2 y k b delta Hy).
    assert (Hk : forall k e e', nth_error (snd x) k = Some e -> nth_error (snd y) k = Some e' -> rows (fst e) = rows (fst e') /\ snd e = snd e').
    { intros k [b de] [b' de'] E1 E2. cbn [fst snd]. destruct (L1 _ _ _ E1) as [P1 Q1]. destruct (L2 _ _ _ E2) as [P2 Q2]. split; congruence. }
    clear -Hlen Hk. revert Hlen Hk. generalize (snd x) (snd y). intros l. induction l as [|e l IH]; intros [|e' l'] Hlen Hk; try discriminate; constructor.
    - apply (Hk 0); reflexivity.
    - apply IH; [simpl in Hlen; lia|]. intros k. apply (Hk (S k)). }
  clear -Hl Hdet. revert a0. induction Hl as [|e e' l l' [Hr Hd] Hl IH]; intros a0; simpl; [reflexivity|].
  assert (E : upd1 a0 e = upd1 a0 e').
  { unfold upd1. rewrite Hd. apply Hdet, Hr. }
  rewrite E. apply IH.
Qed.
Print Assumptions C68_identical_without_randomness.

(** ** C79: an arm whose unit count stays 0, such as a BootstrapArm, is given the first
    [units] rows of the dataset at every update, by every algorithm *)
Theorem C79_bootstrap_rereads_first_batch : forall V H G lib (vnone : V) (eo : eta_ops F V H G) aw tr stable nb cost
    (w : world (expdata V) G) cfg alg fuel d0 arms g x b delta,
  let ops := bs_arm_ops lib vnone eo aw tr stable nb cost in
  In x (b_arms (final_state (run alg (logged ops) w cfg fuel (Some d0) (with_log arms) g))) ->
  In (b, delta) (snd x) -> w_slice w d0 0 (c_units cfg) = Ok b.
Proof.
  intros V H G lib vnone eo aw tr stable nb cost w cfg alg fuel d0 arms g x b delta ops Hx Hb.
  assert (HP : Forall2 (fun x0 x1 : arm F V H * list (expdata V * F) => snd x0 = [] -> Forall (fun e => w_slice w d0 0 (c_units cfg) = Ok (fst e)) (snd x1) \/ snd x0 <> []) (with_log arms)
                  (b_arms (final_state (run alg (logged ops) w cfg fuel (Some d0) (with_log arms) g)))).
  { apply run_src.
    - intros z E. rewrite E. left. constructor.
    - intros a0 a d de g1 a' g1' e Hd Ha Hu E0. left. destruct (Ha E0) as [Ha'|Ha']; [|contradiction]. simpl in Hu.
      destruct (match bs_update _ _ _ _ _ _ _ _ _ _ _ with (s, Ok _) => (s, None) | (s, Err e) => (s, Some e) end) as [[c gc] ec].
      inversion Hu; subst. simpl. apply Forall_app. split; [exact Ha'|]. constructor; [|constructor]. simpl.
      destruct Hd as [(z & g2 & g3 & Hd)|(g2 & g3 & Hd)]; simpl in Hd; inversion Hd; reflexivity. }
  apply In_nth_error in Hx as (i & Hi).
  assert (HN : forall (l : list (arm F V H)) m i z, Forall2 (fun x0 x1 : arm F V H * list (expdata V * F) => snd x0 = [] -> Forall (fun e => w_slice w d0 0 (c_units cfg) = Ok (fst e)) (snd x1) \/ snd x0 <> []) (with_log l) m ->
            nth_error m i = Some z -> Forall (fun e => w_slice w d0 0 (c_units cfg) = Ok (fst e)) (snd z)).
  { clear. induction l as [|a l IH]; intros m i z Hm Hz; inversion Hm; subst; [destruct i; discriminate|].
    destruct i as [|i]; simpl in Hz; [|eapply IH; eauto]. inversion Hz; subst. destruct (H2 eq_refl) as [E|E]; [exact E|]. exfalso. apply E. reflexivity. }
  specialize (HN _ _ _ _ HP Hi). rewrite Forall_forall in HN. apply (HN _ Hb).
Qed.
Print Assumptions C79_bootstrap_rereads_first_batch.
(** two bootstrap arms, three rounds of four units: always the first four *)
Definition boot_ops : arm_ops (arm F nat nat) (expdata nat) nat :=
  bs_arm_ops toy_lib 0 toy_eta toy_arm_world (@identity_fn nat) true 3 (f_of_Z 1).
Example C79_case :
  option_map (fun x => map (fun e => option_map (@arows nat) (dcov (fst e))) (snd x))
    (nth_error (b_arms (final_state (run Uniform (logged boot_ops) shared_world shared_cfg 3 (Some shared_data) (with_log shared_arms) 0))) 0)
  = Some (repeat (Some [[1]; [4]; [9]; [2]]) 3).
Proof. vm_compute. reflexivity. Qed.
Example C68_case : slices_rows toy_world (fun d : list nat => d) [1; 2; 3; 4; 5] /\ counts_rows script_ops (fun d : list nat => d) /\
  fair_choice toy_world /\ (forall a, In a two -> a_units script_ops a = 0) /\
  (forall a d d' delta g g', d = d' -> fst (fst (a_update script_ops a d delta g)) = fst (fst (a_update script_ops a d' delta g'))).
Proof.
  split; [intros a b d' E; inversion E; reflexivity|]. split.
  { intros [[|x l] c u] d delta g a' g' E; inversion E; reflexivity. }
  split; [exact toy_fair|]. split; [intros a [<-|[<-|[]]]; reflexivity|].
  intros [[|x l] c u] d d' delta g g' ->; reflexivity.
Qed.
