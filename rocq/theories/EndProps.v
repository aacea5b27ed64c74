(** Property theorems C108, C109 (whole runs with the arms of arms.py). *)
From Coq Require Import List Arith ZArith Lia Bool Permutation.
From Verif Require Import PyBase PyLemmas Num NumLemmas NumOps DataModel DataSpec DataProofs DataProofs2 BanditModel BanditSpec BanditProofs1 BanditProofs2 BanditProofs5
  ArmModel ArmSpec ArmProofs1 ArmProofs2 ArmProofs3 ArmProps ArmProps3 PacSpec PacProofs EndModel EndSpec EndProofs.
Import ListNotations.
Open Scope nat_scope.

(** ** C108, for any arms: induction over the updates of each arm *)
Theorem C108_updates : forall A D G alg (ops : arm_ops A D G) w cfg fuel all arms g best s (Inv : nat -> nat -> A -> Prop),
  0 < c_units cfg ->
  (forall j a, nth_error arms j = Some a -> Inv j 0 a) ->
  (forall j n a d g a' g', j < length arms -> Inv j n a -> next_data ops w cfg all Inv n a d ->
     a_update ops a d (fdiv (c_error_prob cfg) (f_of_nat (length arms))) g = ((a', g'), None) -> Inv j (S n) a') ->
  run alg ops w cfg fuel all arms g = Returned best s ->
  (forall j a, nth_error (b_arms s) j = Some a -> exists n, Inv j n a /\ matches alg n (sampled_rounds s j (length (b_cum s)))) /\
  (forall j t r, j < length arms -> recorded s j t = Some r -> exists n a, Inv j n a /\ reports ops a r /\ matches alg n (pulls s j t)).
Proof.
  intros A D G alg ops w cfg fuel all arms g best s Inv Hu H0 Hup Hr.
  destruct (run_track ops w cfg all (length arms) Inv Hup Hu alg fuel arms g best s eq_refl H0 Hr) as (c & T1 & T2 & T3).
  split; [|exact T3]. intros j a Hj. exists (c j). split; [auto|]. apply T2.
  pose proof (run_shape ops w cfg alg fuel all arms g) as Sh. rewrite Hr in Sh. rewrite <- (sh_arms _ _ _ Sh). apply nth_error_Some. congruence.
Qed.
Print Assumptions C108_updates.

Section Mixed.
Context {V H G : Type} (lib : libm) (vnone : V) (aw : arm_world F G) (w : world (expdata V) G) (cfg : config).
Notation o := (f64 lib).
Notation marm := (setup V H G * arm F V H)%type.
Notation ops := (mixed_ops lib vnone aw).
Implicit Types (arms : list marm).

Lemma mixed_ok (x : marm) d delta g x' g' : a_update ops x d delta g = ((x', g'), None) ->
  fst x' = fst x /\
  match su_kind (fst x) with
  | Splitting opts => exists l u, ss_update o vnone (su_eta (fst x)) aw (su_tr (fst x)) opts (snd x) d delta g = ((snd x', g'), Ok (l, u))
  | Bootstrapped stable nb => exists l u, bs_update o vnone (su_eta (fst x)) aw (su_tr (fst x)) stable nb (snd x) d delta g = ((snd x', g'), Ok (l, u))
  end.
Proof.
  cbn [a_update mixed_ops]. destruct (su_kind (fst x)) as [opts|stable nb]; cbn [a_update ss_arm_ops bs_arm_ops].
  - destruct (ss_update _ _ _ _ _ _ _ _ _ _) as [[a1 g1] [[l u]|e]] eqn:E; [|discriminate]. intros E1. injection E1 as <- <-. split; [reflexivity|]. exists l, u. reflexivity.
  - destruct (bs_update _ _ _ _ _ _ _ _ _ _ _) as [[a1 g1] [[l u]|e]] eqn:E; [|discriminate]. intros E1. injection E1 as <- <-. split; [reflexivity|]. exists l, u. reflexivity.
Qed.
Lemma mixed_valid (x : marm) d delta g x' g' : a_update ops x d delta g = ((x', g'), None) ->
  valid_delta o delta = true /\ ar_pulled (snd x') = S (ar_pulled (snd x)).
Proof.
  intros E. apply mixed_ok in E as [_ E]. destruct (valid_delta o delta) eqn:Ev.
  - split; [reflexivity|]. unfold valid_delta in Ev. apply andb_true_iff in Ev as [E0 E1]. destruct (su_kind (fst x)) as [opts|stable nb]; destruct E as (l & u & E).
    + pose proof (proj1 (C28_valid_delta_counts o vnone (su_eta (fst x)) aw (su_tr (fst x)) opts true 0 (snd x) d delta g E0 E1)) as P. rewrite E in P. exact P.
    + pose proof (proj2 (C28_valid_delta_counts o vnone (su_eta (fst x)) aw (su_tr (fst x)) (ss_default o) stable nb (snd x) d delta g E0 E1)) as P. rewrite E in P. exact P.
  - exfalso. destruct (su_kind (fst x)) as [opts|stable nb]; destruct E as (l & u & E).
    + rewrite ss_invalid_l in E by exact Ev. discriminate.
    + rewrite bs_invalid_l in E by exact Ev. discriminate.
Qed.

(** num_pulled counts the rounds in which the bandit recorded samples for the arm *)
Theorem C108_pulled : forall alg fuel all arms g best s j su a0,
  0 < c_units cfg -> run alg ops w cfg fuel all arms g = Returned best s -> nth_error arms j = Some (su, a0) ->
  exists n a, nth_error (b_arms s) j = Some (su, a) /\ ar_pulled a = ar_pulled a0 + n /\
    matches alg n (sampled_rounds s j (length (b_cum s))).
Proof.
  intros alg fuel all arms g best s j su a0 Hu Hr Hj.
  destruct (C108_updates _ _ _ alg ops w cfg fuel all arms g best s
    (fun i n x => i = j -> fst x = su /\ ar_pulled (snd x) = ar_pulled a0 + n) Hu) as [H1 _]; [| |exact Hr|].
  - intros i a Hi ->. rewrite Hj in Hi. injection Hi as <-. simpl. auto with arith.
  - intros i n x d g0 x' g' _ HI _ E Ei. destruct (HI Ei) as [E1 E2]. destruct (mixed_valid _ _ _ _ _ _ E) as [_ Ep].
    apply mixed_ok in E as [Ef _]. split; [congruence|]. rewrite Ep, E2. lia.
  - pose proof (run_shape ops w cfg alg fuel all arms g) as Sh. rewrite Hr in Sh.
    destruct (nth_error (b_arms s) j) as [[su' a]|] eqn:Ea.
    + destruct (H1 j _ Ea) as (n & HI & Hm). destruct (HI eq_refl) as [E1 E2]. simpl in *. subst su'. exists n, a. auto.
    + exfalso. apply nth_error_None in Ea. rewrite (sh_arms _ _ _ Sh) in Ea. assert (j < length arms) by (apply nth_error_Some; congruence). lia.
Qed.

(** the data a sample splitting arm holds at the end of a run on freshly drawn data *)
Theorem C108_units : forall alg fuel arms g best s j su opts a0 t0,
  0 < c_units cfg -> fair_perm aw -> run alg ops w cfg fuel None arms g = Returned best s ->
  nth_error arms j = Some (su, a0) -> su_kind su = Splitting opts -> ar_split a0 = None ->
  (forall g d g', w_generate w g (c_units cfg) = (Ok d, g') ->
     exists t, su_tr su d = Ok t /\ aligned t /\ same_shape t0 t /\ n_units t = c_units cfg) ->
  exists n a, nth_error (b_arms s) j = Some (su, a) /\ matches alg n (sampled_rounds s j (length (b_cum s))) /\
    a_units ops (su, a) = (if so_stable opts then n else min n 1) * c_units cfg.
Proof.
  intros alg fuel arms g best s j su opts a0 t0 Hu Hp Hr Hj Hk Hs Hgen.
  set (fine := fun (n : nat) (a : arm F V H) => match ar_split a with
    | None => n = 0
    | Some fs => exists f0 f1, fs = [f0; f1] /\ aligned f0 /\ aligned f1 /\ same_shape t0 f0 /\ same_shape t0 f1 /\
        n_units f0 + n_units f1 = (if so_stable opts then n else min n 1) * c_units cfg
    end).
  destruct (C108_updates _ _ _ alg ops w cfg fuel None arms g best s
    (fun i n x => i = j -> fst x = su /\ fine n (snd x)) Hu) as [H1 _]; [| |exact Hr|].
  - intros i a Hi ->. rewrite Hj in Hi. injection Hi as <-. simpl. split; [reflexivity|]. unfold fine. rewrite Hs. reflexivity.
  - intros i n x d g0 x' g' _ HI (st & g1 & g2 & Hd & _) E Ei. destruct (HI Ei) as [E1 E2]. destruct (mixed_valid _ _ _ _ _ _ E) as [Ev _].
    apply mixed_ok in E as [Ef E]. split; [congruence|]. rewrite E1, Hk in E. destruct E as (l & u & E). simpl in Hd.
    destruct (Hgen _ _ _ Hd) as (t & Ht & Hal & Hsh & Hn).
    pose proof (absorb_data o vnone aw (su_tr su) (so_stable opts) (snd x) d _ g0 t0 Hp Ev) as Ha.
    specialize (Ha ltac:(intros t' Ht'; rewrite Ht in Ht'; injection Ht' as <-; auto)). rewrite Ht in Ha.
    destruct Ha as (a1 & g3 & f0 & f1 & n0 & n1 & Ha & Hsp & A0 & A1 & S0 & S1 & (Hh & _) & Hun).
    { unfold fine in E2. destruct (ar_split (snd x)) as [fs|]; [|exact Logic.I]. destruct E2 as (p0 & p1 & -> & B). exists p0, p1. tauto. }
    destruct (ss_frame o vnone (su_eta su) aw (su_tr su) opts _ _ _ _ _ _ _ Ha _ _ _ E) as (Es & _). unfold fine. rewrite Es, Hsp.
    exists f0, f1. do 5 (split; [first [reflexivity|assumption]|]).
    apply Permutation_length in Hh. cbn [fst snd] in Hh. rewrite app_length, units_length, Hn in Hh.
    assert (U0 : n_units f0 = length (units f0)) by (symmetry; apply units_length). assert (U1 : n_units f1 = length (units f1)) by (symmetry; apply units_length).
    rewrite U0, U1. unfold fine in E2. destruct (so_stable opts).
    + destruct (ar_split (snd x)) as [fs|].
      * destruct E2 as (p0 & p1 & -> & _ & _ & _ & _ & En). injection Hun as -> ->. rewrite !app_length, !units_length. lia.
      * injection Hun as -> ->. lia.
    + injection Hun as -> ->. simpl. lia.
  - pose proof (run_shape ops w cfg alg fuel None arms g) as Sh. rewrite Hr in Sh.
    destruct (nth_error (b_arms s) j) as [[su' a]|] eqn:Ea.
    + destruct (H1 j _ Ea) as (n & HI & Hm). destruct (HI eq_refl) as [E1 E2]. simpl in E1, E2. subst su'. exists n, a. split; [reflexivity|]. split; [exact Hm|].
      cbn [a_units mixed_ops fst snd]. rewrite Hk. cbn [a_units ss_arm_ops]. unfold fine in E2. unfold ss_units. destruct (ar_split a) as [fs|].
      * destruct E2 as (f0 & f1 & -> & _ & _ & _ & _ & E2). simpl. lia.
      * subst n. destruct (so_stable opts); reflexivity.
    + exfalso. apply nth_error_None in Ea. rewrite (sh_arms _ _ _ Sh) in Ea. assert (j < length arms) by (apply nth_error_Some; congruence). lia.
Qed.

(** every recorded interval of a CLT arm was computed with the level delta / n^2, n the number of rounds with
    samples for it (arms.py:204, 248) *)
Theorem C108_clt_level : forall alg fuel all arms g best s j t r su opts a0,
  0 < c_units cfg -> run alg ops w cfg fuel all arms g = Returned best s ->
  nth_error arms j = Some (su, a0) -> su_kind su = Splitting opts -> so_ci opts = CLT -> ar_pulled a0 = 0 ->
  recorded s j t = Some r ->
  exists n a l u, matches alg n (pulls s j t) /\ 1 <= n /\ reports ops (su, a) r /\ ar_ci a = (Some l, Some u) /\
    ((e_enough (su_eta su) (ar_eta a) = false /\ l = nint o 0 /\ u = ninf o) \/
     exists v ate sc m, ar_var a = Some v /\
       (l, u) = clt_ci o aw v ate (clt_delta o (fdiv (c_error_prob cfg) (f_of_nat (length arms))) n) sc m).
Proof.
  intros alg fuel all arms g best s j t r su opts a0 Hu Hr Hj Hk Hci Hp0 Hrec.
  set (delta := fdiv (c_error_prob cfg) (f_of_nat (length arms))).
  set (good := fun (n : nat) (a : arm F V H) => exists l u, ar_ci a = (Some l, Some u) /\
    ((e_enough (su_eta su) (ar_eta a) = false /\ l = nint o 0 /\ u = ninf o) \/
     exists v ate sc m, ar_var a = Some v /\ (l, u) = clt_ci o aw v ate (clt_delta o delta n) sc m)).
  assert (Hjl : j < length arms) by (apply nth_error_Some; congruence).
  destruct (C108_updates _ _ _ alg ops w cfg fuel all arms g best s
    (fun i n x => i = j -> fst x = su /\ ar_pulled (snd x) = n /\ (1 <= n -> good n (snd x))) Hu) as [_ H2]; [| |exact Hr|].
  - intros i a Hi ->. rewrite Hj in Hi. injection Hi as <-. simpl. split; [reflexivity|]. split; [exact Hp0|lia].
  - intros i n x d g0 x' g' _ HI _ E Ei. destruct (HI Ei) as (E1 & E2 & _). fold delta in E. destruct (mixed_valid _ _ _ _ _ _ E) as [_ Ep].
    apply mixed_ok in E as [Ef E]. split; [congruence|]. split; [congruence|]. intros _. rewrite E1, Hk in E. destruct E as (l & u & E).
    apply ss_ok_inv in E as (Ec & a1 & g1 & f0 & h & g2 & _ & _ & _ & _ & [Hx|(_ & f1 & h1 & h2 & s1 & s2 & ate & v & _ & _ & _ & _ & _ & _ & Hv & _ & Hm)]);
      exists l, u; (split; [exact Ec|]).
    + left. destruct Hx as (X1 & X2 & X3 & _ & _ & X4). rewrite X4. auto.
    + right. rewrite Hci in Hm. destruct Hm as (s3 & _ & Hm). rewrite Ep, E2 in Hm. exists v, ate, s3, (n_units f1). auto.
  - destruct (H2 j t r Hjl Hrec) as (n & [su' a] & HI & Hrep & Hm). destruct (HI eq_refl) as (E1 & _ & E3). simpl in E1, E3. subst su'.
    assert (Hn : 1 <= n).
    { assert (Ht : t < length (b_cum s)).
      { pose proof (run_shape ops w cfg alg fuel all arms g) as Sh. rewrite Hr in Sh. unfold recorded in Hrec. destruct (nth_error (b_hist s) j) as [h|] eqn:Eh; [|discriminate].
        pose proof (sh_hlen _ _ _ Sh) as F0. rewrite Forall_forall in F0. rewrite <- (F0 h (nth_error_In _ _ Eh)). apply nth_error_Some. congruence. }
      assert (Hz : sampled s j 0 = true).
      { unfold sampled. destruct (run_same ops w cfg alg fuel all arms g best s Hr j 0 Hjl ltac:(lia)) as [->|(Hx & _)]; [destruct (c_units cfg); [lia|reflexivity]|lia]. }
      destruct Hm as [[Hm _] _]. unfold pulls in Hm. cbn [seq filter] in Hm. rewrite Hz in Hm. simpl in Hm. lia. }
    destruct (E3 Hn) as (l & u & Hc & Hx). exists n, a, l, u. auto.
Qed.

(** the recorded values of an arm are its own interval and variance times its own cost *)
Theorem C108_cost : forall alg fuel all arms g best s j t r su a0,
  0 < c_units cfg -> run alg ops w cfg fuel all arms g = Returned best s ->
  nth_error arms j = Some (su, a0) -> recorded s j t = Some r ->
  exists n (a : arm F V H) l u v, matches alg n (pulls s j t) /\ ar_pulled a = ar_pulled a0 + n /\
    ar_ci a = (Some l, Some u) /\ ar_var a = Some v /\
    r = mkReading (fmul (su_cost su) l) (fmul (su_cost su) u) (fmul (su_cost su) v).
Proof.
  intros alg fuel all arms g best s j t r su a0 Hu Hr Hj Hrec.
  assert (Hjl : j < length arms) by (apply nth_error_Some; congruence).
  destruct (C108_updates _ _ _ alg ops w cfg fuel all arms g best s 
    (fun i n x => i = j -> fst x = su /\ ar_pulled (snd x) = ar_pulled a0 + n) Hu) as [_ H2]; [| |exact Hr|].
  - intros i a Hi ->. rewrite Hj in Hi. injection Hi as <-. simpl. auto with arith.
  - intros i n x d g0 x' g' _ HI _ E Ei. destruct (HI Ei) as [E1 E2]. destruct (mixed_valid _ _ _ _ _ _ E) as [_ Ep].
    apply mixed_ok in E as [Ef _]. split; [congruence|]. rewrite Ep, E2. lia.
  - destruct (H2 j t r Hjl Hrec) as (n & [su' a] & HI & (l & u & v & Hci & Hv & R1 & R2 & R3) & Hm).
    destruct (HI eq_refl) as [HI1 HI2]. simpl in HI1, HI2. subst su'. exists n, a, l, u, v.
    split; [exact Hm|]. split; [exact HI2|].
    assert (Ec : a_cost ops (su, a) = su_cost su) by (simpl; destruct (su_kind su); reflexivity).
    rewrite Ec in R1, R2, R3. split; [|split].
    + rewrite <- Hci. simpl. destruct (su_kind su); reflexivity.
    + rewrite <- Hv. simpl. destruct (su_kind su); reflexivity.
    + destruct r; simpl in *; congruence.
Qed.

(** ** C109: arms with stable_splits=False on pre-drawn data *)
Theorem C109_reread : forall alg fuel (data d0 d1 : expdata V) arms g best s,
  0 < c_units cfg -> fair_perm aw ->
  w_slice w data 0 (c_units cfg) = Ok d0 -> w_slice w data (c_units cfg) (2 * c_units cfg) = Ok d1 ->
  (forall su a, In (su, a) arms -> ar_split a = None /\ (exists opts, su_kind su = Splitting opts /\ so_stable opts = false) /\
     forall d, d = d0 \/ d = d1 -> exists t, su_tr su d = Ok t /\ aligned t /\ n_units t = c_units cfg) ->
  run alg (logged ops) w cfg fuel (Some data) (with_log arms) g = Returned best s ->
  forall j x log, nth_error (b_arms s) j = Some (x, log) ->
  map fst log = match length log with 0 => [] | S m => d0 :: repeat d1 m end.
Proof.
  intros alg fuel data d0 d1 arms g best s Hu Hp Hs0 Hs1 Harms Hr j x log Hj.
  set (Inv := fun (i n : nat) (y : marm * list (expdata V * F)) => exists su opts, fst (fst y) = su /\ su_kind su = Splitting opts /\ so_stable opts = false /\
    (forall d, d = d0 \/ d = d1 -> exists t, su_tr su d = Ok t /\ aligned t /\ n_units t = c_units cfg) /\
    ss_units (snd (fst y)) = min n 1 * c_units cfg /\ map fst (snd y) = match n with 0 => [] | S m => d0 :: repeat d1 m end).
  destruct (C108_updates _ _ _ alg (logged ops) w cfg fuel (Some data) (with_log arms) g best s Inv Hu) as [H1 _]; [| |exact Hr|].
  - intros i y Hi. unfold with_log in Hi. rewrite nth_error_map in Hi. destruct (nth_error arms i) as [[su a]|] eqn:Ea; [|discriminate]. injection Hi as <-.
    destruct (Harms su a (nth_error_In _ _ Ea)) as (E1 & (opts & E2 & E3) & E4). exists su, opts. repeat (split; [first [reflexivity|assumption]|]).
    simpl. unfold ss_units. rewrite E1. auto.
  - intros i n [[su a] l0] d g0 [[su' a'] l'] g' _ HI (st & g1 & g2 & Hd & Hst) E.
    assert (Hunits : forall i' y, Inv i' n y -> a_units (logged ops) y = min n 1 * c_units cfg).
    { intros i' y (su1 & opts1 & F1 & F2 & _ & _ & F5 & _). cbn [a_units logged mixed_ops]. rewrite F1, F2. exact F5. }
    assert (Est : st = min n 1 * c_units cfg).
    { destruct Hst as [Hst|[->|[(y & Hy & ->)|[-> ->]]]]; [discriminate|exact (Hunits i _ HI)|exact (Hunits 0 _ Hy)|reflexivity]. }
    destruct HI as (su1 & opts & F1 & F2 & F3 & F4 & F5 & F6). cbn [fst snd] in *. subst su1.
    assert (Ed : d = match n with 0 => d0 | _ => d1 end).
    { cbn [get_data] in Hd. rewrite Est in Hd. destruct n as [|n]; [simpl in Hd; congruence|].
      replace (Nat.min (S n) 1) with 1 in Hd by lia. rewrite Nat.mul_1_l in Hd. replace (c_units cfg + c_units cfg) with (2 * c_units cfg) in Hd by lia. congruence. }
    cbn [a_update logged fst snd] in E. destruct (a_update ops (su, a) d _ g0) as [[y g3] e] eqn:Eu. injection E as -> <- -> ->.
    destruct (mixed_valid _ _ _ _ _ _ Eu) as [Ev _]. apply mixed_ok in Eu as [Ef E]. cbn [fst snd] in Ef, E. subst su'. rewrite F2 in E. destruct E as (lo & up & E).
    exists su, opts. do 4 (split; [first [reflexivity|assumption]|]). split.
    + destruct (F4 d) as (t & Ht & Hal & Hn); [rewrite Ed; destruct n; auto|].
      destruct (absorb_unstable o vnone aw (su_tr su) a d _ g0 t Hp Ev Ht Hal) as (a1 & g4 & f0 & f1 & Ha & Hsp & Hh & _).
      rewrite <- F3 in Ha. destruct (ss_frame o vnone (su_eta su) aw (su_tr su) opts _ _ _ _ _ _ _ Ha _ _ _ E) as (Es & _).
      unfold ss_units. cbn [fst snd]. rewrite Es, Hsp. apply Permutation_length in Hh. cbn [fst snd] in Hh. rewrite app_length, !units_length, Hn in Hh. simpl. lia.
    + cbn [snd]. rewrite map_app, F6. cbn [map fst]. rewrite Ed. destruct n as [|n]; [reflexivity|]. simpl. f_equal. rewrite <- repeat_cons. reflexivity.
  - destruct (H1 j _ Hj) as (n & (su & opts & _ & _ & _ & _ & _ & Hl) & _). cbn [snd] in Hl.
    assert (En : length log = n) by (apply (f_equal (@length _)) in Hl; rewrite map_length in Hl; rewrite Hl; destruct n; simpl; rewrite ?repeat_length; reflexivity).
    rewrite En. exact Hl.
Qed.
End Mixed.
Print Assumptions C108_pulled.
Print Assumptions C108_cost.
Print Assumptions C108_units.
Print Assumptions C108_clt_level.
Print Assumptions C109_reread.

(** ** concrete runs: two arms with CLT intervals, one keeps its splits and one does not *)
Definition mix_setup (stable : bool) : setup nat nat nat :=
  mkSetup (Splitting (toy_opts CLT stable)) toy_eta (@identity_fn nat) (f_of_Z 1).
(** quantiles that make wide intervals *)
Definition mix_arm_world : arm_world F nat :=
  mkArmWorld F nat (aw_perm shared_arm_world) (aw_draw shared_arm_world) (aw_chi2 shared_arm_world)
    (fun p => if fltb p (flit 1 2) then flit (-90) 1 else flit 90 1).
Definition mix_ops := mixed_ops toy_lib 0 mix_arm_world (V := nat) (H := nat).
Definition mix_cfg : config := mkConfig (flit 5 100) f0 (Some (flit 5 100)) (LInt 30) 6.
Definition mix_arms : list (setup nat nat nat * arm F nat nat) := [(mix_setup true, toy_new); (mix_setup false, toy_new)].
(** a model whose units differ *)
Definition mix_world : world (expdata nat) nat :=
  mkWorld (expdata nat) nat (fun g n => (Ok (batch (map (fun i => (i * i + g) mod 7) (seq 0 n))), S g))
    (w_slice shared_world) (w_choice shared_world) (w_choice2 shared_world).
Definition mix_summary {A} (f : A -> nat * nat) (o : outcome (bstate (A := A) (G := nat)) (list nat)) :=
  match o with Returned b s => Some (b_cum s, b_smp s, map f (b_arms s)) | _ => None end.
Lemma mix_perm : fair_perm mix_arm_world.
Proof. intros g l. cbn [mix_arm_world shared_arm_world aw_perm fst]. destruct ((g mod 4 =? 1) || (g mod 4 =? 2)); [symmetry; apply Permutation_rev|reflexivity]. Qed.

(** three rounds with 6 units each: both arms were pulled three times, one holds 18 units and one 6 *)
Example C108_case :
  mix_summary (fun x => (ar_pulled (snd x), a_units mix_ops x)) (run Uniform mix_ops mix_world mix_cfg 10 None mix_arms 1) =
    Some ([12; 24; 36], [[6; 6; 6]; [6; 6; 6]], [(3, 18); (3, 6)]) /\
  mix_summary (fun x => (ar_pulled (snd x), a_units mix_ops x)) (run SE mix_ops mix_world mix_cfg 10 None mix_arms 1) =
    Some ([12; 24; 36], [[6; 6; 6]; [6; 6; 6]], [(3, 18); (3, 6)]) /\
  (forall g d g', w_generate mix_world g (c_units mix_cfg) = (Ok d, g') ->
     exists t, su_tr (mix_setup true) d = Ok t /\ aligned t /\ same_shape (batch []) t /\ n_units t = c_units mix_cfg).
Proof.
  split; [vm_compute; reflexivity|]. split; [vm_compute; reflexivity|].
  intros g d g' E. cbn [w_generate mix_world] in E. injection E as <- <-. exists (batch (map (fun i => (i * i + g) mod 7) (seq 0 6))).
  split; [reflexivity|]. split; [apply batch_aligned|]. split; [apply batch_shape|reflexivity].
Qed.

(** eighteen rows of data, batches of six: the third batch is the second one again *)
Definition fickle_arms : list (setup nat nat nat * arm F nat nat) := [(mix_setup false, toy_new); (mix_setup false, toy_new)].
Definition fickle_data : expdata nat := batch [1; 4; 9; 2; 3; 7; 5; 11; 6; 2; 8; 1; 12; 3; 0; 4; 8; 13].
Example C109_case :
  match run SE (logged mix_ops) shared_world mix_cfg 10 (Some fickle_data) (with_log fickle_arms) 1 with
  | Returned _ s => Some (b_cum s, map (fun x => map (fun e => drsp (fst e)) (snd x)) (b_arms s))
  | _ => None end =
  Some ([12; 24; 36], let b l := drsp (batch l) in let l := [b [1; 4; 9; 2; 3; 7]; b [5; 11; 6; 2; 8; 1]; b [5; 11; 6; 2; 8; 1]] in [l; l]) /\
  w_slice shared_world fickle_data 0 6 = Ok (batch [1; 4; 9; 2; 3; 7]) /\ w_slice shared_world fickle_data 6 12 = Ok (batch [5; 11; 6; 2; 8; 1]) /\
  (forall d, d = batch [1; 4; 9; 2; 3; 7] \/ d = batch [5; 11; 6; 2; 8; 1] -> exists t, su_tr (mix_setup false) d = Ok t /\ aligned t /\ n_units t = c_units mix_cfg).
Proof.
  split; [vm_compute; reflexivity|]. split; [vm_compute; reflexivity|]. split; [vm_compute; reflexivity|].
  intros d [->| ->]; (eexists; split; [reflexivity|]; split; [apply batch_aligned|reflexivity]).
Qed.
