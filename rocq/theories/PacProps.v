(** Property theorems C106, C107 (probability of returning a wrong arm). *)
From Coq Require Import List Arith ZArith Lia Bool Reals Lra Classical_Prop.
From Flocq Require Import Core BinarySingleNaN.
From Verif Require Import PyBase PyLemmas Num NumLemmas NumOps FloatOps DataModel BanditModel BanditSpec BanditProps PacSpec PacProofs
  ArmModel ArmSpec ArmProofs7.
Import ListNotations.
Open Scope nat_scope.

Section Statements.
Context {Om A D G : Type} (P : (Om -> Prop) -> R -> Prop).

(** ** C106: if every arm's recorded intervals are all right except with probability [p], the run
    returns a wrong arm before the limit with probability at most [K * p]; with the level that
    the bandit gives its arms (error_prob / K, rounded) this is error_prob up to one rounding. *)
Theorem C106_union : forall alg (ops : arm_ops A D G) w cfg fuel all arms g K v p,
  upper P -> 1 <= K -> (forall x : Om, length (arms x) = K) -> not_negative (c_error_tol cfg) ->
  (forall j, j < K -> P (ever_misses alg ops w cfg fuel all arms g v j) p) ->
  P (wrong alg ops w cfg fuel all arms g K v (margin_of alg cfg)) (INR K * p)%R.
Proof.
  intros alg ops w cfg fuel all arms g K v p HP HK Hl Ht Hm.
  apply (up_mono P HP _ _ (INR K * p)%R _) with (3 := union_n P HP _ p K Hm); [|lra].
  intros x (best & s & Hr & Hx & Hb). apply NNPP. intros Hn. apply Hb. rewrite <- (Hl x).
  apply (right_answer ops (w x) cfg alg fuel (all x) (arms x) (g x) best s v); try assumption.
  - intros E. specialize (Hl x). rewrite E in Hl. simpl in Hl. lia.
  - intros j Hj Hmiss. rewrite Hl in Hj. apply Hn. exists j. split; [exact Hj|]. exists best, s. auto.
Qed.

Theorem C106_pac : forall alg (ops : arm_ops A D G) w cfg fuel all arms g K v,
  upper P -> 1 <= K -> (Z.of_nat K < 2 ^ 53)%Z -> (forall x : Om, length (arms x) = K) ->
  not_negative (c_error_tol cfg) -> proper_prob (c_error_prob cfg) -> (bpow radix2 (-900) <= B2R (c_error_prob cfg))%R ->
  (forall j, j < K -> P (ever_misses alg ops w cfg fuel all arms g v j) (B2R (fdiv (c_error_prob cfg) (f_of_nat K)))) ->
  P (wrong alg ops w cfg fuel all arms g K v (margin_of alg cfg)) ((1 + bpow radix2 (-53)) * B2R (c_error_prob cfg))%R.
Proof.
  intros alg ops w cfg fuel all arms g K v HP HK HK2 Hl Ht He Hb Hm.
  apply (up_mono P HP _ _ (INR K * B2R (fdiv (c_error_prob cfg) (f_of_nat K)))%R _) with (3 := C106_union alg ops w cfg fuel all arms g K v _ HP HK Hl Ht Hm); [auto|].
  apply (delta_sum _ K He Hb HK HK2).
Qed.

(** ** C107: arms whose intervals are right only round by round. In the n-th round in which an arm is
    sampled it may miss with probability [lev n]; the levels of all rounds add up. *)
Theorem C107_stale : forall alg (ops : arm_ops A D G) w cfg fuel all arms g best s j t,
  run alg ops w cfg fuel all arms g = Returned best s -> j < length arms -> t < length (b_cum s) ->
  recorded_samples s j t = Some (c_units cfg) \/
  (0 < t /\ recorded_samples s j t = Some 0 /\ recorded s j t = recorded s j (t - 1)).
Proof. intros alg ops w cfg fuel all arms g best s j t Hr Hj Ht. exact (run_same ops w cfg alg fuel all arms g best s Hr j t Hj Ht). Qed.

Theorem C107_rounds : forall alg (ops : arm_ops A D G) w cfg fuel all arms g K v lev T,
  upper P -> 1 <= K -> (forall x : Om, length (arms x) = K) -> not_negative (c_error_tol cfg) -> 0 < c_units cfg ->
  (forall x best s, run_at alg ops w cfg fuel all arms g x = Returned best s -> length (b_cum s) <= T) ->
  (forall j n, j < K -> 1 <= n <= T -> P (misses_nth alg ops w cfg fuel all arms g v j n) (lev n)) ->
  P (wrong alg ops w cfg fuel all arms g K v (margin_of alg cfg)) (INR K * sum_upto lev T)%R.
Proof.
  intros alg ops w cfg fuel all arms g K v lev T HP HK Hl Ht Hu HT Hm.
  apply C106_union; try assumption. intros j Hj.
  apply (up_mono P HP _ _ (sum_upto lev T) _) with (3 := union_sum P HP _ lev T (fun n Hn => Hm j n Hj Hn)); [|lra].
  intros x (best & s & Hr & Hmiss). rewrite <- (Hl x) in Hj.
  destruct (misses_when ops (w x) cfg alg fuel (all x) (arms x) (g x) best s j (v j) Hu Hr Hj Hmiss) as (n & Hn & Hn').
  exists n. specialize (HT x best s Hr). split; [lia|]. exists best, s. auto.
Qed.

(** the levels of the CLT arms (arms.py:248) add up to less than twice the probability asked for *)
Theorem C107_clt : forall alg (ops : arm_ops A D G) w cfg fuel all arms g K v lev T,
  upper P -> 1 <= K -> (Z.of_nat K < 2 ^ 53)%Z -> (forall x : Om, length (arms x) = K) ->
  not_negative (c_error_tol cfg) -> proper_prob (c_error_prob cfg) -> (bpow radix2 (-900) <= B2R (c_error_prob cfg))%R -> 0 < c_units cfg ->
  (forall x best s, run_at alg ops w cfg fuel all arms g x = Returned best s -> length (b_cum s) <= T) ->
  (forall n, 1 <= n -> clt_delta xreal (Fin (B2R (fdiv (c_error_prob cfg) (f_of_nat K)))) n = Fin (lev n)) ->
  (forall j n, j < K -> 1 <= n <= T -> P (misses_nth alg ops w cfg fuel all arms g v j n) (lev n)) ->
  P (wrong alg ops w cfg fuel all arms g K v (margin_of alg cfg)) (2 * ((1 + bpow radix2 (-53)) * B2R (c_error_prob cfg)))%R.
Proof.
  intros alg ops w cfg fuel all arms g K v lev T HP HK HK2 Hl Ht He Hb Hu HT Hlev Hm.
  apply (up_mono P HP _ _ (INR K * sum_upto lev T)%R _) with (3 := C107_rounds alg ops w cfg fuel all arms g K v lev T HP HK Hl Ht Hu HT Hm); [auto|].
  destruct (delta_sum _ K He Hb HK HK2) as [D0 D1]. set (d := B2R (fdiv (c_error_prob cfg) (f_of_nat K))) in *.
  assert (Es : sum_upto lev T = sum_upto (fun n => d / (INR n * INR n))%R T).
  { clear - Hlev. induction T as [|T IH]; [reflexivity|]. simpl sum_upto at 1. cbn [sum_upto]. rewrite IH. f_equal.
    specialize (Hlev (S T) ltac:(lia)). rewrite clt_delta_real in Hlev by lia. injection Hlev as <-. f_equal. simpl. ring. }
  pose proof (pos_INR K) as HK0.
  assert (Hs : (sum_upto lev T <= 2 * d)%R).
  { destruct T as [|T]; [simpl; lra|]. rewrite Es. eapply Rle_trans; [apply inverse_squares; [exact D0|lia]|].
    assert (0 <= 1 / INR (S T))%R; [|nra]. apply Rmult_le_pos; [lra|]. left. apply Rinv_0_lt_compat, lt_0_INR. lia. }
  apply (Rle_trans _ (INR K * (2 * d))%R); [apply Rmult_le_compat_l; assumption|]. lra.
Qed.
End Statements.
Print Assumptions C106_union.
Print Assumptions C106_pac.
Print Assumptions C107_stale.
Print Assumptions C107_rounds.
Print Assumptions C107_clt.

(** ** a random bandit: two arms with the values 5 and 8. In outcome [3 * j + t] (t < 3) all intervals are
    right and wide before round [t], and in round [t] the interval of arm [j] is wrong such that the worse
    arm looks better; in all other outcomes all intervals are right. *)
Definition toy_v (j : nat) : Z := match j with O => 5%Z | _ => 8%Z end.
Definition toy_val (j : nat) : R := IZR (toy_v j).
Definition toy_arms (i : nat) : list script :=
  if i <? 6 then
    let wide := i mod 3 in
    if i <? 3 then [arm_of (repeat (ft 0 9 5) wide ++ [ft 10 11 10]); arm_of (repeat (ft 0 9 8) wide ++ [ft 7 9 8])]
    else [arm_of (repeat (ft 0 9 5) wide ++ [ft 4 6 5]); arm_of (repeat (ft 0 9 8) wide ++ [ft 1 2 1])]
  else [arm_of [ft 4 6 5]; arm_of [ft 7 9 8]].
Definition toy_cfg : config := mkConfig (flit 1 4) f0 None (LInt 1000) 1.
Definition toy_run (alg : algorithm) := run_at alg script_ops (fun _ : nat => toy_world) toy_cfg 10 (fun _ => None) toy_arms (fun _ => 0).
Definition toy_wrong (alg : algorithm) := wrong alg script_ops (fun _ : nat => toy_world) toy_cfg 10 (fun _ => None) toy_arms (fun _ => 0) 2 toy_val (margin_of alg toy_cfg).
Definition toy_miss (alg : algorithm) := misses_nth alg script_ops (fun _ : nat => toy_world) toy_cfg 10 (fun _ => None) toy_arms (fun _ => 0) toy_val.
Definition toy_ever (alg : algorithm) := ever_misses alg script_ops (fun _ : nat => toy_world) toy_cfg 10 (fun _ => None) toy_arms (fun _ => 0) toy_val.

Definition covers_b (r : reading) (z : Z) : bool :=
  is_finite (r_lcb r) && is_finite (r_ucb r) && fltb (r_lcb r) (r_ucb r) && fleb (r_lcb r) (f_of_Z z) && fleb (f_of_Z z) (r_ucb r).
Lemma covers_b_ok r z : (Z.abs z <= 2 ^ 53)%Z -> covers_b r z = true -> covers r (IZR z).
Proof.
  intros Hz. unfold covers_b. rewrite !andb_true_iff. intros ((((F1 & F2) & H) & H1) & H2). destruct (of_Z_exact z Hz) as [E1 E2].
  apply fleb_spec in H1 as (_ & _ & H1). apply fleb_spec in H2 as (_ & _ & H2).
  rewrite !fkey_finite, E2 in H1 by assumption. rewrite !fkey_finite, E2 in H2 by assumption.
  split; [exact H|]. split; right; split; assumption.
Qed.
Definition toy_table {A G} (o : outcome (bstate (A := A) (G := G)) (list nat)) :=
  match o with
  | Returned b s => Some (b, b_total s <=? 1000, b_smp s, map (fun jh => map (fun r => covers_b r (toy_v (fst jh))) (snd jh)) (combine (seq 0 2) (b_hist s)), length (b_hist s))
  | _ => None end.
Lemma toy_tables alg i : alg <> LUCB -> toy_table (toy_run alg i) =
  Some ([if i <? 6 then 1 else 0], true, repeat (repeat 1 (if i <? 6 then S (i mod 3) else 1)) 2,
        map (fun j => map (fun t => negb ((i <? 6) && (j =? i / 3) && (t =? i mod 3))) (seq 0 (if i <? 6 then S (i mod 3) else 1))) [0; 1], 2).
Proof.
  intros Ha. destruct (Nat.ltb_spec i 6) as [H|H].
  - do 6 (destruct i as [|i]; [destruct alg; [|congruence|]; vm_compute; reflexivity|]). lia.
  - unfold toy_run, run_at, toy_arms. destruct (Nat.ltb_spec i 6); [lia|]. destruct alg; [|congruence|]; vm_compute; reflexivity.
Qed.

Lemma toy_facts alg i best s : alg <> LUCB -> toy_run alg i = Returned best s ->
  best = [if i <? 6 then 1 else 0] /\ ~ exceeds (b_total s) (c_limit toy_cfg) /\
  (forall j t, j < 2 -> t < (if i <? 6 then S (i mod 3) else 1) -> recorded_samples s j t = Some 1) /\
  forall j t r, j < 2 -> recorded s j t = Some r -> ~ covers r (toy_val j) -> i < 6 /\ j = i / 3 /\ t = i mod 3.
Proof.
  intros Ha Hr. pose proof (toy_tables alg i Ha) as H. rewrite Hr in H. cbn [toy_table] in H. injection H as Hb Ht Hs Hh Hl.
  split; [exact Hb|]. split; [cbn; apply Nat.leb_le in Ht; lia|]. split.
  - intros j t Hj Htt. unfold recorded_samples. rewrite Hs. destruct j as [|[|j]]; [| |lia]; cbn [repeat nth_error]; apply nth_error_repeat; exact Htt.
  - intros j t r Hj Hrec Hc. unfold recorded in Hrec.
    set (m := if i <? 6 then S (i mod 3) else 1) in *.
    destruct (b_hist s) as [|h0 [|h1 [|]]]; try discriminate Hl. 
    assert (H0 : map (fun r => covers_b r (toy_v 0)) h0 = map (fun t => negb ((i <? 6) && (0 =? i / 3) && (t =? i mod 3))) (seq 0 m)) by exact (f_equal (fun l => nth 0 l []) Hh).
    assert (H1 : map (fun r => covers_b r (toy_v 1)) h1 = map (fun t => negb ((i <? 6) && (1 =? i / 3) && (t =? i mod 3))) (seq 0 m)) by exact (f_equal (fun l => nth 1 l []) Hh).
    assert (E : covers_b r (toy_v j) = negb ((i <? 6) && (j =? i / 3) && (t =? i mod 3))).
    { destruct j as [|[|j]]; [| |lia]; cbn [nth_error] in Hrec.
      - pose proof (f_equal (fun l => nth_error l t) H0) as E. cbn beta in E. rewrite nth_error_map, Hrec in E.
        destruct (Nat.lt_ge_cases t m) as [L|L]; [|rewrite (proj2 (nth_error_None _ _)) in E; [discriminate E|rewrite map_length, seq_length; exact L]].
        rewrite nth_error_map, (nth_error_nth' _ 0) in E by (rewrite seq_length; exact L). rewrite seq_nth in E by exact L. exact (f_equal (fun o => match o with Some b => b | None => true end) E).
      - pose proof (f_equal (fun l => nth_error l t) H1) as E. cbn beta in E. rewrite nth_error_map, Hrec in E.
        destruct (Nat.lt_ge_cases t m) as [L|L]; [|rewrite (proj2 (nth_error_None _ _)) in E; [discriminate E|rewrite map_length, seq_length; exact L]].
        rewrite nth_error_map, (nth_error_nth' _ 0) in E by (rewrite seq_length; exact L). rewrite seq_nth in E by exact L. exact (f_equal (fun o => match o with Some b => b | None => true end) E). }
    destruct (covers_b r (toy_v j)) eqn:Ec.
    { exfalso. apply Hc, covers_b_ok; [destruct j as [|[|]]; simpl; lia|exact Ec]. }
    symmetry in E. apply negb_false_iff in E. rewrite !andb_true_iff in E. destruct E as ((E1 & E2) & E3).
    apply Nat.ltb_lt in E1. apply Nat.eqb_eq in E2, E3. auto.
Qed.
Lemma toy_returns alg i : alg <> LUCB -> exists best s, toy_run alg i = Returned best s.
Proof. intros Ha. pose proof (toy_tables alg i Ha) as H. destruct (toy_run alg i); [eauto| |]; discriminate. Qed.
Lemma toy_wrong_iff alg i : alg <> LUCB -> (toy_wrong alg i <-> i < 6).
Proof.
  intros Ha. assert (Hz : margin_of alg toy_cfg = 0%R) by (destruct alg; reflexivity). unfold toy_wrong, wrong. rewrite Hz. split.
  - intros (best & s & Hr & _ & Hb). apply NNPP. intros Hi. apply Hb. destruct (toy_facts alg i best s Ha Hr) as (-> & _).
    destruct (Nat.ltb_spec i 6); [contradiction|]. exists 0. split; [reflexivity|]. split; [lia|].
    intros [|[|j]] Hj Hj0; try lia. unfold toy_val. simpl. lra.
  - intros Hi. destruct (toy_returns alg i Ha) as (best & s & Hr). destruct (toy_facts alg i best s Ha Hr) as (-> & Hx & _). exists [if i <? 6 then 1 else 0], s.
    split; [exact Hr|]. split; [exact Hx|]. destruct (Nat.ltb_spec i 6); [|lia]. intros (b & E & _ & Hall). injection E as <-.
    specialize (Hall 0 ltac:(lia) ltac:(lia)). unfold toy_val in Hall. simpl in Hall. lra.
Qed.
Lemma toy_ever_at alg j i : alg <> LUCB -> j < 2 -> toy_ever alg j i -> i < 6 /\ j = i / 3.
Proof.
  intros Ha Hj (best & s & Hr & t & r & Hrec & Hc). destruct (toy_facts alg i best s Ha Hr) as (_ & _ & _ & H).
  destruct (H j t r Hj Hrec Hc) as (H1 & H2 & _). auto.
Qed.
Lemma toy_miss_at alg j n i : alg <> LUCB -> j < 2 -> toy_miss alg j n i -> i < 6 /\ j = i / 3 /\ n = S (i mod 3).
Proof.
  intros Ha Hj (best & s & Hr & t & r & _ & Hp & Hrec & Hc). destruct (toy_facts alg i best s Ha Hr) as (_ & _ & Hs & H).
  destruct (H j t r Hj Hrec Hc) as (H1 & H2 & ->). split; [exact H1|]. split; [exact H2|]. rewrite <- Hp. unfold pulls.
  rewrite (proj2 (Nat.ltb_lt i 6) H1) in Hs. assert (E : forall k, k <= S (i mod 3) -> filter (sampled s j) (seq 0 k) = seq 0 k).
  { intros k. induction k as [|k IH]; intros Hk; [reflexivity|]. rewrite seq_S, filter_app, IH by lia. cbn [Nat.add filter].
    unfold sampled. rewrite (Hs j k Hj ltac:(lia)). reflexivity. }
  rewrite E by lia. now rewrite seq_length.
Qed.

(** weights: outcome [3 * j + t] has probability [lev (t + 1)] *)
Definition toy_ws (lev : nat -> R) : list R :=
  let m := [lev 1; lev 2; lev 3] in m ++ m ++ [(1 - 2 * (lev 1%nat + lev 2%nat + lev 3%nat))%R].
Lemma toy_mass_all lev : mass (toy_ws lev) (fun _ => true) = 1%R.
Proof. unfold mass, toy_ws. simpl. lra. Qed.
Lemma toy_mass_wrong alg lev p : alg <> LUCB -> Forall (fun q => 0 <= q)%R (toy_ws lev) ->
  (weighted (toy_ws lev) (toy_wrong alg) p <-> 2 * (lev 1%nat + lev 2%nat + lev 3%nat) <= p)%R.
Proof.
  intros Ha Hw. split.
  - intros (b & Hb & Hm). assert (E : forall i, i < 6 -> b i = true) by (intros i Hi; apply Hb, toy_wrong_iff; assumption).
    unfold mass, toy_ws in Hm. simpl in Hm. rewrite !E in Hm by lia.
    unfold toy_ws in Hw. simpl in Hw. repeat match goal with H : Forall _ (_ :: _) |- _ => apply Forall_cons_iff in H as [? H] end.
    destruct (b 6); lra.
  - intros H. exists (fun i => i <? 6). split; [intros i Hi; apply Nat.ltb_lt, (toy_wrong_iff alg i Ha), Hi|]. unfold mass, toy_ws. simpl. lra.
Qed.
Lemma toy_mass_miss alg lev j n : alg <> LUCB -> j < 2 -> 1 <= n -> Forall (fun q => 0 <= q)%R (toy_ws lev) -> (0 <= lev n)%R ->
  weighted (toy_ws lev) (toy_miss alg j n) (lev n).
Proof.
  intros Ha Hj Hn Hw Hl. exists (fun i => (i <? 6) && (j =? i / 3) && (n =? S (i mod 3))). split.
  - intros i Hi. destruct (toy_miss_at alg j n i Ha Hj Hi) as (H1 & -> & ->). rewrite !Nat.eqb_refl. apply Nat.ltb_lt in H1. now rewrite H1.
  - destruct j as [|[|j]]; [| |lia]; destruct n as [|[|[|[|n]]]]; try lia; unfold mass, toy_ws; simpl in *; lra.
Qed.
Lemma toy_rounds alg x best s : alg <> LUCB -> toy_run alg x = Returned best s -> length (b_cum s) <= 3.
Proof.
  intros Ha Hr. pose proof (toy_tables alg x Ha) as H. rewrite Hr in H.
  set (m := if x <? 6 then S (x mod 3) else 1) in H.
  assert (Hm : m <= 3) by (unfold m; pose proof (Nat.mod_upper_bound x 3 ltac:(lia)); destruct (x <? 6); lia). clearbody m.
  cbn [toy_table] in H. injection H as _ _ Hs _ _.
  pose proof (BanditProofs1.run_shape script_ops toy_world toy_cfg alg 10 None (toy_arms x) 0) as Sh. unfold toy_run, run_at in Hr. rewrite Hr in Sh.
  pose proof (BanditProofs1.sh_slen _ _ _ Sh) as F0. rewrite Hs in F0. inversion F0 as [|h l0 Hh F1]; subst. rewrite <- Hh. simpl. rewrite repeat_length. exact Hm.
Qed.

Lemma toy_delta : B2R (fdiv (c_error_prob toy_cfg) (f_of_nat 2)) = (1 / 8)%R /\ B2R (c_error_prob toy_cfg) = (1 / 4)%R.
Proof.
  rewrite <- !SF2R_B2SF. split.
  - replace (B2SF (fdiv (c_error_prob toy_cfg) (f_of_nat 2))) with (SpecFloat.S754_finite false 4503599627370496 (-55)) by (vm_compute; reflexivity).
    unfold SF2R, F2R. simpl. lra.
  - replace (B2SF (c_error_prob toy_cfg)) with (SpecFloat.S754_finite false 4503599627370496 (-54)) by (vm_compute; reflexivity).
    unfold SF2R, F2R. simpl. lra.
Qed.

(** the levels that the CLT arms use (arms.py:248), and the constant level that the CHI2 arms use in
    every round (arms.py:241-244), do not keep error_prob: with these probabilities of a miss in each round the
    uniform algorithm and successive elimination can return a wrong arm with more than 4/3 of it *)
Theorem C107_over_refuted : forall alg lev, alg <> LUCB ->
  (forall n, 1 <= n -> clt_delta xreal (Fin (B2R (fdiv (c_error_prob toy_cfg) (f_of_nat 2)))) n = Fin (lev n)) \/
  (forall n, lev n = B2R (fdiv (c_error_prob toy_cfg) (f_of_nat 2))) ->
  exists ws, upper (weighted ws) /\ mass ws (fun _ => true) = 1%R /\
    (forall x best s, toy_run alg x = Returned best s -> length (b_cum s) <= 3) /\
    (forall j n, j < 2 -> 1 <= n -> weighted ws (toy_miss alg j n) (lev n)) /\
    ~ weighted ws (toy_wrong alg) (4 / 3 * B2R (c_error_prob toy_cfg)).
Proof.
  intros alg lev Ha Hlev. destruct toy_delta as [E8 E4]. rewrite E8 in Hlev. rewrite E4. exists (toy_ws lev).
  assert (L : (lev 1%nat = 1 / 8 /\ 1 / 32 <= lev 2%nat <= 1 / 8 /\ 1 / 72 <= lev 3%nat <= 1 / 8)%R /\ forall n, 1 <= n -> (0 <= lev n)%R).
  { destruct Hlev as [H|H].
    - assert (V : forall n, 1 <= n -> lev n = (1 / 8 / INR n ^ 2)%R).
      { intros n Hn. specialize (H n Hn). rewrite clt_delta_real in H by exact Hn. injection H as <-. reflexivity. }
      split; [rewrite !V by lia; simpl; lra|]. intros n Hn. rewrite V by exact Hn. apply Rmult_le_pos; [lra|]. left. apply Rinv_0_lt_compat, pow_lt, lt_0_INR. lia.
    - split; [rewrite !H; lra|]. intros n _. rewrite H. lra. }
  destruct L as [L LN].
  assert (Hw : Forall (fun q => 0 <= q)%R (toy_ws lev)) by (unfold toy_ws; simpl; repeat constructor; lra).
  split; [apply weighted_upper, Hw|]. split; [apply toy_mass_all|]. split; [intros x best s; apply toy_rounds, Ha|]. split.
  - intros j n Hj Hn. apply toy_mass_miss; auto.
  - intros H. apply toy_mass_wrong in H; [|exact Ha|exact Hw]. lra.
Qed.
Print Assumptions C107_over_refuted.

(** the bound of C106 is reached: each arm misses with probability 1/8 and the answer is wrong with 1/4 *)
Definition toy_lev (n : nat) : R := match n with 1 => (1 / 8)%R | _ => 0%R end.
Example C106_case : forall alg, alg <> LUCB ->
  upper (weighted (toy_ws toy_lev)) /\ proper_prob (c_error_prob toy_cfg) /\ (forall x, length (toy_arms x) = 2) /\
  (forall j, j < 2 -> weighted (toy_ws toy_lev) (toy_ever alg j) (B2R (fdiv (c_error_prob toy_cfg) (f_of_nat 2)))) /\
  forall p, weighted (toy_ws toy_lev) (toy_wrong alg) p <-> (B2R (c_error_prob toy_cfg) <= p)%R.
Proof.
  intros alg Ha. destruct toy_delta as [E8 E4]. rewrite E8.
  assert (Hw : Forall (fun q => 0 <= q)%R (toy_ws toy_lev)) by (unfold toy_ws, toy_lev; simpl; repeat constructor; lra).
  split; [apply weighted_upper, Hw|]. split; [split; [reflexivity|rewrite E4; lra]|].
  split; [intros x; unfold toy_arms; destruct (x <? 6); [destruct (x <? 3)|]; reflexivity|]. split.
  - intros j Hj. exists (fun i => (i <? 6) && (j =? i / 3)). split.
    + intros i Hi. destruct (toy_ever_at alg j i Ha Hj Hi) as (H1 & ->). rewrite Nat.eqb_refl. apply Nat.ltb_lt in H1. now rewrite H1.
    + destruct j as [|[|j]]; [| |lia]; unfold mass, toy_ws, toy_lev; simpl; lra.
  - intros p. rewrite (toy_mass_wrong alg toy_lev p Ha Hw), E4. unfold toy_lev. split; lra.
Qed.

(** rounding up: the levels of five arms add up to more than the error_prob they were computed from *)
Theorem C106_rounding_refuted : exists e K, proper_prob e /\ (B2R e < INR K * B2R (fdiv e (f_of_nat K)))%R.
Proof.
  exists (flit 1 4), 5. destruct toy_delta as [_ E4]. change (c_error_prob toy_cfg) with (flit 1 4) in E4.
  split; [split; [reflexivity|rewrite E4; lra]|]. rewrite E4, <- SF2R_B2SF.
  replace (B2SF (fdiv (flit 1 4) (f_of_nat 5))) with (SpecFloat.S754_finite false 7205759403792794 (-57)) by (vm_compute; reflexivity).
  unfold SF2R, F2R. simpl. lra.
Qed.
Print Assumptions C106_rounding_refuted.

Example C107_case : forall alg, alg <> LUCB ->
  weighted (toy_ws toy_lev) (toy_wrong alg) (INR 2 * sum_upto toy_lev 3)%R.
Proof.
  intros alg Ha. assert (Hw : Forall (fun q => 0 <= q)%R (toy_ws toy_lev)) by (unfold toy_ws, toy_lev; simpl; repeat constructor; lra).
  unfold toy_wrong. eapply (C107_rounds (weighted (toy_ws toy_lev))); try lia.
  - apply weighted_upper, Hw.
  - intros x. unfold toy_arms. destruct (x <? 6); [destruct (x <? 3)|]; reflexivity.
  - right. right. split; [reflexivity|]. simpl. lra.
  - simpl. lia.
  - intros x best s. apply toy_rounds, Ha.
  - intros j n Hj Hn. apply toy_mass_miss; try assumption; [lia|]. unfold toy_lev. destruct n as [|[|]]; lra.
Qed.
