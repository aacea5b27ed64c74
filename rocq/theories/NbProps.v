(** Property theorems C100-C102 (how the notebook evaluates bandit runs). *)
From Coq Require Import List Arith ZArith Reals Lia Lra Bool Sorting.Sorted Permutation.
From Flocq Require Import Core BinarySingleNaN.
From Verif Require Import PyBase PyLemmas Num NumLemmas NumOps UtilModel FloatOps CpdModel PaperModel BanditModel BanditSpec
  BanditProofs1 BanditProofs2 BanditProofs3 BanditProofs4 BanditProps PlotModel PlotSpec PlotProofs NbModel NbSpec NbProofs NbProofs2 NbProofs3.
Import ListNotations.
Open Scope list_scope.
Open Scope nat_scope.

(** ** C100 *)

(** the arms below the cutoff are those that belong to the lowest [m] estimates together with all
    the arms they tie with; there are never more than [m] of them *)
Theorem C100_top_arms : forall bd m arm_list vs, last_entries (bd_var bd) arm_list vs ->
  (length arm_list <= m -> top_arms m bd arm_list = Err IndexError) /\
  (m < length arm_list -> exists best, top_arms m bd arm_list = Ok best /\ length best <= m /\
     best = map fst (filter (fun q => among_lowest m vs (snd q)) (combine arm_list vs))).
Proof.
  intros bd m arm_list vs H. pose proof (last_entries_length _ _ _ H) as Hl. unfold top_arms. rewrite (last_vars _ _ _ H). cbn [bind].
  pose proof (np_sort_length vs) as Hs. split; intros Hm.
  - unfold at_. now rewrite (proj2 (nth_error_None _ _)) by lia.
  - destruct (nth_error (np_sort vs) m) as [c|] eqn:Ec; [|apply nth_error_None in Ec; lia].
    unfold at_. rewrite Ec. cbn [bind]. eexists. split; [reflexivity|].
    assert (E : map (fun v => fltb v c) vs = map (among_lowest m vs) vs) by (apply map_ext; intros v; apply cutoff_spec, Ec).
    rewrite E, select_filter by exact Hl. split; [|reflexivity].
    rewrite map_length, filter_combine_length by exact Hl. apply among_lowest_count.
Qed.
Print Assumptions C100_top_arms.

Section Runs.
Context {A D G : Type}.
Implicit Types (ops : arm_ops A D G) (w : world D G) (arms : list A) (s : bstate (A := A) (G := G)).

(** the results of every finished run with a round have a last estimate for each of its arms *)
Theorem C100_after_run : forall alg ops w cfg fuel all arms g best s,
  run alg ops w cfg fuel all arms g = Returned best s -> forall arm_list, (forall i, In i arm_list -> i < length arms) ->
  (b_cum s <> [] -> exists vs, last_entries (bd_var (bandit_data best s)) arm_list vs /\
     Forall2 (fun i v => exists r, recorded_last s i = Some r /\ v = r_var r) arm_list vs) /\
  (b_cum s = [] -> arm_list <> [] -> forall m, top_arms m (bandit_data best s) arm_list = Err IndexError).
Proof.
  intros alg ops w cfg fuel all arms g best s Hr arm_list Ha.
  pose proof (run_shape ops w cfg alg fuel all arms g) as Hs. rewrite Hr in Hs. destruct Hs as [_ Hh _ Hl _ _]. rewrite Forall_forall in Hl.
  assert (Hget : forall i, i < length arms -> exists h, nth_error (b_hist s) i = Some h /\ length h = length (b_cum s)).
  { intros i Hi. destruct (nth_error (b_hist s) i) as [h|] eqn:E; [|apply nth_error_None in E; lia]. exists h. split; [reflexivity|]. apply Hl, nth_error_In with i, E. }
  split.
  - intros Hne. revert Ha. induction arm_list as [|i is IH]; intros Ha; [exists []; split; constructor|].
    destruct IH as (vs & H1 & H2); [intros j Hj; apply Ha; now right|]. destruct (Hget i (Ha i (or_introl eq_refl))) as (h & Eh & Lh).
    assert (Hnil : h <> []) by (intros ->; destruct (b_cum s); [congruence|discriminate]). destruct (exists_last Hnil) as (h' & r & ->).
    exists (r_var r :: vs). split; constructor; try assumption.
    + exists (map r_var h'). unfold bandit_data. cbn [bd_var]. rewrite nth_error_map, Eh. cbn [option_map]. now rewrite map_app.
    + exists r. split; [|reflexivity]. unfold recorded_last, recorded. rewrite Eh, <- Lh, app_length. cbn [length].
      rewrite nth_error_app2 by lia. replace (length h' + 1 - 1 - length h') with 0 by lia. reflexivity.
  - intros He Hne m. destruct arm_list as [|i is]; [congruence|]. destruct (Hget i (Ha i (or_introl eq_refl))) as (h & Eh & Lh).
    rewrite He in Lh. destruct h; [|discriminate]. unfold top_arms. cbn [mapM]. unfold last_var at 1, by_arm, bandit_data. cbn [bd_var].
    rewrite nth_error_map, Eh. reflexivity.
Qed.
End Runs.
Print Assumptions C100_after_run.

Lemma nodup_map_on {X Y} (f : X -> Y) l : NoDup l -> (forall x y, In x l -> In y l -> f x = f y -> x = y) -> NoDup (map f l).
Proof.
  induction 1 as [|x l Hx _ IH]; intros Hf; [constructor|]. cbn [map]. constructor.
  - intros H. apply in_map_iff in H as (y & E & Hy). apply Hf in E; [subst; contradiction|now right|now left].
  - apply IH. intros a b Ha Hb. apply Hf; now right.
Qed.

(** the test of the gap compares the two smallest estimates *)
Theorem C100_gap : forall vs,
  (length vs < 2 -> gap_check vs = Err IndexError) /\
  (2 <= length vs -> exists i j a b, i <> j /\ nth_error vs i = Some a /\ nth_error vs j = Some b /\
     gap_check vs = Ok (fltb (f_of_Z 5) (fsub b a)) /\ not_above a b /\
     forall k v, nth_error vs k = Some v -> k <> i -> not_above b v).
Proof.
  intros vs. pose proof (np_sort_length vs) as Hs. unfold gap_check. split; intros Hl.
  - unfold at_. now rewrite (proj2 (nth_error_None _ _)) by lia.
  - destruct (np_sort vs) as [|a [|b rest]] eqn:E; cbn [length] in Hs; try lia. cbn [at_ nth_error bind].
    pose proof (np_sort_perm vs) as P. pose proof (np_sort_sorted vs) as S. rewrite E in P, S.
    destruct (perm_nth _ _ P) as (f & Hb & Hinj & Hn). destruct (perm_nth _ _ (Permutation_sym P)) as (f' & Hb' & Hinj' & Hn').
    exists (f 0), (f 1), a, b. cbn [length] in *. split; [intros H; apply Hinj in H; lia|].
    split; [rewrite <- Hn by lia; reflexivity|]. split; [rewrite <- Hn by lia; reflexivity|]. split; [reflexivity|].
    inversion S as [|? ? S' Ha]; subst. inversion S' as [|? ? _ Hbr]; subst. rewrite Forall_forall in Ha, Hbr. split; [apply Ha; now left|].
    intros k v Hk Hki.
    assert (Hex : exists j', 0 < j' /\ nth_error (a :: b :: rest) j' = Some v).
    { (* f is onto by counting *)
      assert (Hin : In k (map f (seq 0 (length vs)))).
      { apply (NoDup_length_incl (l := map f (seq 0 (length vs))) (l' := seq 0 (length vs))).
        - apply nodup_map_on; [apply seq_NoDup|]. intros x y Hx Hy. apply in_seq in Hx, Hy. apply Hinj; lia.
        - rewrite map_length. lia.
        - intros x Hx. apply in_map_iff in Hx as (y & <- & Hy). apply in_seq in Hy. apply in_seq. specialize (Hb y). lia.
        - apply in_seq. assert (k < length vs) by (apply nth_error_Some; congruence). lia. }
      apply in_map_iff in Hin as (j' & Ej & Hj). apply in_seq in Hj. exists j'. split; [destruct j'; [congruence|lia]|].
      rewrite (Hn j') by lia. now rewrite Ej. }
    destruct Hex as (j' & Hj' & Hv). destruct j' as [|[|j']]; [lia|injection Hv as <-; apply not_above_refl|].
    apply Hbr. apply nth_error_In with j'. exact Hv.
Qed.
Print Assumptions C100_gap.

(** an accepted instance: all other estimates are really more than 5 above the smallest *)
Theorem C100_accepted : forall vs, Forall (fun v => is_finite v = true) vs -> gap_check vs = Ok true ->
  exists i a, nth_error vs i = Some a /\ forall k v, nth_error vs k = Some v -> k <> i -> (B2R a + 5 < B2R v)%R.
Proof.
  intros vs Hf Hg. destruct (C100_gap vs) as [H1 H2]. destruct (le_lt_dec 2 (length vs)) as [Hl|Hl]; [|rewrite (H1 Hl) in Hg; discriminate].
  destruct (H2 Hl) as (i & j & a & b & Hij & Ha & Hb & E & Hab & Hmin). rewrite E in Hg. assert (Hg' : fltb (f_of_Z 5) (fsub b a) = true) by congruence. clear Hg. rename Hg' into Hg.
  rewrite Forall_forall in Hf. pose proof (Hf a (nth_error_In _ _ Ha)) as Fa. pose proof (Hf b (nth_error_In _ _ Hb)) as Fb.
  apply fsub_lt_exact in Hg; [|exact Fb|exact Fa]. exists i, a. split; [exact Ha|]. intros k v Hk Hki.
  pose proof (Hf v (nth_error_In _ _ Hk)) as Fv.
  assert (E5 : fkey (f_of_Z 5) = 5%R) by (destruct (of_Z_exact 5) as [H5 H5']; [cbn; lia|]; now rewrite fkey_finite).
  rewrite E5 in Hg. destruct (Hmin k v Hk Hki) as [Hn|(_ & _ & Hle)]; [pose proof (finite_num _ Fv) as Hn'; unfold num in Hn'; congruence|].
  rewrite !fkey_finite in Hle by assumption. lra.
Qed.
Print Assumptions C100_accepted.

(** of these five estimates the third and the last tie; the cutoff for three of them keeps two *)
Definition five : list F := [f_of_Z 40; f_of_Z 7; f_of_Z 20; fnan; f_of_Z 20].
Definition five_data : banditdata := mkBanditData [] [] (map (fun v => [f0; v]) five) [] [] [].
Definition which {Y} (r : res Y) : option Y := match r with Ok y => Some y | Err _ => None end.
Example C100_case : last_entries (bd_var five_data) (seq 0 5) five
  /\ map (fun m => which (top_arms m five_data (seq 0 5))) [0; 1; 2; 3; 4; 5] = [Some []; Some [1]; Some [1]; Some [1; 2; 4]; Some []; None]
  /\ map (among_lowest 3 five) five = [false; true; true; false; true]
  /\ gap_check five = Ok true /\ gap_check (tl five) = Ok true /\ gap_check (skipn 2 five) = Ok false
  /\ gap_check [f_of_Z 7; fnan] = Ok false /\ gap_check [f_of_Z 7] = Err IndexError
  /\ Forall (fun v => is_finite v = true) [f_of_Z 40; f_of_Z 7] /\ gap_check [f_of_Z 40; f_of_Z 7] = Ok true
  /\ exists best s, run SE script_ops toy_world (cfg_of 100 2) 5 None two 0 = Returned best s /\ length (b_cum s) = 2.
Proof.
  split. { unfold five, five_data, last_entries. repeat constructor; exists [f0]; reflexivity. }
  do 7 (split; [vm_compute; reflexivity|]). split; [repeat constructor|]. split; [vm_compute; reflexivity|].
  assert (H : summary (run SE script_ops toy_world (cfg_of 100 2) 5 None two 0) <> None) by (vm_compute; discriminate).
  assert (H' : match summary (run SE script_ops toy_world (cfg_of 100 2) 5 None two 0) with Some (_, c, _) => length c = 2 | None => True end) by (vm_compute; reflexivity).
  destruct (run SE _ _ _ _ _ _ _) as [best s| |]; cbn [summary] in H, H'; try congruence. eauto.
Qed.

(** ** C101 *)
Section Bar.
Context {A D G : Type}.
Implicit Types (ops : arm_ops A D G) (w : world D G) (arms : list A) (s : bstate (A := A) (G := G)).

(** after every finished run of successive elimination the bar is the cost of sampling every arm in
    every round: it is never below the number of samples used, at most K/2 times as large, and equal
    exactly when no arm was left out in any round *)
Theorem C101_bar : forall ops w cfg fuel all arms g best s,
  run SE ops w cfg fuel all arms g = Returned best s ->
  let K := length arms in let bar := K * c_units cfg * length (b_cum s) in
  (K = 0 -> uniform_bar (bandit_data best s) (seq 0 K) = Err ValueError) /\
  (0 < K -> uniform_bar (bandit_data best s) (seq 0 K) = Ok bar) /\
  (b_cum s = [] -> last_cum (bandit_data best s) = Err IndexError) /\
  (b_cum s <> [] -> exists total, last_cum (bandit_data best s) = Ok total /\ total <= bar /\ 2 * bar <= K * total /\
     (0 < c_units cfg -> (total = bar <-> forall j t, j < K -> t < length (b_cum s) -> recorded_samples s j t = Some (c_units cfg)))).
Proof.
  intros ops w cfg fuel all arms g best s Hr K bar. pose proof (run_se_more ops w cfg fuel all arms g) as Hm. rewrite Hr in Hm. fold K in Hm.
  assert (Eb : bar = K * (c_units cfg * length (b_cum s))) by (unfold bar; lia).
  split; [intros ->; reflexivity|]. split; [intros HK; rewrite Eb; apply bar_ok with ops; assumption|].
  split; [intros E; unfold last_cum, bandit_data; cbn [bd_cum]; now rewrite E|].
  intros Hne. exists (b_total s). split; [apply last_cum_ok with ops cfg K; assumption|].
  destruct (total_bounds ops cfg K s Hm) as (H1 & H2 & H3). rewrite Eb. split; [exact H1|]. split; [nia|exact H3].
Qed.
End Bar.
Print Assumptions C101_bar.

(** three arms of which the last is left out after the first round, and whose other two never
    separate; three arms of which the last is left out early although its interval widens again *)
Definition leaves : list script := [arm_of [ft 0 5 1]; arm_of [ft 0 6 2]; arm_of [ft 7 9 8]].
Definition returns : list script := [arm_of [ft 0 3 2; ft 0 3 2]; arm_of [ft 2 8 6; ft 4 8 6]; arm_of [ft 4 9 6; ft 1 9 6; ft 5 9 6]].
Definition cfg_inf (u : nat) : config := mkConfig (flit 5 100) f0 (Some (flit 5 100)) LInf u.
Definition bars (o : outcome (bstate (A := script) (G := nat)) (list nat)) : option (nat * res nat * res nat) :=
  match o with Returned b s => Some (length (b_cum s), last_cum (bandit_data b s), uniform_bar (bandit_data b s) (seq 0 3)) | _ => None end.

Example C101_case :
  bars (run SE script_ops toy_world (cfg_of 21 2) 9 None leaves 0) = Some (5, Ok 22, Ok 30)
  /\ bars (run SE script_ops toy_world (cfg_inf 2) 9 None returns 0) = Some (2, Ok 10, Ok 12)
  /\ bars (run SE script_ops toy_world (cfg_of 1 2) 9 None leaves 0) = Some (1, Ok 6, Ok 6).
Proof. do 2 (split; [vm_compute; reflexivity|]). vm_compute; reflexivity. Qed.

(** the bar is not what the uniform algorithm uses: with the same arms, data and settings it can use
    fewer samples (it stops at the limit on the number of samples, which the bar ignores) or more *)
Theorem C101_uniform_refuted :
  (exists (arms : list script) cfg best s best' s' bar n l,
     run SE script_ops toy_world cfg 9 None arms 0 = Returned best s /\ run Uniform script_ops toy_world cfg 9 None arms 0 = Returned best' s' /\
     uniform_bar (bandit_data best s) (seq 0 (length arms)) = Ok bar /\ last_cum (bandit_data best' s') = Ok n /\
     c_limit cfg = LInt l /\ n < bar /\ (l + Z.of_nat (length arms * c_units cfg) < Z.of_nat bar)%Z) /\
  (exists (arms : list script) cfg best s best' s' bar n,
     run SE script_ops toy_world cfg 9 None arms 0 = Returned best s /\ run Uniform script_ops toy_world cfg 9 None arms 0 = Returned best' s' /\
     uniform_bar (bandit_data best s) (seq 0 (length arms)) = Ok bar /\ last_cum (bandit_data best' s') = Ok n /\
     c_limit cfg = LInf /\ bar < n).
Proof.
  assert (Hget : forall o r, bars o = Some r -> exists b s, o = Returned b s /\ last_cum (bandit_data b s) = snd (fst r) /\ uniform_bar (bandit_data b s) (seq 0 3) = snd r).
  { intros [b s|e s|s] r H; try discriminate. injection H as <-. exists b, s. auto. }
  split.
  - assert (E1 : bars (run SE script_ops toy_world (cfg_of 21 2) 9 None leaves 0) = Some (5, Ok 22, Ok 30)) by (vm_compute; reflexivity).
    assert (E2 : bars (run Uniform script_ops toy_world (cfg_of 21 2) 9 None leaves 0) = Some (4, Ok 24, Ok 24)) by (vm_compute; reflexivity).
    apply Hget in E1 as (b & s & R1 & _ & B). apply Hget in E2 as (b' & s' & R2 & L & _). cbn [fst snd] in *.
    exists leaves, (cfg_of 21 2), b, s, b', s', 30, 24, 21%Z. cbn [length leaves]. repeat (split; [assumption|]). split; [reflexivity|]. cbn. lia.
  - assert (E1 : bars (run SE script_ops toy_world (cfg_inf 2) 9 None returns 0) = Some (2, Ok 10, Ok 12)) by (vm_compute; reflexivity).
    assert (E2 : bars (run Uniform script_ops toy_world (cfg_inf 2) 9 None returns 0) = Some (3, Ok 18, Ok 18)) by (vm_compute; reflexivity).
    apply Hget in E1 as (b & s & R1 & _ & B). apply Hget in E2 as (b' & s' & R2 & L & _). cbn [fst snd] in *.
    exists returns, (cfg_inf 2), b, s, b', s', 12, 18. cbn [length returns]. repeat (split; [assumption|]). split; [reflexivity|]. lia.
Qed.
Print Assumptions C101_uniform_refuted.

(** ** C102 *)

(** it is, for arms whose intervals only shrink: if successive elimination found the best arm and the
    bar is within the limit, the uniform algorithm returns the same arm in the same number of rounds
    and uses exactly the number of samples of the bar *)
Theorem C102_bar_exact : forall (A D G : Type) (ops : arm_ops A D G) w cfg data at_update rdg arms fuel g best s,
  scripted ops w data (c_units cfg) (fdiv (c_error_prob cfg) (f_of_nat (length arms))) at_update rdg -> nested (length arms) rdg -> c_error_tol cfg = f0 -> 2 <= length arms ->
  (forall i a, nth_error arms i = Some a -> at_update i 0 a) ->
  run SE ops w cfg fuel (Some data) arms g = Returned best s -> ~ exceeds (b_total s) (c_limit cfg) ->
  forall bar, uniform_bar (bandit_data best s) (seq 0 (length arms)) = Ok bar -> within bar (c_limit cfg) ->
  forall fuel' g', length (b_cum s) <= fuel' ->
  exists s', run Uniform ops w cfg fuel' (Some data) arms g' = Returned best s' /\ length (b_cum s') = length (b_cum s) /\
    last_cum (bandit_data best s') = Ok bar.
Proof.
  intros A D G ops w cfg data at_update rdg arms fuel g best s Hsc Hne Htol HK H0 Hr Hx bar Hbar Hw fuel' g' Hf.
  destruct (C101_bar ops w cfg fuel (Some data) arms g best s Hr) as (_ & Hb & _). specialize (Hb ltac:(lia)). rewrite Hb in Hbar. injection Hbar as <-.
  destruct (se_run_decided ops w cfg at_update rdg (length arms) data Hsc Hne fuel arms g best s eq_refl HK H0 Hr Hx) as (i & t & -> & Ht & Hd & Hno).
  rewrite Ht in *. destruct (uniform_run ops w cfg at_update rdg (length arms) data Hsc Hne t i fuel' arms g' HK Htol Hd Hno Hw eq_refl H0 Hf)
    as (s' & E & Hl & Htot & Hlast).
  exists s'. split; [exact E|]. split; [exact Hl|]. unfold last_cum, bandit_data. cbn [bd_cum].
  assert (Hn : b_cum s' <> []) by (intros E'; rewrite E' in Hl; discriminate). destruct (exists_last Hn) as (l & x & El). rewrite El in *.
  rewrite last_last in Hlast. rewrite rev_app_distr. cbn [rev app]. now rewrite Hlast, Htot.
Qed.
Print Assumptions C102_bar_exact.

(** arms that know their readings: two that separate from the best one in different rounds *)
Definition known (i t : nat) : Z * Z * Z :=
  match t, i with
  | 0, 0 => (0, 9, 5)%Z
  | 0, _ => (0, 9, 6)%Z
  | _, 0 => (1, 3, 2)%Z
  | _, 1 => (4, 8, 6)%Z
  | 1, _ => (2, 8, 5)%Z
  | _, _ => (5, 7, 6)%Z
  end.
Definition known_rdg (i t : nat) : reading := let '(l, u, v) := known i t in mkReading (f_of_Z l) (f_of_Z u) (f_of_Z v).
Definition known_ops : arm_ops (nat * nat) (list nat) nat :=
  mkArmOps (nat * nat) (list nat) nat (fun _ => f_of_Z 1)
    (fun a => match snd a with 0 => (None, None) | S t => (Some (r_lcb (known_rdg (fst a) t)), Some (r_ucb (known_rdg (fst a) t))) end)
    (fun a => match snd a with 0 => None | S t => Some (r_var (known_rdg (fst a) t)) end)
    (fun a => snd a * 2) (fun a _ _ g => ((fst a, S (snd a), g), None)) (fun a => (fst a, 0)).
Lemma known_small i t : exists l u v, known i t = (l, u, v) /\ ((0 <= l)%Z /\ (l < u)%Z /\ (u <= 9)%Z) /\ (l <= v <= u)%Z.
Proof. destruct t as [|[|t]], i as [|[|i]]; do 3 eexists; (split; [reflexivity|]); lia. Qed.
Lemma times_one z : (0 <= z <= 9)%Z -> f_of_Z z = fmul (f_of_Z 1) (f_of_Z z).
Proof.
  intros H. assert (E : In z [0; 1; 2; 3; 4; 5; 6; 7; 8; 9]%Z) by (cbn; lia).
  cbn [In] in E. repeat (destruct E as [<-|E]; [apply B2SF_inj; vm_compute; reflexivity|]). contradiction.
Qed.
Lemma known_scripted : scripted known_ops toy_world (repeat 0 100) 2 (fdiv (flit 5 100) (f_of_nat 3)) (fun i k a => a = (i, k)) known_rdg.
Proof.
  intros i k a g ->. split; [reflexivity|]. eexists. exists (i, S k), g. split; [reflexivity|]. split; [reflexivity|]. split; [reflexivity|].
  destruct (known_small i k) as (l & u & v & E & H1 & H2). unfold reports, known_ops. cbn [a_ci a_var a_cost fst snd]. unfold known_rdg. rewrite E. cbn [r_lcb r_ucb r_var].
  exists (f_of_Z l), (f_of_Z u), (f_of_Z v). split; [reflexivity|]. split; [reflexivity|]. split; [|split]; apply times_one; lia.
Qed.
Lemma known_nested : nested 3 known_rdg.
Proof.
  assert (Hz : forall z, (0 <= z <= 9)%Z -> is_finite (f_of_Z z) = true /\ B2R (f_of_Z z) = IZR z) by (intros z H; apply of_Z_exact; lia).
  assert (Hends : forall i t, exists l u v, known i t = (l, u, v) /\ ((0 <= l)%Z /\ (l < u)%Z /\ (u <= 9)%Z) /\ (l <= v <= u)%Z /\ lo_end known_rdg i t = IZR l /\ hi_end known_rdg i t = IZR u /\
     B2R (r_var (known_rdg i t)) = IZR v /\ is_finite (r_lcb (known_rdg i t)) = true /\ is_finite (r_ucb (known_rdg i t)) = true /\ is_finite (r_var (known_rdg i t)) = true).
  { intros i t. destruct (known_small i t) as (l & u & v & E & H1 & H2). exists l, u, v. split; [exact E|]. split; [exact H1|]. split; [exact H2|].
    unfold lo_end, hi_end, known_rdg. rewrite E. cbn [r_lcb r_ucb r_var]. destruct (Hz l) as [? ?], (Hz u) as [? ?], (Hz v) as [? ?]; try lia. auto 10. }
  constructor.
  - intros i t _. destruct (Hends i t) as (l & u & v & _ & _ & _ & _ & _ & _ & H). exact H.
  - intros i t _. destruct (Hends i t) as (l & u & v & _ & H & _ & -> & -> & _). apply IZR_lt. lia.
  - intros i t _. destruct (Hends i t) as (l & u & v & _ & _ & H & -> & -> & -> & _). split; apply IZR_le; lia.
  - intros i t _. destruct (Hends i t) as (l & u & v & E & _ & _ & -> & -> & _). destruct (Hends i (S t)) as (l' & u' & v' & E' & _ & _ & -> & -> & _).
    destruct t as [|[|t]], i as [|[|i]]; cbn in E, E'; injection E as <- <- <-; injection E' as <- <- <-; lra.
  - intros i j t _ _ Hij. destruct (Hends i t) as (l & u & v & E & _ & _ & -> & _). destruct (Hends j t) as (l' & u' & v' & E' & _ & _ & _ & -> & _).
    intros H. apply eq_IZR in H. subst. destruct t as [|[|t]], i as [|[|i]], j as [|[|j]]; cbn in E, E'; try lia; congruence.
Qed.
Definition known_arms : list (nat * nat) := [(0, 0); (1, 0); (2, 0)].
Definition known_bars (o : outcome (bstate (A := nat * nat) (G := nat)) (list nat)) :=
  match o with Returned b s => Some (b, b_cum s, last_cum (bandit_data b s), uniform_bar (bandit_data b s) (seq 0 3)) | _ => None end.
Example C102_case : scripted known_ops toy_world (repeat 0 100) 2 (fdiv (flit 5 100) (f_of_nat 3)) (fun i k a => a = (i, k)) known_rdg /\ nested 3 known_rdg
  /\ (forall i a, nth_error known_arms i = Some a -> a = (i, 0))
  /\ known_bars (run SE known_ops toy_world (cfg_of 18 2) 9 (Some (repeat 0 100)) known_arms 0) = Some ([0], [6; 12; 16], Ok 16, Ok 18)
  /\ known_bars (run Uniform known_ops toy_world (cfg_of 18 2) 9 (Some (repeat 0 100)) known_arms 0) = Some ([0], [6; 12; 18], Ok 18, Ok 18).
Proof.
  split; [exact known_scripted|]. split; [exact known_nested|]. split.
  - intros [|[|[|i]]] a H; try (injection H as <-; reflexivity). destruct i; discriminate.
  - split; vm_compute; reflexivity.
Qed.
