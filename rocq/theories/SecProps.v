(** Properties C93 to C96: the examples of Section 5 (paper_utils.py) built from their CPDs. *)
From Coq Require Import String List Arith ZArith Reals Bool Lia Lra.
From Flocq Require Import Core.
From Verif Require Import PyBase PyLemmas Num NumLemmas NumOps DataModel ScmModel ScmProofs TabSpec TabReal ArmModel ParamModel ParamProofs5 PaperModel PaperSpec PaperProofs PaperProofs4 ScmProps PaperProps UtilModel UtilSpec UtilProps ExampleSpec ExampleProps CpdModel CpdSpec CpdProofs CpdProps SecSpec SecProofs SecProofs2 SecProofs3 SecProofs4.
From Verif Require Import ScmSpec.
Import ListNotations.
Open Scope string_scope.
Open Scope nat_scope.

(** ** C93: get_section_5_1_cpds, any numbers *)
Section C93.
  Context {N G Q : Type} (o : numops N) (w : cpd_world N G) (r : rng_world N Q).

  (** which calls raise *)
Theorem C93_errors : forall zd vd m ent seed fuel,
    (zd = [] \/ (1 <= m /\ (List.length zd <= m \/ List.length vd <= m)) ->
       exists q, section_5_1_cpds o w r zd vd m ent seed fuel = Raised IndexError q)
    /\ (zd <> [] -> m = 0 -> exists q, section_5_1_cpds o w r zd vd m ent seed fuel = Raised NameError q).
  Proof.
    intros zd vd m ent seed fuel. split.
    - intros H. eexists. unfold section_5_1_cpds. now rewrite coefs1_short by exact H.
    - intros Hz ->. eexists. unfold section_5_1_cpds. now rewrite coefs1_no_paths by exact Hz.
  Qed.

  (** all others return one CPD for each variable of the graph and for nothing else, unless the
      choice of the distributions of Z0 goes on forever *)
Theorem C93_complete : forall zd vd m ent seed fuel, 1 <= m < List.length zd -> m < List.length vd ->
    (exists q, section_5_1_cpds o w r zd vd m ent seed fuel = OutOfFuel q)
    \/ exists d q, section_5_1_cpds o w r zd vd m ent seed fuel = Returned d q
         /\ forall v, paper_var m v <-> exists f, entry d v f.
  Proof.
    intros zd vd m ent seed fuel Hz Hv.
    destruct (section_5_1_shape o w r zd vd m ent seed fuel Hz Hv) as (k & q1 & d & Ek & Hs & Ed & [(support & p & q2 & _ & E)|(q2 & E)]); [right|left; eauto].
    do 2 eexists. split; [exact E|].
    destruct (path_cpds1_ok o w m k Hs (seq 1 m) [("X", x_cpd1 o w (k_gamma k)); ("Y", y_cpd1 o w (k_beta k))]) as (d' & Ed' & Hk & Hn).
    { apply Forall_forall. intros i Hi. apply in_seq in Hi. lia. } { apply seq_NoDup. }
    rewrite Ed in Ed'. injection Ed' as <-. intros v. split.
    - intros Hp. destruct (String.eqb_spec v "Z0") as [-> |Hne]; [eexists; apply entry_sget, sget_same|].
      destruct Hp as [| | |i Hi|i Hi]; try congruence.
      + eexists. apply entry_sget. rewrite sget_other by exact Hne. rewrite Hk; [reflexivity|]. intros i _. split; discriminate.
      + eexists. apply entry_sget. rewrite sget_other by exact Hne. rewrite Hk; [reflexivity|]. intros i _. split; discriminate.
      + destruct (Hn i) as (mv & cv & al & mz & cz & _ & _ & _ & _ & _ & G1 & G2); [apply in_seq; lia|].
        eexists. apply entry_sget. rewrite sget_other by exact Hne. exact G1.
      + destruct (Hn i) as (mv & cv & al & mz & cz & _ & _ & _ & _ & _ & G1 & G2); [apply in_seq; lia|].
        eexists. apply entry_sget. rewrite sget_other by exact Hne. exact G2.
    - intros (f & Hf). apply entry_sget in Hf. destruct (String.eqb_spec v "Z0") as [-> |Hne]; [constructor|]. rewrite sget_other in Hf by exact Hne.
      destruct (in_dec string_dec v (paper_vars m)) as [Hin|Hin]; [now apply paper_vars_in|]. exfalso.
      rewrite Hk in Hf.
      + cbn [sget] in Hf. destruct (String.eqb_spec v "X") as [-> |_]; [apply Hin, paper_vars_in; constructor|].
        destruct (String.eqb_spec v "Y") as [-> |_]; [apply Hin, paper_vars_in; constructor|discriminate].
      + intros i Hi. apply in_seq in Hi. split; intros ->; apply Hin, paper_vars_in; constructor; lia.
  Qed.
End C93.
Print Assumptions C93_errors.
Print Assumptions C93_complete.

Open Scope R_scope.
(** ** C94: the CPDs are those of a linear structural model *)
Lemma returned_dims {N G Q} {o : numops N} (w : cpd_world N G) (r : rng_world N Q) zd vd m ent seed fuel d q :
  section_5_1_cpds o w r zd vd m ent seed fuel = Returned d q -> (1 <= m < length zd)%nat /\ (m < length vd)%nat.
Proof.
  intros E. destruct (C93_errors o w r zd vd m ent seed fuel) as [H1 H2].
  destruct zd as [|z zd]; [destruct H1 as (q1 & E1); [now left|congruence]|].
  destruct m as [|m]; [destruct H2 as (q1 & E1); [discriminate|reflexivity|congruence]|].
  destruct (le_lt_dec (length (z :: zd)) (S m)) as [H|H]; [destruct H1 as (q1 & E1); [right; split; [lia|now left]|congruence]|].
  destruct (le_lt_dec (length vd) (S m)) as [H'|H']; [destruct H1 as (q1 & E1); [right; split; [lia|now right]|congruence]|]. lia.
Qed.
Lemma shaped_rmat n k rows : matrix n k rows -> shaped k (sarr (k, rows)).
Proof.
  intros [_ H]. split; [reflexivity|]. cbn. apply Forall_forall. intros x Hx. apply in_map_iff in Hx as (y & <- & Hy).
  rewrite map_length. now apply (proj1 (Forall_forall _ _) H).
Qed.
Theorem C94_structural : forall (G Q : Type) (w : cpd_world X G) (r : rng_world X Q) zd vd m ent seed fuel d q,
  real_rng r -> section_5_1_cpds xreal w r zd vd m ent seed fuel = Returned d q ->
  exists L, law_fits zd vd m L /\ follows w zd vd m L d.
Proof.
  intros G Q w r zd vd m ent seed fuel d q Hr E.
  pose proof (returned_dims w r zd vd m ent seed fuel d q E) as Hm.
  destruct (follows_of w r Hr zd vd m ent seed fuel d q (proj1 Hm) (proj2 Hm) E) as (_ & L & HL & Hf & _). eauto.
Qed.
Print Assumptions C94_structural.

(** a generator: every other draw of normal variables is zero, the others start with 1; the
    support of Z0 is -1, 0, ..., 0 *)
Definition first_only (c : R) (k : nat) : list R := map (fun i => if Nat.eqb i 0 then c else 0) (seq 0 k).
Definition tick_rng : rng_world X nat := mkRW (fun _ => 0%nat) (fun lo _ q => (lo, q))
  (fun k q => (map Fin (if Nat.odd q then first_only 1 k else first_only 0 k), S q))
  (fun ms q => (map Fin (first_only (-1) (length ms)), q)).
Lemma first_only_length c k : length (first_only c k) = k.
Proof. unfold first_only. now rewrite map_length, seq_length. Qed.
Lemma tick_real : real_rng tick_rng.
Proof.
  constructor.
  - intros lo hi q H. exists lo, q. split; [reflexivity|lra].
  - intros k q. eexists. exists (S q). split; [reflexivity|]. destruct (Nat.odd q); apply first_only_length.
  - intros ms q. eexists. exists q. split; [reflexivity|]. now rewrite first_only_length, map_length.
Qed.
Lemma quiet_regular : regular quiet.
Proof.
  constructor.
  - intros ms ss g Hs Hl. exists ms, g. auto.
  - intros ms cov n g Hl Hc. exists (repeat ms n), g. split; [cbn [quiet cw_mvnormal]; f_equal; f_equal; induction n; [reflexivity|cbn; now f_equal]|].
    split; [apply repeat_length|]. apply Forall_forall. intros x Hx. now apply repeat_spec in Hx; subst x.
  - intros ps g Hp. exists (repeat true (length ps)), g. cbn [quiet cw_binom]. split; [|apply repeat_length]. do 2 f_equal.
    unfold zos. clear Hp. induction ps; [reflexivity|]. cbn. f_equal. assumption.
  - intros ps n g Hp Hs. exists (repeat 0%nat n), g. split; [reflexivity|]. split; [apply repeat_length|].
    apply Forall_forall. intros x Hx. apply repeat_spec in Hx. subst x. destruct ps; [cbn [rsum] in Hs; lra|cbn; lia].
Qed.

Definition p_even : list R := map (gibbs (map (Rmult (4/10)) (first_only 0 10))) (map (Rmult (4/10)) (first_only 0 10)).
Definition p_odd : list R := map (gibbs (map (Rmult (4/10)) (first_only 1 10))) (map (Rmult (4/10)) (first_only 1 10)).
Lemma tick_dist q : draw_dist xreal tick_rng q = (map Fin (if Nat.odd q then p_odd else p_even), S q).
Proof.
  unfold draw_dist. cbn [tick_rng rw_std]. rewrite lit_x by lia.
  assert (E : forall l, map (nmul xreal (Fin (IZR 4 / IZR (Zpos 10)))) (map Fin l) = map Fin (map (Rmult (4/10)) l)).
  { intros l. rewrite !map_map. reflexivity. }
  rewrite E, softmax_x by (destruct (Nat.odd q); discriminate). f_equal. destruct (Nat.odd q); unfold p_odd, p_even; rewrite map_map; reflexivity.
Qed.
Lemma tick_dists q : Nat.odd q = false -> draw_dists xreal tick_rng q = ((map Fin p_even, map Fin p_odd), S (S q)).
Proof. intros H. unfold draw_dists. rewrite !tick_dist, H, Nat.odd_succ, <- Nat.negb_odd, H. reflexivity. Qed.
Lemma tick_after q n : Nat.odd q = false -> state_after (draw_dists xreal tick_rng) q n = (q + 2 * n)%nat.
Proof.
  intros H. induction n as [|n IH]; [cbn; lia|]. cbn [state_after]. rewrite IH, tick_dists; [cbn [snd]; lia|].
  rewrite Nat.odd_add, H, Nat.odd_mul. reflexivity.
Qed.
Lemma rsum_first p x k : length p = S k -> rsum (map2 Rmult p (x :: repeat 0 k)) = nth 0 p 0 * x.
Proof.
  destruct p as [|a p]; [discriminate|]. intros H. cbn [map2 rsum nth]. injection H as H.
  assert (E : rsum (map2 Rmult p (repeat 0 k)) = 0); [|lra]. revert p H. induction k as [|k IH]; intros [|b p] H; try discriminate; [reflexivity|].
  cbn [repeat map2 rsum]. rewrite IH by (now injection H). lra.
Qed.

Definition tick_support : list (list R) := map (fun i => [if Nat.eqb i 0 then -1 else 0]) (seq 0 10).
Lemma tick_choice : length p_even = 10%nat /\ length p_odd = 10%nat /\ nth 0 p_even 0 < nth 0 p_odd 0
  /\ map (fun row => inner row [2/10 * 1]) tick_support = (-(2/10)) :: repeat 0 9
  /\ forall k l1 l2 fuel, k_muz k = VArr (rvec [2/10 * 0]) :: l1 -> k_beta k = VArr (rvec [2/10 * 1]) :: l2 ->
       z0_choice xreal tick_rng fuel k 8%nat
       = Returned (map (map Fin) tick_support, (map Fin p_even, map Fin p_odd)) (state_after (draw_dists xreal tick_rng) 8%nat 10).
Proof.
  set (S0 := tick_support).
  assert (HS : z0_support tick_rng (map Fin [2/10 * 0]) 8%nat = (map (map Fin) S0, 8%nat)) by reflexivity.
  assert (Hl : length p_even = 10%nat /\ length p_odd = 10%nat) by (split; reflexivity). destruct Hl as [Le Lo].
  assert (Hmat : Forall (fun row => length row = 1%nat) S0) by (apply Forall_forall; intros x Hx; unfold S0, tick_support in Hx; apply in_map_iff in Hx as (i & <- & _); reflexivity).
  assert (Edot : map (fun row => inner row [2/10 * 1]) S0 = (-(2/10)) :: repeat 0 9).
  { unfold S0, tick_support, inner. rewrite map_map. cbn [seq map Nat.eqb repeat map2 rsum]. repeat (apply f_equal2; [lra|]). reflexivity. }
  assert (Eeff : z0_effect xreal (map (map Fin) S0) (map Fin [2/10 * 1]) (map Fin p_even, map Fin p_odd)
            = Fin (nth 0 p_odd 0 * (-(2/10)) - nth 0 p_even 0 * (-(2/10)))).
  { rewrite (C74_effect p_even p_odd S0 [2/10 * 1] Le Lo Hmat). f_equal.
    change (map (fun r => rsum (map2 Rmult r [2/10 * 1])) S0) with (map (fun row => inner row [2/10 * 1]) S0).
    rewrite Edot, (rsum_first p_odd _ 9 Lo), (rsum_first p_even _ 9 Le). reflexivity. }
  assert (Hlt : nth 0 p_even 0 < nth 0 p_odd 0).
  { assert (Ee : nth 0 p_even 0 = gibbs (map (Rmult (4/10)) (first_only 0 10)) (4/10 * 0)) by reflexivity.
    assert (Eo : nth 0 p_odd 0 = gibbs (map (Rmult (4/10)) (first_only 1 10)) (4/10 * 1)) by reflexivity.
    rewrite Ee, Eo. unfold gibbs, first_only. cbn [seq map Nat.eqb rsum]. rewrite !Rmult_0_r, Rmult_1_r, exp_0.
    pose proof (exp_ineq1 (4/10) ltac:(lra)) as He. set (x := exp (4/10)) in *. clearbody x.
    apply (Rmult_lt_reg_r (10 * (x + 9))); [nra|]. field_simplify; lra. }
  assert (Hsel : forall fuel, tau_selection xreal (draw_dists xreal tick_rng) (z0_effect xreal (map (map Fin) S0) (map Fin [2/10 * 1])) fuel 8%nat
            = Returned (Some (map Fin p_even, map Fin p_odd)) (Some (map Fin p_even, map Fin p_odd), state_after (draw_dists xreal tick_rng) 8%nat 10)).
  { intros fuel. destruct (C74_terminates X _ nat xreal (draw_dists xreal tick_rng) (z0_effect xreal (map (map Fin) S0) (map Fin [2/10 * 1])) 8%nat) as [H _].
    { rewrite nint_x. cbn [xreal nltb xltb]. destruct (Rlt_dec 0 0); [lra|reflexivity]. }
    assert (E9 : nth_draw (draw_dists xreal tick_rng) 8%nat 9 = (map Fin p_even, map Fin p_odd)).
    { unfold nth_draw. rewrite tick_after by reflexivity. now rewrite tick_dists. }
    cbv zeta in H. rewrite E9 in H. apply H. rewrite Eeff, nint_x. cbn [xreal nltb xltb]. destruct (Rlt_dec 0 _); [lra|reflexivity]. }
  split; [exact Le|]. split; [exact Lo|]. split; [exact Hlt|]. split; [exact Edot|]. intros k l1 l2 fuel Em Eb.
  unfold z0_choice. rewrite Em, Eb. cbn [val_entries]. change (entries (rvec [2/10 * 0])) with (map Fin [2/10 * 0]).
  change (entries (rvec [2/10 * 1])) with (map Fin [2/10 * 1]). now rewrite HS, Hsel.
Qed.
(** the search for a large effect of X does not make it positive: whatever the number of rounds
    allowed, the law found here has a negative one *)
Lemma tick_law : exists L d, law_fits [1%nat; 1%nat] [0%nat; 1%nat] 1 L /\ follows quiet [1%nat; 1%nat] [0%nat; 1%nat] 1 L d
  /\ law_effect L < 0
  /\ forall ent fuel, exists q, section_5_1_cpds xreal quiet tick_rng [1%nat; 1%nat] [0%nat; 1%nat] 1 ent (Some 0%Z) fuel = Returned d q.
Proof.
  assert (Hk : exists k l1 l2, coefs1 xreal tick_rng [1%nat; 1%nat] [0%nat; 1%nat] 1 0%nat = Ok (k, 8%nat)
            /\ k_muz k = VArr (rvec [2/10 * 0]) :: l1 /\ k_beta k = VArr (rvec [2/10 * 1]) :: l2).
  { do 3 eexists. split; [reflexivity|]. split; reflexivity. }
  destruct Hk as (k & l1 & l2 & Ek & Em & Eb). set (S0 := tick_support).
  destruct tick_choice as (Le & Lo & Hlt & Edot & Hch). pose proof (fun fuel => Hch k l1 l2 fuel Em Eb) as Hz. fold S0 in Edot, Hz.
  destruct (section_5_1_shape xreal quiet tick_rng [1%nat; 1%nat] [0%nat; 1%nat] 1 0%nat (Some 0%Z) 0) as (k' & q1 & d1 & Ek' & _ & Ed & Hcase); [cbn; lia|cbn; lia|].
  change (start_rng tick_rng 0%nat (Some 0%Z)) with 0%nat in Ek'. rewrite Ek in Ek'. injection Ek' as <- <-.
  set (d := sset d1 "Z0" (z0_cpd xreal quiet (map (map Fin) S0) 1 (map Fin p_even, map Fin p_odd))).
  assert (Hret : forall ent fuel, section_5_1_cpds xreal quiet tick_rng [1%nat; 1%nat] [0%nat; 1%nat] 1 ent (Some 0%Z) fuel
            = Returned d (state_after (draw_dists xreal tick_rng) 8%nat 10)).
  { intros ent fuel. unfold section_5_1_cpds. change (start_rng tick_rng ent (Some 0%Z)) with 0%nat. rewrite Ek, Ed, Hz. reflexivity. }
  destruct (follows_of quiet tick_rng tick_real [1%nat; 1%nat] [0%nat; 1%nat] 1 0%nat (Some 0%Z) 0 d _ ltac:(cbn; lia) ltac:(cbn; lia) (Hret 0%nat 0%nat))
    as (_ & L & HL & Hf & k' & q1 & l & Ek' & Eb' & Ez).
  change (start_rng tick_rng 0%nat (Some 0%Z)) with 0%nat in Ek'. rewrite Ek in Ek'. injection Ek' as <- <-.
  rewrite Eb in Eb'. rewrite Hz in Ez.
  assert (inj : forall a b : list R, map Fin a = map Fin b -> a = b).
  { induction a as [|x a IH]; intros [|y b] H; try discriminate; [reflexivity|]. injection H as -> H. f_equal. now apply IH. }
  assert (inj2 : forall a b : list (list R), map (map Fin) a = map (map Fin) b -> a = b).
  { induction a as [|x a IH]; intros [|y b] H; try discriminate; [reflexivity|]. injection H as H1 H. f_equal; [now apply inj|now apply IH]. }
  assert (Eb0 : [2/10 * 1] = lw_beta L 0).
  { assert (E : rvec [2/10 * 1] = rvec (lw_beta L 0)) by congruence. unfold rvec, vec in E. destruct (lw_beta L 0) as [|y [|z t]]; try discriminate.
    injection E as E. now rewrite E. }
  assert (ES : S0 = lw_support L) by (apply inj2; congruence).
  assert (E0 : p_even = lw_prob L false) by (apply inj; congruence). assert (E1 : p_odd = lw_prob L true) by (apply inj; congruence).
  exists L, d. split; [exact HL|]. split; [exact Hf|]. split.
  - unfold law_effect, mean_z0. rewrite <- E0, <- E1, <- ES, <- Eb0, Edot, (rsum_first p_odd _ 9 Lo), (rsum_first p_even _ 9 Le). lra.
  - intros ent fuel. eexists. apply Hret.
Qed.
Theorem C94_positive_effect_refuted : exists (r : rng_world X nat) zd vd m seed L d,
  real_rng r /\ law_fits zd vd m L /\ follows quiet zd vd m L d /\ law_effect L < 0
  /\ forall ent fuel, exists q, section_5_1_cpds xreal quiet r zd vd m ent seed fuel = Returned d q.
Proof.
  destruct tick_law as (L & d & H). exists tick_rng, [1%nat; 1%nat], [0%nat; 1%nat], 1%nat, (Some 0%Z), L, d. split; [exact tick_real|exact H].
Qed.
Print Assumptions C94_positive_effect_refuted.

Example C93_case :
  (exists q, section_5_1_cpds xreal quiet tick_rng [1%nat; 1%nat] [0%nat] 1 0%nat (Some 0%Z) 5 = Raised IndexError q)
  /\ (exists q, section_5_1_cpds xreal quiet tick_rng [1%nat; 1%nat] [0%nat] 0 0%nat (Some 0%Z) 5 = Raised NameError q)
  /\ (1 <= 1 < length [1%nat; 1%nat])%nat /\ (1 < length [0%nat; 1%nat])%nat.
Proof.
  split; [apply (C93_errors xreal quiet tick_rng [1%nat; 1%nat] [0%nat] 1); right; cbn; lia|].
  split; [apply (C93_errors xreal quiet tick_rng [1%nat; 1%nat] [0%nat] 0); [discriminate|reflexivity]|]. cbn. lia.
Qed.
Lemma tick_returns : exists d, forall ent fuel, exists q,
  section_5_1_cpds xreal quiet tick_rng [1%nat; 1%nat] [0%nat; 1%nat] 1 ent (Some 0%Z) fuel = Returned d q.
Proof. destruct tick_law as (L & d & _ & _ & _ & H). eauto. Qed.
Example C94_case : exists d q L, section_5_1_cpds xreal quiet tick_rng [1%nat; 1%nat] [0%nat; 1%nat] 1 0%nat (Some 0%Z) 0 = Returned d q
  /\ real_rng tick_rng /\ law_fits [1%nat; 1%nat] [0%nat; 1%nat] 1 L /\ follows quiet [1%nat; 1%nat] [0%nat; 1%nat] 1 L d.
Proof.
  destruct (tick_returns) as (d & Hd). destruct (Hd 0%nat 0%nat) as (q & E). exists d, q.
  destruct (C94_structural _ _ quiet tick_rng _ _ _ _ _ _ _ _ tick_real E) as (L & HL & Hf). exists L. split; [exact E|]. split; [exact tick_real|]. split; assumption.
Qed.

(** ** C95: sampling from them *)
Section C95.
  Context {G Q : Type} (w : cpd_world X G) (r : rng_world X Q).
  Hypothesis Hw : regular w.
  Hypothesis Hr : real_rng r.

  Lemma run51 zd vd m ent seed fuel d q n : section_5_1_cpds xreal w r zd vd m ent seed fuel = Returned d q ->
    (1 <= m < length zd)%nat -> (m < length vd)%nat ->
    (forall i, (1 <= i <= m)%nat -> (1 <= nth i zd 0%nat)%nat /\ (1 <= nth i vd 0%nat)%nat) -> (1 <= n)%nat ->
    exists s, paper_scm m d = Ok s /\ forall g, exists ps ts ys g' log,
      generate (logging s) n (g, []) = (Ok (ed_init (Some (features n ps)) (Some (vec (zos ts))) (Some (rvec ys))), (g', log))
      /\ (forall v a, latest log v a -> sample_type zd vd m n v a)
      /\ samples_of n ps /\ map fst ps = nth 0 zd 0%nat :: flat_map (fun i => [nth i vd 0%nat; nth i zd 0%nat]) (seq 1 m)
      /\ length ts = n /\ length ys = n.
  Proof.
    intros E Hz Hv Hdim Hn. destruct (follows_of w r Hr zd vd m ent seed fuel d q Hz Hv E) as (Hent & L & HL & Hf & _).
    destruct (paper_scm_ok m d Hent) as (s & Es & Hc & Evs & Ecov & Etr & Ers & _). exists s. split; [exact Es|]. intros g.
    destruct (generate_logged s n (sample_type zd vd m n) Hc (paper_topological m d s Es)
                (step51 w zd vd m n L d Hw HL Hf ltac:(lia) Hn Hdim s Es) g) as (cols & x & t & y & g' & log & Eg & Hlog & HF & Ex & Pt & Py).
    { intros cols HF. rewrite Ecov in HF. destruct (layout_args zd vd m n cols HF) as (ps & -> & Hs & Ef).
      exists (features n ps). apply column_stack_samples; [intros ->; discriminate|exact Hs]. }
    rewrite Ecov in HF. destruct (layout_args zd vd m n cols HF) as (ps & -> & Hs & Ef).
    rewrite (column_stack_samples n ps) in Ex; [|intros ->; discriminate|exact Hs]. injection Ex as <-.
    rewrite Etr in Pt. rewrite Ers in Py. destruct (ST_X zd vd m n t Pt) as (ts & Ht & ->), (ST_Y zd vd m n y Py) as (ys & Hy & ->).
    exists ps, ts, ys, g', log. auto 10.
  Qed.

  (** every call of generate with at least one unit succeeds: the covariates Z0, V1, Z1, V2, Z2,
      ... side by side, 0/1 treatments, real responses; every variable has its declared
      dimensions *)
Theorem C95_generate : forall zd vd m ent seed fuel d q n,
    section_5_1_cpds xreal w r zd vd m ent seed fuel = Returned d q ->
    (forall i, (1 <= i <= m)%nat -> (1 <= nth i zd 0%nat)%nat /\ (1 <= nth i vd 0%nat)%nat) -> (1 <= n)%nat ->
    exists s, paper_scm m d = Ok s /\ forall g, exists ps ts ys g' log,
      let data := ed_init (Some (features n ps)) (Some (vec (zos ts))) (Some (rvec ys)) in
      generate s n g = (Ok data, g') /\ generate (logging s) n (g, []) = (Ok data, (g', log))
      /\ (forall v a, latest log v a -> sample_type zd vd m n v a)
      /\ samples_of n ps /\ map fst ps = nth 0 zd 0%nat :: flat_map (fun i => [nth i vd 0%nat; nth i zd 0%nat]) (seq 1 m)
      /\ length ts = n /\ length ys = n.
  Proof.
    intros zd vd m ent seed fuel d q n E Hdim Hn. destruct (returned_dims w r zd vd m ent seed fuel d q E) as [Hz Hv].
    destruct (run51 zd vd m ent seed fuel d q n E Hz Hv Hdim Hn) as (s & Es & H). exists s. split; [exact Es|]. intros g.
    destruct (H g) as (ps & ts & ys & g' & log & Eg & H'). exists ps, ts, ys, g', log. split; [|split; [exact Eg|exact H']].
    destruct (C21_calls s n g) as (log' & El & _). rewrite Eg in El. destruct (generate s n g) as [rr g1]. cbn [fst snd] in El. congruence.
  Qed.

  (** get_section_5_1_example never raises for sensible dimensions: it returns an example, or
      the choice of the distributions of Z0 goes on forever *)
Theorem C95_example : forall big zd vd seed zc vc z0c m limit units latex ent fuel g,
    (1 <= m < length zd)%nat -> (m < length vd)%nat ->
    (forall i, (1 <= i <= m)%nat -> (1 <= nth i zd 0%nat)%nat /\ (1 <= nth i vd 0%nat)%nat) -> (1 <= big)%nat ->
    (exists g', section_5_1_example xreal w r big zd vd seed zc vc z0c m limit units latex ent fuel g = OutOfFuel g')
    \/ exists e g', section_5_1_example xreal w r big zd vd seed zc vc z0c m limit units latex ent fuel g = Returned e g'
         /\ length (e_arms e) = S (2 ^ m).
  Proof.
    intros big zd vd seed zc vc z0c m limit units latex ent fuel g Hz Hv Hdim Hb. unfold section_5_1_example.
    destruct (C93_complete xreal w r zd vd m ent (Some seed) fuel Hz Hv) as [(q & E)|(d & q & E & Hent)]; rewrite E; [left; eauto|right].
    destruct (C95_generate zd vd m ent (Some seed) fuel d q big E Hdim Hb) as (s & Es & H). destruct (H g) as (ps & ts & ys & g' & log & Eg & _).
    destruct (proj2 (C81_succeeds_iff X G xreal big zd vd zc vc z0c m d limit units latex FINITE_SAMPLE g)) as (e & g1 & Ee).
    { split; [intros v Hp; now apply Hent|]. split; [exact Hz|]. split; [exact Hv|]. eauto. }
    rewrite Ee. exists e, g1. split; [reflexivity|]. eapply C81_configuration. exact Ee.
  Qed.

  (** with equal dimensions on the back-door paths, every data set drawn from the returned SCM
      shows every back-door arm the columns of the wrong variables *)
Theorem C95_back_door_wrong : forall big zd vd seed zc vc z0c m limit units latex ent fuel g0 e g1 dim n g k,
    section_5_1_example xreal w r big zd vd seed zc vc z0c m limit units latex ent fuel g0 = Returned e g1 ->
    equal_dims zd vd m dim -> (1 <= dim)%nat -> (1 <= n)%nat -> (k < 2 ^ m)%nat ->
    (forall i, (1 <= i <= m)%nat -> read_var m k i <> (if observes_v k i then Vn i else Zn i)) /\
    exists d g' log a rd c, generate (logging (e_scm e)) n (g, []) = (Ok d, (g', log)) /\ n_units d = n /\
      nth_error (e_arms e) (S k) = Some a /\ select_fn (pa_mask a) d = Ok rd /\ dcov rd = Some c /\ length (arows c) = n /\
      forall u, (u < n)%nat -> exists parts,
        Forall2 (fun i p => exists b, latest log (read_var m k i) b /\ p = row b u) (seq 1 m) parts /\
        row c u = List.concat parts.
  Proof.
    intros big zd vd seed zc vc z0c m limit units latex ent fuel g0 e g1 dim n g k E Heq Hdim Hn Hk. unfold section_5_1_example in E.
    destruct (section_5_1_cpds xreal w r zd vd m ent (Some seed) fuel) as [d q|ex q|q] eqn:Ec; try discriminate.
    destruct (generate_example xreal big zd vd zc vc z0c m d limit units latex FINITE_SAMPLE g0) as [[e'|ex] g2] eqn:Ee; try discriminate.
    injection E as -> ->.
    destruct (C95_generate zd vd m ent (Some seed) fuel d q n Ec) as (s & Es & H).
    { intros i Hi. destruct Heq as (_ & _ & _ & H). destruct (H i Hi). lia. } { exact Hn. }
    destruct (H g) as (ps & ts & ys & g' & log & _ & Eg & Hlog & Hs & Hps & _).
    assert (Ess : e_scm e = s).
    { destruct (C81_configuration X G xreal big zd vd zc vc z0c m d limit units latex FINITE_SAMPLE g0 e g1 Ee) as (_ & _ & _ & _ & Es' & _). congruence. }
    assert (Hd : has_dims zd vd m (latest log)).
    { split; [|split].
      - intros a Ha. apply Hlog in Ha. change "Z0" with (Zn 0) in Ha. destruct (ST_Z zd vd m n 0 a Ha) as (rows & Hr' & ->). now apply shaped_rmat with n.
      - intros i a Hi Ha. apply Hlog in Ha. destruct (ST_Z zd vd m n i a Ha) as (rows & Hr' & ->). now apply shaped_rmat with n.
      - intros i a Hi Ha. apply Hlog in Ha. destruct (ST_V zd vd m n i a Ha) as (rows & Hr' & ->). now apply shaped_rmat with n. }
    rewrite <- Ess in Eg.
    destruct (C72_back_door_wrong X G xreal big zd vd zc vc z0c m dim d limit units latex FINITE_SAMPLE g0 e g1 n g _ g' log k Ee Eg Hd Heq Hdim Hk)
      as (Hne & a & rd & c & Ha & Hsel & Hc & Hl & Hrow).
    assert (Hu : n_units (ed_init (Some (features n ps)) (Some (vec (zos ts))) (Some (rvec ys))) = n).
    { unfold n_units, alen. cbn. now rewrite !map_length, seq_length. }
    rewrite Hu in Hl, Hrow. split; [exact Hne|]. eexists. exists g', log, a, rd, c. split; [exact Eg|]. split; [exact Hu|]. split; [exact Ha|]. split; [exact Hsel|]. split; [exact Hc|]. split; [exact Hl|exact Hrow].
  Qed.
End C95.
Print Assumptions C95_generate.
Print Assumptions C95_example.
Print Assumptions C95_back_door_wrong.

Example C95_case : exists e g' data log,
  section_5_1_example xreal quiet tick_rng 3 [1%nat; 1%nat] [0%nat; 1%nat] 0%Z (Fin 1) (Fin 2) (Fin 3) 1 100%Z 10 false 0%nat 0 tt = Returned e g'
  /\ length (e_arms e) = 3%nat /\ regular quiet /\ real_rng tick_rng /\ equal_dims [1%nat; 1%nat] [0%nat; 1%nat] 1 1
  /\ generate (logging (e_scm e)) 4 (tt, []) = (Ok data, (tt, log)) /\ n_units data = 4%nat.
Proof.
  destruct tick_returns as (d & Hd). destruct (Hd 0%nat 0%nat) as (q & E).
  assert (Heq : equal_dims [1%nat; 1%nat] [0%nat; 1%nat] 1 1).
  { repeat split; intros; replace i with 1%nat by lia; reflexivity. }
  destruct (C95_example quiet tick_rng quiet_regular tick_real 3 [1%nat; 1%nat] [0%nat; 1%nat] 0%Z (Fin 1) (Fin 2) (Fin 3) 1 100%Z 10 false 0%nat 0 tt)
    as [(g' & H)|(e & g' & H & Hl)]; try (cbn; lia).
  { intros i Hi. replace i with 1%nat by lia. cbn. lia. }
  { exfalso. unfold section_5_1_example in H. rewrite E in H. destruct (generate_example _ _ _ _ _ _ _ _ _ _ _ _ _ _) as [[]]; discriminate. }
  destruct (C95_back_door_wrong quiet tick_rng quiet_regular tick_real 3 [1%nat; 1%nat] [0%nat; 1%nat] 0%Z (Fin 1) (Fin 2) (Fin 3) 1 100%Z 10 false 0%nat 0 tt
              e g' 1 4 tt 0 H Heq ltac:(lia) ltac:(lia) ltac:(cbn; lia)) as (_ & data & [] & log & a & rd & c & Eg & Hu & _).
  exists e, g', data, log. split; [exact H|]. split; [exact Hl|]. split; [exact quiet_regular|]. split; [exact tick_real|]. auto.
Qed.
