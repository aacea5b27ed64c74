(** Rounds and gaps: the uniform algorithm and LUCB. *)
From Coq Require Import List Arith ZArith Lia Bool Reals Lra.
From Flocq Require Import Core BinarySingleNaN.
From Verif Require Import PyBase PyLemmas Num NumLemmas BanditModel BanditSpec BanditProofs1 BanditProofs2 BanditProofs3 BanditProofs4 BanditProofs5
  PacSpec PacProofs GapSpec GapProofs.
Import ListNotations.
Open Scope nat_scope.

(** twice the tolerance absorbs the rounding of the difference *)
Lemma fsub_gap (u l t : F) : is_finite u = true -> is_finite l = true -> is_finite t = true -> (0 <= B2R t)%R ->
  (B2R u + 2 * B2R t < B2R l)%R -> fltb u (fsub l t) = true.
Proof.
  intros Fu Fl Ft Ht Hlt.
  pose proof (Bminus_correct 53 1024 _ _ mode_NE l t Fl Ft) as Hc. change (Bminus mode_NE l t) with (fsub l t) in Hc.
  set (rnd := round radix2 (SpecFloat.fexp 53 1024) (round_mode mode_NE)) in *.
  assert (Hn : (Rabs (rnd (B2R l - B2R t) - (B2R l - B2R t)) <= Rabs (B2R l - (B2R l - B2R t)))%R).
  { assert (Hv : Valid_exp (SpecFloat.fexp 53 1024)) by (apply (fexp_correct 53 1024); exact prec_gt_0_53).
    apply (round_N_pt radix2 (SpecFloat.fexp 53 1024) (fun z => negb (Z.even z)) (B2R l - B2R t)). apply generic_format_B2R. }
  replace (B2R l - (B2R l - B2R t))%R with (B2R t) in Hn by ring. rewrite (Rabs_pos_eq (B2R t)) in Hn by exact Ht.
  apply Rabs_le_inv in Hn.
  pose proof (fkey_bound u Fu) as Bu. pose proof (fkey_bound l Fl) as Bl. rewrite (fkey_finite u Fu) in Bu. rewrite (fkey_finite l Fl) in Bl.
  rewrite Rlt_bool_true in Hc. 2:{ apply Rabs_def1; fold big; lra. }
  destruct Hc as (HR & HF & _). apply fltb_spec.
  assert (Nn : forall y : F, is_finite y = true -> num y) by (intros [] Hy; try discriminate Hy; reflexivity).
  split; [auto|]. split; [auto|]. rewrite !fkey_finite by assumption. rewrite HR. lra.
Qed.

(** why the end condition fails on finite readings *)
Lemma check_end_not cfg rs best v wd : tol_ok cfg -> (forall j, j < length rs -> tight (v j) (wd j) (rd rs j)) ->
  check_end cfg rs = Ok (false, best) ->
  exists i b, i < length rs /\ b < length rs /\ b <> i /\
    (forall k, k < length rs -> (B2R (r_var (rd rs i)) <= B2R (r_var (rd rs k)))%R) /\
    (forall k, k < length rs -> k <> i -> (B2R (r_lcb (rd rs b)) <= B2R (r_lcb (rd rs k)))%R) /\
    (B2R (r_lcb (rd rs b)) <= B2R (r_ucb (rd rs i)) + 2 * B2R (c_error_tol cfg))%R.
Proof.
  intros [Ft Ht] HT. unfold check_end.
  destruct (existsb fisinf (map r_ucb rs)) eqn:Ei.
  { intros _. exfalso. apply existsb_exists in Ei as (x & Hx & Ex). apply in_map_iff in Hx as (r & <- & Hr).
    apply (In_nth _ _ (mkReading fnan fnan fnan)) in Hr as (j & Hj & <-). destruct (HT j Hj) as (_ & F2 & _). unfold rd in F2.
    destruct (r_ucb (nth j rs (mkReading fnan fnan fnan))); discriminate. }
  assert (Hv : forall j, nth_error (map r_var rs) j = if j <? length rs then Some (r_var (rd rs j)) else None).
  { intros j. rewrite nth_error_map. destruct (Nat.ltb_spec j (length rs)) as [Hj|Hj]; [rewrite rd_nth by exact Hj; reflexivity|].
    rewrite (proj2 (nth_error_None _ _)) by exact Hj. reflexivity. }
  assert (Hvn : Forall num (map r_var rs)).
  { apply Forall_forall. intros x Hx. apply In_nth_error in Hx as (j & Hj). rewrite Hv in Hj. destruct (Nat.ltb_spec j (length rs)); [|discriminate].
    injection Hj as <-. eapply tight_key. apply HT. assumption. }
  intros H. apply bind_ok in H as (m & Hm & H).
  destruct (fisnan m) eqn:Enm.
  { exfalso. destruct (py_min_spec _ _ Hvn Hm) as (_ & Nm & _). unfold num in Nm. congruence. }
  apply bind_ok in H as (i & Hi & H). apply bind_ok in H as (lo & Hlo & H).
  pose proof (np_argmin_bound _ _ Hi) as Hb. rewrite map_length in Hb.
  destruct (np_argmin_spec _ _ Hvn Hi) as (m' & Hm' & _ & Hmin). rewrite Hv in Hm'. apply Nat.ltb_lt in Hb as Hb'. rewrite Hb' in Hm'. injection Hm' as <-.
  assert (Hlow : exists b, b < length rs /\ b <> i /\ lo = r_lcb (rd rs b)).
  { apply py_min_in in Hlo. unfold without in Hlo. apply in_app_or in Hlo as [Hl|Hl].
    - apply In_nth_error in Hl as (k & Hk).
      assert (Hki : k < i). { assert (k < length (firstn i (map r_lcb rs))) by (apply nth_error_Some; congruence). rewrite firstn_length in *. lia. }
      assert (E : nth_error (map r_lcb rs) k = Some lo).
      { rewrite <- (firstn_skipn i (map r_lcb rs)). rewrite nth_error_app1; [exact Hk|]. apply nth_error_Some. congruence. }
      exists k. split; [lia|]. split; [lia|]. rewrite nth_error_map, rd_nth in E by lia. cbn [option_map] in E. congruence.
    - apply In_nth_error in Hl as (k & Hk).
      assert (E : nth_error (map r_lcb rs) (S i + k) = Some lo).
      { rewrite <- (firstn_skipn (S i) (map r_lcb rs)). rewrite nth_error_app2 by (rewrite firstn_length, map_length; lia).
        rewrite firstn_length, map_length. replace (S i + k - Nat.min (S i) (length rs)) with k by lia. exact Hk. }
      assert (Hlt : S i + k < length rs) by (rewrite <- (map_length r_lcb rs); apply nth_error_Some; congruence).
      exists (S i + k). split; [lia|]. split; [lia|]. rewrite nth_error_map, rd_nth in E by lia. cbn [option_map] in E. congruence. }
  destruct Hlow as (b & Hbl & Hbi & Elo).
  destruct (HT b Hbl) as (Fl & _). destruct (HT i Hb) as (_ & Fu & Fv & _).
  exists i, b. split; [exact Hb|]. split; [exact Hbl|]. split; [exact Hbi|]. split; [|split].
  - intros k Hk. rewrite <- (fkey_finite _ Fv). destruct (HT k Hk) as (_ & _ & Fk & _). rewrite <- (fkey_finite _ Fk).
    apply Hmin. apply nth_error_In with k. rewrite Hv. apply Nat.ltb_lt in Hk as ->. reflexivity.
  - intros k Hk Hki. rewrite <- Elo. destruct (HT k Hk) as (Fk & _). rewrite <- (fkey_finite _ Fk).
    assert (Flo : is_finite lo = true) by (rewrite Elo; exact Fl). rewrite <- (fkey_finite _ Flo).
    assert (Nn : forall y : F, is_finite y = true -> num y) by (intros [] Hy; try discriminate Hy; reflexivity).
    apply (py_min_lower _ _ Hlo (Nn _ Flo)); [|apply Nn, Fk].
    apply nth_error_without with k; [rewrite map_length; exact Hb| |exact Hki]. rewrite nth_error_map, rd_nth by exact Hk. reflexivity.
  - apply Rnot_lt_le. intros Hlt. injection H as H _.
    assert (Hu : nth i (map r_ucb rs) fnan = r_ucb (rd rs i)). { apply nth_error_nth. rewrite nth_error_map, rd_nth by exact Hb. reflexivity. }
    rewrite Hu, Elo in H. rewrite fsub_gap in H by assumption. discriminate.
Qed.

Section P.
  Context {A D G : Type} (ops : arm_ops A D G) (w : world D G) (cfg : config).
  Notation bstate := (bstate (A := A) (G := G)).
  Implicit Types s : bstate.

  (** ** the uniform algorithm *)
  Definition uni_inv K s : Prop := shape ops K s /\ (forall j, j < K -> pulled s j = length (b_cum s)) /\
    b_total s = K * c_units cfg * length (b_cum s).

  Lemma run_uniform_gap fuel all arms g v W b N : 0 < c_units cfg -> tol_ok cfg -> b < length arms -> 1 <= N ->
    (forall j, j < length arms -> j <> b -> apart cfg v W b j N) ->
    match run Uniform ops w cfg fuel all arms g with
    | Returned _ s => uni_inv (length arms) s /\ (accurate v W s -> length (b_cum s) <= N)
    | Raised _ _ => True
    | OutOfFuel s => uni_inv (length arms) s /\ (accurate v W s -> length (b_cum s) < N) end.
  Proof.
    intros Hu Ht Hb HN Hap. set (K := length arms) in *. apply run_inv; [|discriminate|].
    - intros _. split; [|simpl; lia]. split; [apply shape_init|]. split; [reflexivity|simpl; lia].
    - intros s [(Hs & Hp & Htot) HJ].
      pose proof (sh_arms _ _ _ Hs) as HaK.
      assert (Hstep : forall d g1 arms' g2 rs, pull_all ops d (delta_of cfg (b_arms s)) (b_arms s) g1 = (arms', g2, Ok rs) -> collect ops arms' = Ok rs ->
        uni_inv K (u_next cfg s arms' g2 rs) /\ length (b_cum (u_next cfg s arms' g2 rs)) = S (length (b_cum s)) /\ length rs = K /\
        (accurate v W (u_next cfg s arms' g2 rs) -> accurate v W s /\ forall j, j < K -> tight (v j) (W j (S (length (b_cum s)))) (rd rs j))).
      { intros d g1 arms' g2 rs Hpl Hco.
        assert (Hal : length arms' = K) by (eapply pull_all_len'; [exact HaK|exact Hpl]).
        pose proof (collect_length ops _ _ Hco) as Hrl. rewrite Hal in Hrl.
        set (smp := map (fun _ => c_units cfg) (b_arms s)).
        assert (Hsl : length smp = K) by (unfold smp; rewrite map_length; exact HaK).
        assert (Hsmp : forall j, j < K -> nth_error smp j = Some (c_units cfg)).
        { intros j Hj. unfold smp. rewrite nth_error_map. destruct (nth_error (b_arms s) j) eqn:E; [reflexivity|apply nth_error_None in E; lia]. }
        change (u_next cfg s arms' g2 rs) with (next s arms' g2 rs smp (b_total s + length (b_arms s) * c_units cfg) (b_cand s)).
        assert (Hpn : forall j, j < K -> pulled (next s arms' g2 rs smp (b_total s + length (b_arms s) * c_units cfg) (b_cand s)) j = S (length (b_cum s))).
        { intros j Hj. rewrite (pulled_next ops K) by assumption. rewrite (Hsmp j Hj), (Hp j Hj). destruct (c_units cfg); lia. }
        assert (Hlen : length (b_cum (next s arms' g2 rs smp (b_total s + length (b_arms s) * c_units cfg) (b_cand s))) = S (length (b_cum s))) by (simpl; rewrite app_length; simpl; lia).
        split; [|split; [exact Hlen|split; [exact Hrl|]]].
        - split; [apply (shape_u_next ops cfg K s arms' g2 rs Hs Hal Hco)|]. split; [intros j Hj; rewrite Hlen; apply Hpn, Hj|].
          rewrite Hlen. simpl b_total. rewrite Htot, HaK. nia.
        - intros Hacc. destruct (accurate_next ops K s arms' g2 rs smp _ (b_cand s) v W Hs Hrl Hsl Hacc) as [Hold Hnew].
          split; [exact Hold|]. intros j Hj. rewrite <- (Hpn j Hj). apply Hnew, Hj. }
      pose proof (uniform_step_inv ops w cfg all s) as H.
      destruct (uniform_step ops w cfg all s) as [s'|best s'|e s']; [| |exact I].
      + destruct H as (st & d & g1 & arms' & g2 & rs & bb & _ & _ & Hpl & Hco & -> & _ & Hce).
        destruct (Hstep d g1 arms' g2 rs Hpl Hco) as (H1 & H2 & H3 & H4). split; [exact H1|]. intros Hacc. rewrite H2.
        destruct (H4 Hacc) as [Hold Hnew]. specialize (HJ Hold).
        destruct (Nat.eq_dec (S (length (b_cum s))) N) as [E|]; [exfalso|lia]. rewrite E in Hnew.
        destruct (check_end_not cfg rs bb v (fun j => W j N) Ht) as (i & c & Hi & Hc & Hci & Hmin & Hlow & Hle); [intros j Hj; apply Hnew; lia|exact Hce|].
        rewrite H3 in *. unfold apart in Hap. destruct Ht as [_ Ht].
        destruct (Nat.eq_dec i b) as [->|Hib].
        * specialize (Hap c Hc Hci). destruct (Hnew b Hb) as (_ & _ & _ & _ & Vb & Eb & Wb). destruct (Hnew c Hc) as (_ & _ & _ & _ & Vc & Ec & Wc). lra.
        * specialize (Hap i Hi Hib). specialize (Hmin b Hb). destruct (Hnew b Hb) as (_ & _ & _ & _ & Vb & Eb & Wb). destruct (Hnew i Hi) as (_ & _ & _ & _ & Vi & Ei & Wi). lra.
      + destruct H as (st & d & g1 & arms' & g2 & rs & _ & _ & Hpl & Hco & -> & _).
        destruct (Hstep d g1 arms' g2 rs Hpl Hco) as (H1 & H2 & H3 & H4). split; [exact H1|]. intros Hacc. rewrite H2.
        destruct (H4 Hacc) as [Hold _]. specialize (HJ Hold). lia.
  Qed.

  (** ** LUCB *)
  (** both arms that LUCB draws cannot be narrow unless the end condition holds *)
  Lemma drawn_wide rs best v wd b a c g g' : tol_ok cfg ->
    (forall j, j < length rs -> tight (v j) (wd j) (rd rs j)) ->
    (forall j k, j < length rs -> k < length rs -> j <> k ->
       (B2R (r_lcb (rd rs j)) <> B2R (r_lcb (rd rs k)) /\ B2R (r_ucb (rd rs j)) <> B2R (r_ucb (rd rs k)) /\ B2R (r_var (rd rs j)) <> B2R (r_var (rd rs k)))%R) ->
    fair_choice w -> forall arms, collect ops arms = Ok rs -> b < length rs ->
    select_arms ops w arms g = (Ok [a; c], g') -> check_end cfg rs = Ok (false, best) ->
    a < length rs /\ c < length rs /\ a <> c /\ (narrow cfg (length rs) v b a (wd a) -> narrow cfg (length rs) v b c (wd c) -> False).
  Proof.
    intros Ht HT Hun Hf arms Hco Hb Hsel Hce.
    destruct (check_end_not cfg rs best v wd Ht HT Hce) as (i & m & Hi & Hm & Hmi & Hmin & Hlow & Hle).
    assert (Hkey : forall k, k < length rs -> fkey (r_lcb (rd rs k)) = B2R (r_lcb (rd rs k)) /\ fkey (r_ucb (rd rs k)) = B2R (r_ucb (rd rs k)) /\ fkey (r_var (rd rs k)) = B2R (r_var (rd rs k)))
      by (intros k Hk; eapply tight_key, HT, Hk).
    assert (Hinc : forall k, incumbent rs k <-> k = i).
    { intros k. split.
      - intros [Hk H]. specialize (H i Hi). destruct (Nat.eq_dec k i) as [|Hne]; [assumption|exfalso].
        destruct (Hun k i Hk Hi Hne) as (_ & _ & Hv). specialize (Hmin k Hk). destruct (Hkey k Hk) as (_ & _ & E1). destruct (Hkey i Hi) as (_ & _ & E2). lra.
      - intros ->. split; [exact Hi|]. intros k Hk. destruct (Hkey k Hk) as (_ & _ & ->). destruct (Hkey i Hi) as (_ & _ & ->). auto. }
    assert (Hnum : Forall numeric rs).
    { apply Forall_forall. intros r Hr. apply (In_nth _ _ (mkReading fnan fnan fnan)) in Hr as (j & Hj & <-).
      pose proof (tight_key _ _ _ (HT j Hj)) as (N1 & N2 & N3 & _). repeat split; assumption. }
    destruct (select_spec ops w arms rs g Hco Hnum Hf) as [_ Hsp].
    destruct Hsp as (a0 & c0 & g0 & Es & Ha & Hc & (i1 & Hi1 & Ea) & _ & (j1 & Hj1 & Hnj1 & Ec) & Hcl).
    { exists m. split; [exact Hm|]. rewrite Hinc. exact Hmi. }
    rewrite Hsel in Es. injection Es as <- <- <-. apply Hinc in Hi1. subst i1.
    assert (Eai : a = i).
    { destruct (Nat.eq_dec a i) as [|Hne]; [assumption|exfalso]. destruct (Hun a i Ha Hi Hne) as (_ & Hq & _).
      destruct (Hkey a Ha) as (_ & E1 & _). destruct (Hkey i Hi) as (_ & E2 & _). apply Hq. congruence. }
    assert (Ecj : c = j1).
    { destruct (Nat.eq_dec c j1) as [|Hne]; [assumption|exfalso]. destruct (Hun c j1 Hc Hj1 Hne) as (Hq & _ & _).
      destruct (Hkey c Hc) as (E1 & _). destruct (Hkey j1 Hj1) as (E2 & _). apply Hq. congruence. }
    subst a j1. rewrite Hinc in Hnj1. split; [exact Ha|]. split; [exact Hc|]. split; [congruence|].
    assert (Hcm : (B2R (r_lcb (rd rs c)) <= B2R (r_ucb (rd rs i)) + 2 * B2R (c_error_tol cfg))%R).
    { specialize (Hcl m Hm ltac:(rewrite Hinc; exact Hmi)). destruct (Hkey c Hc) as (E1 & _). destruct (Hkey m Hm) as (E2 & _). lra. }
    intros Na Nc. unfold narrow in Na, Nc. destruct Ht as [_ Ht].
    destruct (HT i Hi) as (_ & _ & _ & _ & Vi & Ei & Wi). destruct (HT c Hc) as (_ & _ & _ & _ & Vc & Ec' & Wc).
    destruct (Nat.eq_dec i b) as [->|Hib].
    - specialize (Na c Hc Hnj1 (or_introl eq_refl)). specialize (Nc c Hc Hnj1 (or_intror eq_refl)). lra.
    - destruct (Nat.eq_dec c b) as [->|Hcb].
      + specialize (Na i Hi Hib (or_intror eq_refl)). specialize (Nc i Hi Hib (or_introl eq_refl)). specialize (Hmin b Hb). lra.
      + specialize (Nc c Hc Hcb (or_intror eq_refl)).
        specialize (Hcl b Hb ltac:(rewrite Hinc; congruence)). destruct (Hkey c Hc) as (E1 & _). destruct (Hkey b Hb) as (E2 & _).
        destruct (HT b Hb) as (_ & _ & _ & _ & Vb & _). lra.
  Qed.

  Lemma last_tight K s rs v W : shape ops K s -> b_cum s <> [] -> collect ops (b_arms s) = Ok rs -> accurate v W s ->
    length rs = K /\ (forall j, j < K -> recorded s j (length (b_cum s) - 1) = Some (rd rs j)) /\
    forall j, j < K -> tight (v j) (W j (pulled s j)) (rd rs j).
  Proof.
    intros Hs Hne Hco Ha. pose proof (collect_length ops _ _ Hco) as Hrl. rewrite (sh_arms _ _ _ Hs) in Hrl. split; [exact Hrl|].
    assert (Hr : forall j, j < K -> recorded s j (length (b_cum s) - 1) = Some (rd rs j)).
    { intros j Hj. destruct (sh_last _ _ _ Hs) as [E|(rs' & Hco' & Hl)]; [contradiction|]. assert (rs' = rs) by congruence. subst rs'.
      specialize (Hl j). unfold recorded_last in Hl. rewrite Hl. apply rd_nth. lia. }
    split; [exact Hr|]. intros j Hj. specialize (Ha j _ _ (Hr j Hj)). unfold pulls in Ha. unfold pulled.
    replace (S (length (b_cum s) - 1)) with (length (b_cum s)) in Ha; [exact Ha|]. destruct (b_cum s); [contradiction|simpl; lia].
  Qed.

  Definition spare K (N : nat -> nat) s : nat := total_of K (fun x => N x - pulled s x).
  Definition lucb_inv K s : Prop := shape ops K s /\ b_cum s <> [] /\ b_total s = K * c_units cfg + 2 * c_units cfg * (length (b_cum s) - 1).
  Definition lucb_gap K N s : Prop :=
    (length (b_cum s) = 1 \/ exists rs best, collect ops (b_arms s) = Ok rs /\ check_end cfg rs = Ok (false, best)) /\
    length (b_cum s) + spare K N s <= total_of K (fun x => N x - 1) + 2 /\
    (length (b_cum s) = 1 -> spare K N s <= total_of K (fun x => N x - 1)).

  Lemma run_lucb_gap fuel all arms g v W b N : 0 < c_units cfg -> tol_ok cfg -> fair_choice w -> b < length arms ->
    (forall x n, x < length arms -> N x <= n -> narrow cfg (length arms) v b x (W x n)) ->
    match run LUCB ops w cfg fuel all arms g with
    | Returned _ s => lucb_inv (length arms) s /\ (accurate v W s -> untied s -> length (b_cum s) <= total_of (length arms) (fun x => N x - 1) + 2)
    | Raised _ _ => True
    | OutOfFuel s => lucb_inv (length arms) s /\ (accurate v W s -> untied s -> lucb_gap (length arms) N s) end.
  Proof.
    intros Hu Ht Hf Hb Hnar. set (K := length arms) in *. apply run_inv; [intros H; contradiction H; reflexivity| |].
    - intros _. pose proof (lucb_start_inv ops w cfg all arms g) as H.
      destruct (lucb_start ops w cfg all arms g) as [s0| |]; [|exact I|exact I].
      destruct H as (d & g1 & arms' & g2 & rs & _ & Hp & Hco & ->).
      assert (Hal : length arms' = K) by (eapply pull_all_len'; [reflexivity|exact Hp]).
      split.
      + split; [apply shape_u_next; [apply shape_init|exact Hal|exact Hco]|]. split; [simpl; discriminate|]. simpl. fold K. lia.
      + intros _ _.
        set (smp := map (fun _ => c_units cfg) arms).
        assert (Hsl : length smp = K) by (unfold smp; rewrite map_length; reflexivity).
        change (u_next cfg (binit arms g) arms' g2 rs) with (next (binit arms g) arms' g2 rs smp (0 + length arms * c_units cfg) (seq 0 (length arms))).
        assert (Hpn : spare K N (next (binit arms g) arms' g2 rs smp (0 + length arms * c_units cfg) (seq 0 (length arms))) <= total_of K (fun x => N x - 1)).
        { unfold spare, total_of. apply list_sum_le. intros x Hx. apply in_seq in Hx.
          rewrite (pulled_next ops K) by (try apply shape_init; try assumption; lia).
          unfold smp. rewrite nth_error_map. destruct (nth_error arms x) eqn:E; [|apply nth_error_None in E; unfold K in *; lia].
          cbn [option_map]. destruct (c_units cfg); [lia|]. unfold pulled. simpl. lia. }
        split; [left; reflexivity|]. split; [|auto]. change (length (b_cum (next (binit arms g) arms' g2 rs smp (0 + length arms * c_units cfg) (seq 0 (length arms))))) with 1. lia.
    - intros s [(Hs & Hne & Htot) HJ]. pose proof (sh_arms _ _ _ Hs) as HaK.
      assert (Hstep : forall is g1 arms' g2 rs, select_arms ops w (b_arms s) (b_g s) = (Ok is, g1) ->
        pull_list ops w cfg all (delta_of cfg (b_arms s)) is (b_arms s) g1 = (arms', g2, None) -> collect ops arms' = Ok rs ->
        lucb_inv K (l_next cfg s is arms' g2 rs) /\ length (b_cum (l_next cfg s is arms' g2 rs)) = S (length (b_cum s)) /\
        (accurate v W (l_next cfg s is arms' g2 rs) -> untied (l_next cfg s is arms' g2 rs) ->
         length (b_cum (l_next cfg s is arms' g2 rs)) + spare K N (l_next cfg s is arms' g2 rs) <= total_of K (fun x => N x - 1) + 2)).
      { intros is g1 arms' g2 rs Hsel Hp Hco.
        assert (Hal : length arms' = K) by (eapply pull_list_len'; [exact HaK|exact Hp]).
        pose proof (collect_length ops _ _ Hco) as Hrl. rewrite Hal in Hrl.
        set (smp := smp_of cfg is (length (b_arms s))).
        assert (Hsl : length smp = K) by (unfold smp; rewrite smp_of_length; exact HaK).
        change (l_next cfg s is arms' g2 rs) with (next s arms' g2 rs smp (b_total s + 2 * c_units cfg) (b_cand s)).
        set (s' := next s arms' g2 rs smp (b_total s + 2 * c_units cfg) (b_cand s)).
        assert (Hlen : length (b_cum s') = S (length (b_cum s))) by (unfold s'; simpl; rewrite app_length; simpl; lia).
        assert (Hl1 : 1 <= length (b_cum s)) by (destruct (b_cum s); [contradiction|simpl; lia]).
        split; [|split; [exact Hlen|]].
        - split; [apply (shape_l_next ops cfg K s is arms' g2 rs Hs Hal Hco)|]. split; [intros E; rewrite E in Hlen; discriminate|].
          rewrite Hlen. unfold s'. simpl b_total. rewrite Htot. nia.
        - intros Hacc Hunt. destruct (accurate_next ops K s arms' g2 rs smp _ (b_cand s) v W Hs Hrl Hsl Hacc) as [Hold _].
          assert (Huold : untied s).
          { intros t j k rj rk Hjk Hj Hk. destruct (recorded_lt ops K s j t rj Hs Hj) as [HjK HtK]. destruct (recorded_lt ops K s k t rk Hs Hk) as [HkK _].
            apply (Hunt t j k rj rk Hjk); unfold s', next; rewrite (recorded_next ops s arms' g2 rs smp _ (b_cand s) K _ t Hs Hrl) by assumption;
              (destruct (Nat.eqb_spec t (length (b_cum s))); [lia|assumption]). }
          destruct (HJ Hold Huold) as (HJ1 & HJ2 & HJ3). rewrite Hlen.
          assert (Hpl : forall x, x < K -> pulled s' x = pulled s x + if existsb (Nat.eqb x) is then 1 else 0).
          { intros x Hx. unfold s'. rewrite (pulled_next ops K) by assumption. f_equal. unfold smp. rewrite smp_of_nth, HaK. apply Nat.ltb_lt in Hx as ->.
            destruct (existsb (Nat.eqb x) is); [destruct (c_units cfg); [lia|reflexivity]|reflexivity]. }
          assert (Hle : forall x, In x (seq 0 K) -> N x - pulled s' x <= N x - pulled s x) by (intros x Hx; apply in_seq in Hx; rewrite Hpl by lia; lia).
          destruct HJ1 as [E1|(rs0 & best & Hco0 & Hce)].
          + specialize (HJ3 E1). assert (spare K N s' <= spare K N s); [|lia]. apply list_sum_le, Hle.
          + assert (spare K N s' < spare K N s); [|lia].
            destruct (last_tight K s rs0 v W Hs Hne Hco0 Hold) as (Hl0 & Hr0 & Ht0).
            destruct (select_two ops w (b_arms s) (b_g s) is g1 Hf Hsel) as (_ & a & c & -> & _ & _).
            destruct (drawn_wide rs0 best v (fun j => W j (pulled s j)) b a c (b_g s) g1 Ht) with (arms := b_arms s) as (Ha & Hc & Hac & Hw); auto.
            * intros j Hj. apply Ht0. lia.
            * intros j k Hj Hk Hjk. apply (Huold (length (b_cum s) - 1) j k); [exact Hjk|apply Hr0; lia|apply Hr0; lia].
            * lia.
            * rewrite Hl0 in *.
              assert (Hex : exists x, x < K /\ existsb (Nat.eqb x) [a; c] = true /\ pulled s x < N x).
              { destruct (Nat.lt_ge_cases (pulled s a) (N a)) as [H|H]; [exists a; split; [exact Ha|]; split; [simpl; rewrite Nat.eqb_refl; reflexivity|exact H]|].
                destruct (Nat.lt_ge_cases (pulled s c) (N c)) as [H'|H']; [exists c; split; [exact Hc|]; split; [simpl; rewrite Nat.eqb_refl, orb_true_r; reflexivity|exact H']|].
                exfalso. apply Hw; apply Hnar; assumption. }
              destruct Hex as (x & Hx & Hin & Hlt). apply (list_sum_lt _ _ _ x Hle); [apply in_seq; lia|]. rewrite (Hpl x Hx), Hin. lia. }
      pose proof (lucb_step_inv ops w cfg all s) as H.
      destruct (lucb_step ops w cfg all s) as [s'|best s'|e s']; [| |exact I].
      + destruct H as (_ & is & g1 & arms' & g2 & rs & bb & Hsel & Hp & Hco & -> & Hce).
        destruct (Hstep is g1 arms' g2 rs Hsel Hp Hco) as (H1 & H2 & H3). split; [exact H1|]. intros Hacc Hunt.
        split; [right; exists rs, bb; split; [exact Hco|exact Hce]|]. split; [apply H3; assumption|].
        intros E. rewrite H2 in E. exfalso. destruct (b_cum s); [contradiction|discriminate].
      + destruct H as [(-> & _)|(_ & is & g1 & arms' & g2 & rs & Hsel & Hp & Hco & -> & Hce)].
        * split; [repeat split; try apply Hs; assumption|]. intros Hacc Hunt. destruct (HJ Hacc Hunt) as (_ & H & _). lia.
        * destruct (Hstep is g1 arms' g2 rs Hsel Hp Hco) as (H1 & H2 & H3). split; [exact H1|]. intros Hacc Hunt. specialize (H3 Hacc Hunt). lia.
  Qed.
End P.
