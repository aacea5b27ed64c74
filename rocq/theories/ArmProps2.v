(** Property theorems C28, C30-C33 and C36 (arms, numbers) and the concrete cases for C25-C37. *)
From Coq Require Import List Arith ZArith Lia Bool Reals Lra Permutation.
From Flocq Require Import Core BinarySingleNaN.
From Verif Require Import PyBase PyLemmas Num NumLemmas NumOps FloatOps NumLaws DataModel DataSpec DataProofs DataProofs2
  BanditSpec BanditProofs2 ArmModel ArmSpec ArmProofs1 ArmProofs2 ArmProofs3 ArmProofs4 ArmProofs5 ArmProofs6 ArmProofs7 ArmProps.
Import ListNotations.
Open Scope nat_scope.

Lemma f_int0 lib : nint (f64 lib) 0 = f0. Proof. exact nint0_f. Qed.
Lemma f_int1 lib : nint (f64 lib) 1 = f_of_Z 1. Proof. unfold nint. cbn [nlit f64]. apply B2SF_inj. vm_compute. reflexivity. Qed.

Section Float.
Context {V H G : Type} (lib : libm) (vnone : V) (eo : eta_ops F V H G) (w : arm_world F G)
        (tr : expdata V -> res (expdata V)).
Notation o := (f64 lib).
Notation arm := (arm F V H).

(** ** C28 in binary64: NaN, 0, 1, negative and infinite deltas are the rejected ones *)
Theorem C28_float_delta : forall delta, 
  (nltb o (nint o 0) delta = true /\ nltb o delta (nint o 1) = true) <-> proper_prob delta.
Proof.
  intros delta. rewrite f_int0, f_int1. cbn [nltb f64]. rewrite <- andb_true_iff. apply proper_prob_spec.
Qed.

(** ** C30 *)
(** max(x, 0) as the code computes it *)
Definition pos_part (x : F) : F := if fltb x f0 then f0 else x.
Theorem C30_finite_sample_interval : forall opts (a : arm) d delta g a' g' l u,
  mean_sane lib -> so_ci opts = FINITE_SAMPLE -> num (so_burn opts) ->
  ss_update o vnone eo w tr opts a d delta g = ((a', g'), Ok (l, u)) ->
  ar_ci a' = (Some l, Some u) /\
  ((e_enough eo (ar_eta a') = false /\ l = f0 /\ u = finf) \/
   exists f0' f1 rest v, ar_split a' = Some (f0' :: f1 :: rest) /\ ar_var a' = Some v /\ num v /\ (0 <= fkey v)%R /\
     ((fltb (flit (Z.of_nat (n_units f1)) 1) (so_burn opts) = true /\ l = f0 /\ u = finf) \/
      (fltb (flit (Z.of_nat (n_units f1)) 1) (so_burn opts) = false /\
       exists x, e_width eo (ar_eta a') (fdiv delta (flit 2 1)) (so_eta_subg opts) (so_rho opts) = Ok (Some x) /\
       let wd := fs_width o opts delta (n_units f1) x in
       l = pos_part (fsub v wd) /\ u = fadd v wd /\
       (num wd -> (0 <= fkey wd)%R /\
          (v <> finf \/ wd <> finf -> num l /\ num u /\ (0 <= fkey l <= fkey v)%R /\ (fkey v <= fkey u)%R))))).
Proof.
  intros opts a d delta g a' g' l u Hm Hc Hb E. pose proof (f64_laws lib Hm) as L.
  destruct (fs_update_l o vnone eo w tr opts a d delta g a' g' l u L Hc Hb E) as (Hci & Hx). split; [exact Hci|].
  rewrite (f_int0 lib) in Hx. destruct Hx as [(h & Hen & Eh & El & Eu)|(e0 & fs & v & Hs & f1 & Hf & Hv & Ok1 & Nn & Hx)].
  - left. rewrite Eh. auto.
  - right. destruct fs as [|f1' rest]; [discriminate|]. simpl in Hf. inversion Hf; subst f1'.
    exists e0, f1, rest, v. split; [exact Hs|]. split; [exact Hv|]. split; [exact Ok1|].
    unfold nneg in Nn. rewrite f_int0 in Nn. cbn [nleb f64] in Nn. apply fleb_spec in Nn as (_ & _ & Nn). simpl in Nn. split; [exact Nn|].
    destruct Hx as [Hx|(Hlt & x & Hw & El & Eu & Hwd & Hbr)]; [left; exact Hx|right].
    split; [exact Hlt|]. exists x. split; [exact Hw|]. cbv zeta in *. set (wd := fs_width o opts delta (n_units f1) x) in *.
    split; [exact El|]. split; [exact Eu|]. intros Hn. specialize (Hwd Hn).
    unfold nneg in Hwd. rewrite f_int0 in Hwd. cbn [nleb f64] in Hwd. apply fleb_spec in Hwd as (_ & _ & Hwd). change (0 <= fkey wd)%R in Hwd.
    split; [exact Hwd|]. intros Hinf. change (num v) in Ok1.
    pose proof big_pos as Hb0.
    assert (Nu : num (fadd v wd)).
    { destruct (num_cases v Ok1) as [Fv|[ -> | -> ] ]; [|destruct (num_cases wd Hn) as [Fw|[ -> | -> ] ]|simpl in Nn; lra].
      - destruct (num_cases wd Hn) as [Fw|[ -> | -> ] ]; [apply key_add; assumption| |simpl in Hwd; lra].
        destruct v as [|[]| |]; try discriminate; reflexivity.
      - destruct wd as [|[]| |]; try discriminate; reflexivity.
      - reflexivity.
      - simpl in Hwd; lra. }
    assert (Nd : num (fsub v wd)).
    { destruct (num_cases v Ok1) as [Fv|[ -> | -> ] ]; [|destruct (num_cases wd Hn) as [Fw|[ -> | -> ] ]|simpl in Nn; lra].
      - destruct (num_cases wd Hn) as [Fw|[ -> | -> ] ]; [apply key_sub; assumption| |simpl in Hwd; lra].
        destruct v as [|[]| |]; try discriminate; reflexivity.
      - destruct wd as [|[]| |]; try discriminate; reflexivity.
      - destruct Hinf as [Hi|Hi]; exfalso; apply Hi; reflexivity.
      - simpl in Hwd; lra. }
    assert (Nl : num l).
    { rewrite El. unfold nmax. cbn [nltb nsub f64]. destruct (fltb (fsub v wd) f0); [reflexivity|exact Nd]. }
    assert (Nu' : num u) by (rewrite Eu; exact Nu).
    destruct (Hbr Nl Nu') as (B1 & B2 & B3). unfold nneg in B1. rewrite f_int0 in B1. cbn [nleb f64] in B1, B2, B3.
    apply fleb_spec in B1, B2, B3. simpl in B1. repeat split; try assumption; tauto.
Qed.

(** ** C32: burn_in defaults to 0, which fails the test "burn_in <= 1" *)
Theorem C32_default_never_computes : forall (a : arm) d delta g a' g' l u,
  ss_update o vnone eo w tr (ss_default o) a d delta g = ((a', g'), Ok (l, u)) ->
  l = f0 /\ u = finf /\ e_enough eo (ar_eta a') = false /\ ar_ate a' = Some fnan /\ ar_var a' = Some finf.
Proof.
  intros a d delta g a' g' l u E. apply ss_ok_inv in E as (_ & a1 & g1 & e0 & h & g2 & _ & _ & _ & _ & [Hx|Hx]).
  - destruct Hx as (Hen & El & Eu & Ha & Hv & Eh). rewrite (f_int0 lib) in El. subst h. auto.
  - exfalso. destruct Hx as (_ & f1 & h1 & h2 & s1 & s2 & ate & v & _ & _ & _ & _ & _ & _ & _ & _ & Hx).
    unfold ss_default in Hx. cbn [so_ci] in Hx. destruct Hx as (_ & _ & Hx & _). cbn [so_burn] in Hx.
    rewrite f_int0, f_int1 in Hx. cbn [nleb f64] in Hx.
    assert (Hle : fleb f0 (f_of_Z 1) = true) by (vm_compute; reflexivity). congruence.
Qed.
Theorem C32_default_raises : forall (a : arm) d delta g t0 t,
  fair_perm w -> proper_prob delta -> tr d = Ok t -> aligned t -> same_shape t0 t -> folds_shaped t0 a ->
  exists f0' f1 g1,
    ar_split (fst (fst (ss_update o vnone eo w tr (ss_default o) a d delta g))) = Some [f0'; f1] /\
    forall h g2 h1 s1 h2 s2, e_fit eo (ar_eta a) f0' g1 = ((h, g2), None) -> e_enough eo h = true ->
      e_score eo h f1 = (h1, Ok s1) -> e_score eo h1 f1 = (h2, Ok s2) ->
      snd (ss_update o vnone eo w tr (ss_default o) a d delta g) = Err ValueError /\
      let a' := fst (fst (ss_update o vnone eo w tr (ss_default o) a d delta g)) in
      let ate := m_mean lib s1 in
      ar_ate a' = Some ate /\ ar_var a' = Some (m_mean lib (map (fun s => fmul (fsub s ate) (fsub s ate)) s2)) /\
      ar_ci a' = ar_ci a.
Proof.
  intros a d delta g t0 t Hp Hd Ht Hal Hsh Hf.
  assert (E : valid_delta o delta = true).
  { unfold valid_delta. apply C28_float_delta in Hd. apply andb_true_iff. exact Hd. }
  pose proof (absorb_data o vnone w tr true a d delta g t0 Hp E) as Ha.
  specialize (Ha ltac:(intros t' Ht'; rewrite Ht in Ht'; inversion Ht'; subst; auto) Hf). rewrite Ht in Ha.
  destruct Ha as (a1 & g1 & e0 & f1 & n0 & n1 & Ha & Hs & _). exists e0, f1, g1.
  destruct (ss_update o vnone eo w tr (ss_default o) a d delta g) as [[a' g'] r] eqn:Eu. cbn [fst snd]. split.
  - destruct (ss_frame o vnone eo w tr (ss_default o) a d delta g a1 g1 None Ha a' g' r Eu) as (Hx & _). rewrite Hx. exact Hs.
  - intros h g2 h1 s1 h2 s2 Hfit Hen Hs1 Hs2.
    destruct (ss_forward o vnone eo w tr (ss_default o) a d delta g a1 g1 e0 f1 Ha Hs h g2 Hfit) as [_ Hfw].
    destruct (Hfw Hen h1 s1 h2 s2 Hs1 Hs2 a' g' r Eu) as (_ & A1 & A2 & _ & A3).
    assert (Er : r = Err ValueError).
    { apply A3; [reflexivity|]. unfold ss_default. cbn [so_tau so_burn so_subg]. rewrite f_int0, f_int1. cbn [nleb f64].
      vm_compute. reflexivity. }
    split; [exact Er|]. cbv zeta. split; [exact A1|]. split; [exact A2|]. subst r. eapply ss_err_ci. exact Eu.
Qed.

(** ** C33 *)
Theorem C33_clt_interval : forall opts (a : arm) d delta g a' g' l u,
  mean_sane lib -> so_ci opts = CLT ->
  ss_update o vnone eo w tr opts a d delta g = ((a', g'), Ok (l, u)) ->
  ar_ci a' = (Some l, Some u) /\
  ((e_enough eo (ar_eta a') = false /\ l = f0 /\ u = finf) \/
   exists v, ar_var a' = Some v /\ num v /\ (0 <= fkey v)%R /\
     let k := S (ar_pulled a) in
     let half := fdiv (fdiv delta (flit (Z.of_nat (k * k)) 1)) (flit 2 1) in
     let q := aw_norm w half in let q' := aw_norm w (fsub (f_of_Z 1) half) in
     (exists se, (num se -> (0 <= fkey se)%R) /\ l = pos_part (fadd v (fmul q se)) /\ u = fadd v (fmul q' se)) /\
     (num q -> num q' -> (fkey q <= 0 <= fkey q')%R -> num l -> num u ->
        (0 <= fkey l <= fkey v)%R /\ (fkey v <= fkey u)%R)).
Proof.
  intros opts a d delta g a' g' l u Hm Hc E. pose proof (f64_laws lib Hm) as L.
  destruct (clt_update_l o vnone eo w tr opts a d delta g a' g' l u L Hc E) as (Hci & Hp & Hx).
  split; [exact Hci|]. rewrite (f_int0 lib), (f_int1 lib) in Hx. destruct Hx as [Hx|(v & Hv & Ok1 & Nn & (se & Hse & El & Eu) & Hbr)]; [left; exact Hx|right].
  exists v. split; [exact Hv|]. split; [exact Ok1|]. unfold nneg in Nn. rewrite f_int0 in Nn. cbn [nleb f64] in Nn.
  apply fleb_spec in Nn as (_ & _ & Nn). simpl in Nn. split; [exact Nn|]. rewrite Hp in *. cbv zeta in *. split.
  - exists se. split; [|split; [exact El|exact Eu]]. intros Hn. specialize (Hse Hn). unfold nneg in Hse. rewrite f_int0 in Hse.
    cbn [nleb f64] in Hse. apply fleb_spec in Hse. simpl in Hse. tauto.
  - intros Nq Nq' [Hq Hq'] Nl Nu. unfold nneg, nnonpos in Hbr. rewrite f_int0 in Hbr. cbn [nleb f64] in Hbr.
    destruct Hbr as (B1 & B2 & B3).
    + apply fleb_spec. split; [exact Nq|]. split; [reflexivity|]. exact Hq.
    + apply fleb_spec. split; [reflexivity|]. split; [exact Nq'|]. exact Hq'.
    + exact Nl.
    + exact Nu.
    + apply fleb_spec in B1, B2, B3. simpl in B1. tauto.
Qed.

(** ** C36 *)
Lemma default_count delta b : proper_prob delta -> boot_count o 0 delta = Ok b -> (4 <= b)%Z.
Proof.
  intros [Fd Hd] E. unfold boot_count in E. simpl (0 =? 0)%Z in E. cbv iota in E.
  change (nceil o (ndiv o (nint o 4) delta)) with (f_ceil (fdiv (flit 4 1) delta)) in E.
  destruct (flit_int 4) as [F4 R4]; [simpl; lia|].
  destruct (key_div _ _ F4 Fd ltac:(lra)) as [Nq Kq]. set (q := fdiv (flit 4 1) delta) in *.
  assert (Hk : (4 <= fkey q)%R).
  { rewrite Kq. rewrite R4. rewrite <- R4 at 1. rewrite <- (rs_float _ F4). apply rs_mono. rewrite R4.
    apply Rmult_le_reg_r with (B2R delta); [lra|]. unfold Rdiv. rewrite Rmult_assoc, Rinv_l by lra. lra. }
  destruct (num_cases q Nq) as [Fq|[Eq|Eq]].
  - rewrite (f_ceil_spec q Fq) in E. inversion E. rewrite fkey_finite in Hk by exact Fq.
    apply le_IZR. apply Rle_trans with (B2R q); [exact Hk|apply Zceil_ub].
  - rewrite Eq in E. discriminate.
  - rewrite Eq in E. discriminate.
Qed.
(** [nb] bootstraps, 0 standing for ceil(4/delta) of them *)
Theorem C36_bootstrap_interval : forall stable nb (a : arm) d delta g a' g' l u b,
  mean_sane lib -> proper_prob delta -> (0 <= nb)%Z -> boot_count o nb delta = Ok b -> (b <= 2 ^ 53)%Z ->
  bs_update o vnone eo w tr stable nb a d delta g = ((a', g'), Ok (l, u)) ->
  ar_ci a' = (Some l, Some u) /\
  exists e0 fs samples, ar_split a' = Some (e0 :: fs) /\ length samples = Z.to_nat b /\ samples <> [] /\
    Forall (fun v => exists h h' us din dout s, subsample (fun _ => us) e0 (boot_prob (Z.to_nat b)) = Ok (din, dout) /\
              e_score eo h dout = (h', Ok s) /\ v = nvar o s) samples /\
    In l samples /\ In u samples /\ ((forall v, In v samples -> num v) -> (fkey l <= fkey u)%R).
Proof.
  intros stable nb a d delta g a' g' l u b Hm Hd Hnb Hcnt Hbig E.
  assert (Hb1 : (1 <= b)%Z).
  { destruct (Z.eq_dec nb 0) as [->|Hne]; [pose proof (default_count delta b Hd Hcnt); lia|].
    unfold boot_count in Hcnt. apply Z.eqb_neq in Hne. rewrite Hne in Hcnt. inversion Hcnt. apply Z.eqb_neq in Hne. lia. }
  destruct (bs_interval_l o vnone eo w tr stable nb a d delta g a' g' l u (f64_laws lib Hm)) as (Hci & b' & e0 & fs & samples & Hx).
  - intros b' Hb' _. rewrite Hcnt in Hb'. inversion Hb'; subst b'. apply boot_positions_l; [exact Hd|lia].
  - intros b' Hb'. rewrite Hcnt in Hb'. inversion Hb'; subst b'. exact Hb1.
  - exact E.
  - split; [exact Hci|]. destruct Hx as (Hb' & Hs & Hlen & Hall & Hl & Hu & Hle). rewrite Hcnt in Hb'. inversion Hb'; subst b'.
    exists e0, fs, samples. split; [exact Hs|]. split; [exact Hlen|]. split; [intros ->; destruct Hl|]. split; [exact Hall|].
    split; [exact Hl|]. split; [exact Hu|]. intros Hn.
    assert (Hf : Forall (okn o) samples) by (apply Forall_forall; exact Hn).
    specialize (Hle Hf). cbn [nleb f64] in Hle. apply fleb_spec in Hle. tauto.
Qed.
(** the quantile positions, also when the update raises *)
Theorem C36_positions_in_range : forall delta b, proper_prob delta -> (1 <= b <= 2 ^ 53)%Z ->
  exists i j, boot_lo o delta b = Ok i /\ boot_hi o delta b = Ok j /\ (0 <= i <= j)%Z /\ (j < b)%Z.
Proof. exact (boot_positions_l lib). Qed.
End Float.
Print Assumptions C28_float_delta.
Print Assumptions C30_finite_sample_interval.
Print Assumptions C32_default_never_computes.
Print Assumptions C32_default_raises.
Print Assumptions C33_clt_interval.
Print Assumptions C36_bootstrap_interval.
Print Assumptions C36_positions_in_range.

(** ** C30, exact arithmetic, and C31: the half-width over the reals *)
Open Scope R_scope.
Theorem C31_half_width : forall sg esg tau burn rho delta n st x,
  0 < sg -> 1 < burn -> 0 < delta < 1 -> (1 <= n)%nat -> 0 < tau ->
  fs_width xreal (real_opts sg esg tau burn rho st) (Fin delta) n (Fin x) =
    (if Rlt_dec (width_arg sg burn delta n) 0 then XNaN else Fin (real_width sg tau burn delta n x)) /\
  (0 <= width_arg sg burn delta n -> x ^ 2 <= real_width sg tau burn delta n x).
Proof.
  intros sg esg tau burn rho delta n st x H1 H2 H3 H4 H5. split.
  - apply fs_width_closed; assumption.
  - intros H. apply width_lower; assumption.
Qed.
Theorem C31_monotone : forall sg tau tau' burn d d' n x y,
  0 < tau -> tau <= tau' -> 0 < d -> d <= d' -> (1 <= n)%nat -> 0 <= x <= y ->
  real_width sg tau burn d' n x <= real_width sg tau' burn d n y.
Proof.
  intros sg tau tau' burn d d' n x y H1 H2 H3 H4 H5 H6.
  apply Rle_trans with (real_width sg tau burn d n x); [apply width_mono_delta; assumption|].
  apply Rle_trans with (real_width sg tau' burn d n x); [apply width_mono_tau; assumption|].
  apply width_mono_eta; assumption.
Qed.
Theorem C31_small_scale_gives_nan : forall esg tau burn rho delta n st x v,
  1 < burn -> 0 < delta < 1 -> (1 <= n)%nat ->
  exists s0, 0 < s0 /\ forall sg, 0 < sg < s0 ->
    fs_ci xreal (Fin v) (fs_width xreal (real_opts sg esg tau burn rho st) (Fin delta) n (Fin x)) = (XNaN, XNaN).
Proof.
  intros esg tau burn rho delta n st x v H1 H2 H3. destruct (arg_negative burn delta n H1 H2 H3) as (s0 & H0 & Hs).
  exists s0. split; [exact H0|]. intros sg Hsg.
  rewrite fs_width_closed by (try assumption; lra). destruct (Rlt_dec (width_arg sg burn delta n) 0) as [_|Hn]; [reflexivity|].
  exfalso. apply Hn, Hs, Hsg.
Qed.
Print Assumptions C31_half_width.
Print Assumptions C31_monotone.
Print Assumptions C31_small_scale_gives_nan.

(** ** C33: the budgets of the first m updates *)
Theorem C33_budget_exceeds_delta : forall delta m, 0 < delta -> (2 <= m)%nat ->
  exists s, xsum (map (fun k => clt_delta xreal (Fin delta) k) (seq 1 m)) = Fin s /\ delta < s < 2 * delta.
Proof.
  intros delta m Hd Hm. exists (budget delta 1 m). split; [|apply budget_exceeds; assumption].
  assert (Hg : forall m k, (1 <= k)%nat -> xsum (map (fun k => clt_delta xreal (Fin delta) k) (seq k m)) = Fin (budget delta k m)).
  { clear. induction m as [|m IH]; intros k Hk; [reflexivity|].
    change (xsum (map (fun k => clt_delta xreal (Fin delta) k) (seq k (S m)))) with
      (xadd (clt_delta xreal (Fin delta) k) (xsum (map (fun k => clt_delta xreal (Fin delta) k) (seq (S k) m)))).
    rewrite IH by lia. rewrite clt_delta_real by exact Hk. reflexivity. }
  apply Hg. lia.
Qed.
Print Assumptions C33_budget_exceeds_delta.
Close Scope R_scope.

(** ** concrete cases *)
Definition cells {H} (a : arm F nat H) : option (list (list (list nat))) :=
  option_map (map (fun d => match dcov d with Some c => arows c | None => [] end)) (ar_split a).
Definition after {H} (x : (arm F nat H * nat) * list (res (F * F))) : arm F nat H := fst (fst x).
(** results without the floats: did it return, and is 0 <= lower <= var_est <= upper? *)
Definition ordered_ci {H} (x : (arm F nat H * nat) * res (F * F)) : option exn * bool :=
  match x with
  | ((a, _), Ok (l, u)) => (None, match ar_var a with Some v => fleb f0 l && fleb l v && fltb v u | None => false end)
  | (_, Err e) => (Some e, false)
  end.
Definition errors (rs : list (res (F * F))) : list (option exn) := map (fun r => match r with Ok _ => None | Err e => Some e end) rs.

(** the history of [toy_hist] (its third batch is rejected) meets the hypotheses of C25-C26 *)
Example C25_case : fair_perm toy_arm_world /\ ar_split toy_new = None /\
  well_shaped (f64 toy_lib) (@identity_fn nat) (batch []) toy_hist /\
  length (transformed (f64 toy_lib) (@identity_fn nat) toy_hist) = 3 /\
  cells (after (feed (toy_upd CLT true) toy_new 0 toy_hist)) = Some [[[1]; [9]; [3]; [5]; [6]; [1]]; [[4]; [2]; [7]; [2]; [1]]] /\
  ss_units (after (feed (toy_upd CLT true) toy_new 0 toy_hist)) = 11.
Proof. split; [exact toy_perm|]. split; [reflexivity|]. split; [exact toy_shaped|]. repeat split; vm_compute; reflexivity. Qed.
Definition toy_logged : arm F nat (nat * list (event nat)) := arm_new (f64 toy_lib) (0, []).
Definition toy_lupd c st := ss_update (f64 toy_lib) 0 (logged_eta toy_eta) toy_arm_world (@identity_fn nat) (toy_opts c st).
Definition show (e : event nat) : bool * nat := match e with EFit d => (true, n_units d) | EScore d => (false, n_units d) end.
Example C26_case : ar_split toy_logged = None /\ log_of toy_logged = [] /\
  map show (log_of (after (feed (toy_lupd CLT true) toy_logged 0 toy_hist))) =
    [(true, 2); (false, 2); (false, 2); (false, 2); (true, 4); (false, 3); (false, 3); (false, 3);
     (true, 6); (false, 5); (false, 5); (false, 5)].
Proof. repeat split; vm_compute; reflexivity. Qed.
Example C26_case_distinct : NoDup (concat (map units (transformed (f64 toy_lib) (@identity_fn nat) (firstn 2 toy_hist)))).
Proof.
  assert (E : transformed (f64 toy_lib) (@identity_fn nat) (firstn 2 toy_hist) = [batch [1; 4; 9; 2]; batch [3; 7; 5]]).
  { unfold transformed, toy_hist. cbn [firstn flat_map fst snd identity_fn app].
    assert (Ev : valid_delta (f64 toy_lib) tenth = true) by (vm_compute; reflexivity). rewrite Ev. reflexivity. }
  rewrite E. vm_compute. repeat constructor; simpl; intuition discriminate.
Qed.
Example C27_case : cells (after (feed (toy_upd CLT false) toy_new 0 toy_hist)) = Some [[[6]; [1]]; [[2]; [1]]] /\
  ss_units (after (feed (toy_upd CLT false) toy_new 0 toy_hist)) = 4.
Proof. split; vm_compute; reflexivity. Qed.
Example C28_case : proper_prob tenth /\
  snd (toy_upd CLT true toy_new (batch [1]) fnan 0) = Err ValueError /\
  (** an update that raises after validation: an empty batch gives NaN scores *)
  errors [snd (ss_update (f64 toy_lib) 0 (mkEta F nat nat nat (e_fit toy_eta) (fun _ => true) (e_score toy_eta) (e_width toy_eta) (e_reset toy_eta))
                toy_arm_world (@identity_fn nat) (toy_opts CLT true) toy_new (batch []) tenth 0)] = [Some ValueError].
Proof. split; [apply (C28_float_delta toy_lib); split; vm_compute; reflexivity|]. split; vm_compute; reflexivity. Qed.
Example C29_case : folds_shaped (batch []) toy_new /\
  errors [snd (toy_upd CLT true toy_new (batch [5; 6]) tenth 0)] = [None] /\
  match snd (toy_upd CLT true toy_new (batch [5; 6]) tenth 0) with Ok (l, u) => feqb l f0 && fisinf u | Err _ => false end = true.
Proof. split; [exact I|]. split; vm_compute; reflexivity. Qed.
Example C30_case : mean_sane toy_lib /\ num (so_burn (toy_opts FINITE_SAMPLE true)) /\
  ordered_ci (toy_upd FINITE_SAMPLE true toy_new (batch [1; 4; 9; 2]) tenth 0) = (None, true).
Proof. split; [exact toy_mean|]. split; vm_compute; reflexivity. Qed.
Example C31_case : (0 < width_arg 1 2 (1 / 10) 10)%R.
Proof.
  unfold width_arg. replace (Rmax 1 (8 * 1 ^ 2)) with 8%R by (rewrite Rmax_right; lra).
  assert (H1 : (0 < ln (8 * INR 10 / 2))%R).
  { rewrite <- ln_1. apply ln_increasing; simpl; lra. }
  assert (H2 : (0 < ln (4 / (1 / 10)))%R).
  { rewrite <- ln_1. apply ln_increasing; lra. }
  assert (H3 : (0 < 2 * ln (8 * INR 10 / 2) / INR 10)%R) by (apply Rdiv_lt_0_compat; [lra|simpl; lra]). lra.
Qed.
Definition toy_default := ss_update (f64 toy_lib) 0 toy_eta toy_arm_world (@identity_fn nat) (ss_default (f64 toy_lib)).
Example C32_case :
  errors (snd (feed toy_default toy_new 0 [(batch [5; 6], tenth); (batch [1; 4; 9; 2], tenth); (batch [3; 7; 5], tenth)])) =
    [None; Some ValueError; Some ValueError].
Proof. vm_compute. reflexivity. Qed.
Example C33_case : ordered_ci (toy_upd CLT true (after (feed (toy_upd CLT true) toy_new 0 (firstn 1 toy_hist))) (batch [3; 7; 5]) tenth 1) = (None, true) /\
  fleb (aw_norm toy_arm_world (flit 1 20)) f0 && fleb f0 (aw_norm toy_arm_world (flit 19 20)) = true.
Proof. split; vm_compute; reflexivity. Qed.
Example C34_case : e_reset toy_eta (ar_eta (after (feed (toy_upd CLT true) (arm_new (f64 toy_lib) 0) 0 toy_hist))) = 0 /\
  errors (snd (feed (toy_upd CLT true) (arm_new (f64 toy_lib) 0) 0 toy_hist)) = [None; None; Some ValueError; None].
Proof. split; vm_compute; reflexivity. Qed.
Example C35_case : snd (base_update (f64 toy_lib) toy_new) = Some AttributeError.
Proof. reflexivity. Qed.
Definition toy_bs nb := bs_update (f64 toy_lib) 0 toy_eta toy_arm_world (@identity_fn nat) true nb.
Example C36_case : errors (snd (feed (toy_bs 3) toy_new 0 toy_hist)) = [None; None; Some ValueError; None] /\
  boot_count (f64 toy_lib) 3 tenth = Ok 3%Z /\ boot_count (f64 toy_lib) 0 tenth = Ok 40%Z.
Proof. repeat split; vm_compute; reflexivity. Qed.
(** the draws of this case: below 1/3 for the first unit only *)
Definition third_world : arm_world F nat :=
  mkArmWorld F nat (aw_perm toy_arm_world) (fun g n => (flit 1 10 :: repeat (flit 1 2) (n - 1), S g)) (aw_chi2 toy_arm_world) (aw_norm toy_arm_world).
Example C37_case : map show (log_of (fst (fst (bs_update (f64 toy_lib) 0 (logged_eta toy_eta) third_world (@identity_fn nat) true 3 toy_logged
     (batch [1; 4; 9; 2; 8; 8]) tenth 0)))) =
  [(true, 3); (true, 1); (false, 2); (true, 1); (false, 2); (true, 1); (false, 2); (false, 3); (false, 3)].
Proof. vm_compute. reflexivity. Qed.
