(** softmax, random functions, single-arm runs: properties C75, C76, C78. *)
From Coq Require Import List Arith ZArith Reals Bool Lia Lra String.
From Flocq Require Import Core BinarySingleNaN.
From Verif Require Import PyBase PyLemmas Num NumLemmas NumOps NumLaws FloatOps DataModel ScmModel TabModel TabSpec TabReal ArmModel ParamModel ParamSpec ParamProofs2 ParamProofs5 UtilModel UtilSpec.
Import ListNotations.
Open Scope R_scope.
Open Scope nat_scope.

(** ** softmax in exact arithmetic *)
Lemma max_fin (l : list R) : forall a, exists m, fold_left (nmax xreal) (map Fin l) (Fin a) = Fin m.
Proof.
  induction l as [|b l IH]; intros a; cbn [map fold_left]; [now exists a|].
  unfold nmax at 2. cbn [xreal nltb xltb]. destruct (Rlt_dec a b); apply IH.
Qed.
Lemma np_max_fin (l : list R) : l <> [] -> exists m, np_max xreal (map Fin l) = Ok (Fin m).
Proof.
  destruct l as [|a l]; [congruence|]. intros _. destruct (max_fin l a) as (m & Hm). exists m. cbn [map np_max].
  assert (E : forall k, existsb (nisnan xreal) (map Fin k) = false) by (induction k; auto).
  change (Fin a :: map Fin l) with (map Fin (a :: l)). rewrite E. now rewrite Hm.
Qed.
Lemma rsum_exp_pos (l : list R) : l <> [] -> (0 < rsum (map exp l))%R.
Proof.
  destruct l as [|a l]; [congruence|]. intros _. cbn [map rsum].
  pose proof (rsum_nonneg (map exp l)) as H. specialize (H ltac:(intros b Hb; apply in_map_iff in Hb as (c & <- & _); left; apply exp_pos)).
  pose proof (exp_pos a). lra.
Qed.
Lemma rsum_scale c (l : list R) : rsum (map (fun x => x * c)%R l) = (rsum l * c)%R.
Proof. induction l as [|a l IH]; cbn [map rsum]; [lra|rewrite IH; lra]. Qed.

Lemma softmax_x (xs : list R) : xs <> [] ->
  softmax xreal (map Fin xs) = Ok (map (fun x => Fin (gibbs xs x)) xs).
Proof.
  intros H. destruct (np_max_fin xs H) as (m & Hm). unfold softmax. rewrite Hm. cbn [bind]. f_equal.
  assert (E : map (fun v => nexp xreal (nsub xreal v (Fin m))) (map Fin xs) = map Fin (map (fun x => exp x * exp (- m))%R xs)).
  { rewrite !map_map. apply map_ext. intros x. cbn [xreal nexp nsub xsub xneg xadd xexp]. now rewrite exp_plus. }
  rewrite E, nsum_x, map_map. rewrite !map_map. apply map_ext. intros x.
  pose proof (rsum_exp_pos xs H) as Hp. pose proof (exp_pos (- m)) as Hq.
  assert (Es : rsum (map (fun x => exp x * exp (- m))%R xs) = (rsum (map exp xs) * exp (- m))%R).
  { rewrite <- (rsum_scale (exp (- m)) (map exp xs)), map_map. reflexivity. }
  rewrite Es. change (ndiv xreal) with xdiv. rewrite xdiv_fin by nra. f_equal. unfold gibbs. field. lra.
Qed.

(** softmax returns positive weights that sum to 1, proportional to exp of the entries *)
Theorem C76_softmax : forall xs : list R, xs <> [] ->
  exists ps, softmax xreal (map Fin xs) = Ok (map Fin ps)
    /\ List.length ps = List.length xs /\ Forall (fun p => (0 < p <= 1)%R) ps /\ rsum ps = 1%R
    /\ forall i, i < List.length xs -> nth i ps 0%R = gibbs xs (nth i xs 0%R).
Proof.
  intros xs H. exists (map (gibbs xs) xs). rewrite (softmax_x xs H), map_map. split; [reflexivity|].
  pose proof (rsum_exp_pos xs H) as Hp. split; [now rewrite map_length|]. split; [|split].
  - apply Forall_forall. intros p Hin. apply in_map_iff in Hin as (x & <- & Hx). unfold gibbs.
    assert (Hle : (exp x <= rsum (map exp xs))%R).
    { apply rsum_ge; [intros a Ha; apply in_map_iff in Ha as (b & <- & _); left; apply exp_pos|now apply in_map]. }
    split; [apply Rdiv_lt_0_compat; [apply exp_pos|exact Hp]|].
    apply (Rmult_le_reg_r (rsum (map exp xs))%R); [exact Hp|]. unfold Rdiv. rewrite Rmult_assoc, Rinv_l by lra. lra.
  - unfold gibbs. transitivity (rsum (map (fun x => x * / rsum (map exp xs))%R (map exp xs))).
    + rewrite map_map. reflexivity.
    + rewrite rsum_scale. field. lra.
  - intros i Hi. now apply nth_map_in.
Qed.
Print Assumptions C76_softmax.

(** adding a constant to every entry changes nothing *)
Theorem C76_shift : forall (c : R) (xs : list R), xs <> [] ->
  softmax xreal (map Fin (map (fun x => (x + c)%R) xs)) = softmax xreal (map Fin xs).
Proof.
  intros c xs H. rewrite !softmax_x by (auto; destruct xs; cbn; congruence). f_equal. rewrite map_map. apply map_ext_in. intros x Hx.
  f_equal. unfold gibbs. rewrite map_map. pose proof (rsum_exp_pos xs H) as Hp. pose proof (exp_pos c) as Hc.
  assert (Es : rsum (map (fun x => exp (x + c)) xs) = (rsum (map exp xs) * exp c)%R).
  { rewrite <- (rsum_scale (exp c) (map exp xs)), map_map. f_equal. apply map_ext. intros y. apply exp_plus. }
  rewrite Es, exp_plus. field. lra.
Qed.
Print Assumptions C76_shift.

Lemma fold_nan (l : list X) : fold_left (nadd xreal) l XNaN = XNaN.
Proof. induction l as [|a l IH]; [reflexivity|]. cbn [fold_left]. change (nadd xreal XNaN a) with XNaN. exact IH. Qed.
Lemma nsum_nan (l : list X) : In XNaN l -> nsum xreal l = XNaN.
Proof.
  unfold nsum. generalize (nint xreal 0). induction l as [|a l IH]; intros b H; [destruct H|]. destruct H as [->|H].
  - cbn [fold_left]. replace (nadd xreal b XNaN) with XNaN by (destruct b; reflexivity). apply fold_nan.
  - cbn [fold_left]. now apply IH.
Qed.
Lemma max_inf (l : list X) : forall a, (a = PInf \/ In PInf l) -> ~ In XNaN (a :: l) -> fold_left (nmax xreal) l a = PInf.
Proof.
  induction l as [|b l IH]; intros a Ha Hn; cbn [fold_left]; [destruct Ha as [->|[]]; reflexivity|].
  apply IH.
  - unfold nmax. destruct Ha as [->|[->|H]]; [left|left|now right].
    + cbn [xreal nltb xltb]. destruct b; reflexivity.
    + cbn [xreal nltb xltb]. destruct a; try reflexivity. elim Hn. now left.
  - intros [E|H]; apply Hn; [|right; now right]. unfold nmax in E. destruct (nltb xreal a b); [right; now left|now left].
Qed.

(** an infinite or undefined entry spoils the whole vector *)
Theorem C76_infinite : forall xs : list X, In PInf xs \/ In XNaN xs ->
  softmax xreal xs = Ok (repeat XNaN (List.length xs)).
Proof.
  intros xs H. assert (Hne : exists a l, xs = a :: l) by (destruct xs as [|a l]; [destruct H as [[]|[]]|now exists a, l]).
  assert (E : exists m, np_max xreal xs = Ok m /\ ((m = PInf /\ In PInf xs) \/ m = XNaN)).
  { destruct Hne as (a & l & ->). cbn [np_max]. destruct (existsb (nisnan xreal) (a :: l)) eqn:En.
    - exists XNaN. split; [reflexivity|now right].
    - assert (Hn : ~ In XNaN (a :: l)).
      { intros Hi. assert (existsb (nisnan xreal) (a :: l) = true) by (apply existsb_exists; exists XNaN; split; [exact Hi|reflexivity]). congruence. }
      destruct H as [H|H]; [|contradiction]. exists (fold_left (nmax xreal) l a). split; [reflexivity|]. left. split; [|exact H].
      apply max_inf; [destruct H; auto|exact Hn]. }
  destruct E as (m & Em & Hm). unfold softmax. rewrite Em. cbn [bind]. f_equal.
  assert (Hs : In XNaN (map (fun v => nexp xreal (nsub xreal v m)) xs)).
  { destruct Hm as [[-> Hi]| ->].
    - apply in_map_iff. exists PInf. split; [reflexivity|exact Hi].
    - destruct Hne as (a & l & ->). left. destruct a; reflexivity. }
  rewrite (nsum_nan _ Hs). rewrite map_map. rewrite (map_ext _ (fun _ => XNaN)) by (intros v; now destruct (nexp xreal (nsub xreal v m))).
  clear. induction xs as [|a xs IH]; [reflexivity|]. cbn. now rewrite IH.
Qed.
Print Assumptions C76_infinite.

(** nothing to weigh: ValueError *)
Theorem C76_empty : forall N (o : numops N), softmax o [] = Err ValueError.
Proof. reflexivity. Qed.
Print Assumptions C76_empty.

(** in binary64: finite entries of any size give numbers between 0 and 1, never NaN *)
Lemma f1_key : fkey (f_of_Z 1) = 1%R.
Proof. rewrite fkey_finite by apply f1_fin. apply f1_fin. Qed.
Lemma unit_finite e : num e -> (0 <= fkey e <= 1)%R -> is_finite e = true.
Proof.
  intros Hn Hk. destruct (num_cases e Hn) as [H|[-> | ->]]; [exact H| |].
  - exfalso. change (fkey finf) with big in Hk. pose proof (bpow_lt radix2 0 1024 ltac:(lia)) as Hb. unfold big in Hk. change (bpow radix2 0) with 1%R in Hb. lra.
  - exfalso. change (fkey fninf) with (- big)%R in Hk. pose proof big_pos. lra.
Qed.
Lemma rs_1 : rs 1 = 1%R.
Proof. rewrite <- (proj2 f1_fin) at 1. rewrite rs_float by apply f1_fin. apply f1_fin. Qed.
Lemma add_unit s e : num s -> (0 <= fkey s)%R -> num e -> (0 <= fkey e <= 1)%R ->
  num (fadd s e) /\ (fkey s <= fkey (fadd s e))%R /\ (fkey e <= fkey (fadd s e))%R.
Proof.
  intros Ns Hs Ne He. pose proof (unit_finite e Ne He) as Fe. pose proof big_pos as Hb.
  destruct (num_cases s Ns) as [Fs|[-> | ->]].
  - destruct (key_add s e Fs Fe) as [Hn Hk]. split; [exact Hn|]. rewrite Hk, !fkey_finite by assumption.
    rewrite fkey_finite in Hs, He by assumption.
    split; [rewrite <- (rs_float s Fs) at 1|rewrite <- (rs_float e Fe) at 1]; apply rs_mono; lra.
  - assert (E : fadd finf e = finf) by (destruct e as [|[]| |]; try discriminate; reflexivity). rewrite E.
    split; [reflexivity|]. split; [lra|]. change (fkey finf) with big. rewrite (fkey_finite e Fe). pose proof (fkey_bound e Fe). rewrite fkey_finite in H by assumption. lra.
  - exfalso. change (fkey fninf) with (- big)%R in Hs. lra.
Qed.
Lemma sum_units l : forall s, num s -> (0 <= fkey s)%R -> Forall (fun e => num e /\ (0 <= fkey e <= 1)%R) l ->
  num (fold_left fadd l s) /\ (fkey s <= fkey (fold_left fadd l s))%R
  /\ (forall e, In e l -> (fkey e <= fkey (fold_left fadd l s))%R).
Proof.
  induction l as [|e l IH]; intros s Ns Hs Hl; cbn [fold_left].
  - split; [exact Ns|]. split; [lra|]. intros e [].
  - inversion Hl as [|? ? [Ne He] Hl']; subst. destruct (add_unit s e Ns Hs Ne He) as (Hn & H1 & H2).
    destruct (IH (fadd s e) Hn ltac:(lra) Hl') as (I1 & I2 & I3). split; [exact I1|]. split; [lra|].
    intros e' [<-|Hi]; [lra|now apply I3].
Qed.
Lemma unit_quotient e s : num e -> (0 <= fkey e <= 1)%R -> num s -> (1 <= fkey s)%R ->
  num (fdiv e s) /\ (0 <= fkey (fdiv e s) <= 1)%R.
Proof.
  intros Ne He Ns Hs. pose proof (unit_finite e Ne He) as Fe. pose proof big_pos as Hb.
  destruct (num_cases s Ns) as [Fs|[-> | ->]].
  - rewrite fkey_finite in Hs, He by assumption. destruct (key_div e s Fe Fs ltac:(lra)) as [Hn Hk]. split; [exact Hn|]. rewrite Hk.
    assert (0 <= B2R e / B2R s <= 1)%R.
    { split; [apply Rle_mult_inv_pos; lra|]. apply (Rmult_le_reg_r (B2R s)); [lra|]. unfold Rdiv. rewrite Rmult_assoc, Rinv_l by lra. lra. }
    split; [apply rs_nonneg; lra|]. rewrite <- rs_1. apply rs_mono. lra.
  - destruct e as [|[]| |]; try discriminate; split; try reflexivity; cbn; lra.
  - exfalso. change (fkey fninf) with (- big)%R in Hs. lra.
Qed.

Theorem C76_binary64 : forall lib (xs : list F), exp_sane lib -> xs <> [] -> Forall (fun x => is_finite x = true) xs ->
  exists ps, softmax (f64 lib) xs = Ok ps /\ List.length ps = List.length xs
    /\ Forall (fun p => num p /\ (0 <= fkey p <= 1)%R) ps.
Proof.
  intros lib xs Hexp Hne Hf. destruct xs as [|x0 xs]; [congruence|].
  assert (Hnum : Forall num (x0 :: xs)).
  { revert Hf. apply Forall_impl. intros [| | |]; try discriminate; reflexivity. }
  assert (En : existsb fisnan (x0 :: xs) = false).
  { apply not_true_is_false. intros E. apply existsb_exists in E as (y & Hy & E). rewrite Forall_forall in Hnum. specialize (Hnum y Hy). unfold num in Hnum. congruence. }
  set (m := fold_left (nmax (f64 lib)) xs x0).
  assert (Em : np_max (f64 lib) (x0 :: xs) = Ok m) by (unfold np_max; cbn [f64 nisnan]; now rewrite En).
  destruct (fold_max_spec xs x0 m eq_refl) as (Hin & Nm & Hle); [now inversion Hnum|now inversion Hnum|].
  unfold softmax. rewrite Em. cbn [bind]. eexists. split; [reflexivity|]. split; [now rewrite !map_length|].
  rewrite Forall_forall in Hf. pose proof (Hf m Hin) as Fm.
  set (e := map (fun v => nexp (f64 lib) (nsub (f64 lib) v m)) (x0 :: xs)).
  assert (Hsub : forall x, In x (x0 :: xs) -> num (fsub x m) /\ (fkey (fsub x m) <= 0)%R).
  { intros x Hx. destruct (key_sub x m (Hf x Hx) Fm) as [Hn Hk]. split; [exact Hn|]. rewrite Hk. apply rs_nonpos.
    specialize (Hle x Hx). rewrite !fkey_finite in Hle by auto. lra. }
  assert (He : Forall (fun e => num e /\ (0 <= fkey e <= 1)%R) e).
  { apply Forall_forall. intros y Hy. apply in_map_iff in Hy as (x & <- & Hx). destruct (Hsub x Hx) as [Hn Hk].
    destruct (Hexp (fsub x m) Hn Hk) as (H1 & H2 & _). split; assumption. }
  assert (H1 : exists y, In y e /\ fkey y = 1%R).
  { exists (m_exp lib (fsub m m)). split; [apply (in_map (fun v => m_exp lib (fsub v m))); exact Hin|].
    destruct (Hsub m Hin) as [Hn Hk]. apply (Hexp _ Hn Hk). rewrite (proj2 (key_sub m m Fm Fm)). rewrite Rminus_diag_eq by reflexivity. apply rs_0. }
  assert (Hz : num (flit 0 1) /\ fkey (flit 0 1) = 0%R) by (rewrite nint0_f; split; reflexivity).
  destruct (sum_units e (flit 0 1) (proj1 Hz) ltac:(rewrite (proj2 Hz); lra) He) as (Ns & _ & Hs).
  destruct H1 as (y & Hy & Ky). specialize (Hs y Hy). rewrite Ky in Hs.
  apply Forall_forall. intros p Hp. apply in_map_iff in Hp as (v & <- & Hv). rewrite Forall_forall in He. destruct (He v Hv) as [Nv Kv].
  now apply unit_quotient.
Qed.
Print Assumptions C76_binary64.

Section C76Case.
  (** an exponential that is 1 at zero and 0 below meets the assumption *)
  Let lib := mkLibm (fun x => x) (fun x => if feqb x f0 then f_of_Z 1 else f0) (fun _ => f0).
  Lemma step_exp_sane : exp_sane lib.
  Proof.
    intros x Hn Hk. cbn [lib m_exp]. destruct (feqb x f0) eqn:E.
    - rewrite f1_key. split; [exact (proj1 (key_of_Z 1))|]. split; [lra|reflexivity].
    - split; [reflexivity|]. change (fkey f0) with 0%R. split; [lra|]. intros H0. exfalso.
      assert (feqb x f0 = true) by (apply feqb_spec; repeat split; auto). congruence.
  Qed.
  Example C76_case : softmax xreal [Fin 0; Fin (ln 3)] = Ok [Fin (1/4); Fin (3/4)]
    /\ (exists ps, softmax (f64 lib) [f_of_Z 1000; f_of_Z 1] = Ok ps /\ List.length ps = 2).
  Proof.
    split.
    - change [Fin 0; Fin (ln 3)] with (map Fin [0%R; ln 3]). rewrite softmax_x by discriminate. unfold gibbs. cbn [map rsum].
      rewrite exp_0, exp_ln by lra. do 2 f_equal; [|f_equal]; f_equal; lra.
    - destruct (C76_binary64 lib [f_of_Z 1000; f_of_Z 1] step_exp_sane) as (ps & E & L & _); [discriminate| |now exists ps].
      repeat constructor; apply of_Z_exact; lia.
  Qed.
End C76Case.

(** ** random functions *)
Lemma mapM_ext_in {A B} (f g : A -> res B) l : (forall x, In x l -> f x = g x) -> mapM f l = mapM g l.
Proof.
  induction l as [|a l IH]; intros H; [reflexivity|]. cbn [mapM]. rewrite (H a) by now left. rewrite IH by (intros; apply H; now right). reflexivity.
Qed.
Section RandomFunctionProofs.
  Context {N M G : Type} (o : numops N) (k : gp N M) (randint : G -> Z * G).

  Lemma fn_loop_seeded todo : forall x sd fns g r g',
    fn_loop k randint todo x (Some sd) fns g = (r, g') ->
    g' = g /\ forall fns', r = Ok fns' -> exists m, fns' = fns ++ repeat m todo
      /\ (1 <= todo -> exists y, gp_sample k (gp_new k) x sd = Ok y /\ gp_fit k (gp_new k) x y = (m, None)).
  Proof.
    induction todo as [|t IH]; intros x sd fns g r g' E; cbn [fn_loop] in E.
    - injection E as <- <-. split; [reflexivity|]. intros fns' E. injection E as <-. exists (gp_new k).
      split; [cbn; now rewrite app_nil_r|lia].
    - destruct (gp_sample k (gp_new k) x sd) as [y|e] eqn:Es; [|injection E as <- <-; split; [reflexivity|discriminate]].
      destruct (gp_fit k (gp_new k) x y) as [m [e|]] eqn:Ef; [injection E as <- <-; split; [reflexivity|discriminate]|].
      destruct (IH _ _ _ _ _ _ E) as [Hg Hr]. split; [exact Hg|]. intros fns' E'. destruct (Hr fns' E') as (m' & -> & Hm').
      exists m. split; [|intros _; now exists y]. rewrite <- app_assoc. f_equal. cbn [repeat app]. f_equal.
      destruct t as [|t]; [reflexivity|]. destruct (Hm' ltac:(lia)) as (y' & E1 & E2).
      rewrite Es in E1. injection E1 as <-. rewrite Ef in E2. injection E2 as <-. reflexivity.
  Qed.
  (** the loop with an unseeded start is the loop with the first random seed *)
  Lemma fn_loop_unseeded t x fns g :
    fn_loop k randint (S t) x None fns g = fn_loop k randint (S t) x (Some (fst (randint g))) fns (snd (randint g)).
  Proof. cbn [fn_loop]. destruct (randint g) as [s g1]. reflexivity. Qed.

  Lemma fns_equal dim out_dim np lo hi seed g fns g' :
    random_nd_function o k randint dim out_dim np lo hi seed g = (Ok fns, g') -> exists m, fns = repeat m out_dim.
  Proof.
    unfold random_nd_function. intros E. destruct seed as [sd|].
    - destruct (fn_loop_seeded _ _ _ _ _ _ _ E) as [_ H]. destruct (H fns eq_refl) as (m & -> & _). now exists m.
    - destruct out_dim as [|t]; [injection E as <- _; exists (gp_new k); reflexivity|]. rewrite fn_loop_unseeded in E.
      destruct (fn_loop_seeded _ _ _ _ _ _ _ E) as [_ H]. destruct (H fns eq_refl) as (m & -> & _). now exists m.
  Qed.

  Lemma hcats_repeat (rows : list (list N)) v t : rows = map (fun x => [x]) v -> forall j,
    hcats (mkArr [j] (map (fun x => repeat x j) v)) (repeat (mkArr [1] rows) t)
    = Ok (mkArr [j + t] (map (fun x => repeat x (j + t)) v)).
  Proof.
    intros ->. induction t as [|t IH]; intros j; cbn [repeat hcats].
    - now rewrite Nat.add_0_r.
    - unfold hcat. cbn [atail arows]. destruct (list_eq_dec Nat.eq_dec [] []) as [_|C]; [|congruence].
      unfold alen. cbn [arows]. rewrite !map_length, Nat.eqb_refl. cbn [andb bind].
      assert (E : map2 (app (A:=N)) (map (fun x => repeat x j) v) (map (fun x => [x]) v) = map (fun x => repeat x (j + 1)) v).
      { clear. induction v as [|x v IH]; [reflexivity|]. cbn [map map2]. rewrite IH. f_equal. rewrite repeat_app. reflexivity. }
      rewrite E, IH. now rewrite <- Nat.add_assoc.
  Qed.

  (** a call of the returned function, when it succeeds, gives [out_dim] equal columns: the
      prediction of one and the same regressor. Without outputs it always raises. *)
Theorem C75_same_components : forall dim out_dim np lo hi seed g fns g',
    random_nd_function o k randint dim out_dim np lo hi seed g = (Ok fns, g') ->
    exists m, forall x a, out_f k out_dim fns x = Ok a ->
      1 <= out_dim /\ equal_columns out_dim a
      /\ exists x' v, flatten_rows x = Ok x' /\ gp_predict k m x' = Ok v /\ arows a = map (fun c => repeat c out_dim) v.
  Proof.
    intros dim out_dim np lo hi seed g fns g' E. destruct (fns_equal _ _ _ _ _ _ _ _ _ E) as (m & ->). exists m.
    intros x a Ea. unfold out_f in Ea.
    assert (Hm : mapM (fun d => match nth_error (repeat m out_dim) d with
                                | None => Err IndexError
                                | Some m => do x' <- flatten_rows x; gp_predict k m x' end) (seq 0 out_dim)
               = mapM (fun _ => do x' <- flatten_rows x; gp_predict k m x') (seq 0 out_dim)).
    { apply mapM_ext_in. intros d Hd. apply in_seq in Hd. rewrite (nth_error_repeat m) by lia. reflexivity. }
    rewrite Hm in Ea. clear Hm. destruct out_dim as [|t]; [discriminate|].
    destruct (flatten_rows x) as [x'|e] eqn:Ex; [|discriminate]. destruct (gp_predict k m x') as [v|e] eqn:Ev; [|cbn in Ea; rewrite Ev in Ea; discriminate].
    assert (Hall : forall l : list nat, mapM (fun _ => bind (Ok x') (fun x' => gp_predict k m x')) l = Ok (repeat v (List.length l))).
    { induction l as [|d l IH]; [reflexivity|]. cbn [mapM]. rewrite IH. cbn [bind]. rewrite Ev. reflexivity. }
    rewrite Hall in Ea. cbn [bind] in Ea. rewrite seq_length in Ea. cbn [repeat map] in Ea.
    unfold column_stack in Ea. cbn [map] in Ea. rewrite map_map in Ea.
    assert (Ec : as_column (vec v) = mkArr [1] (map (fun c => repeat c 1) v)) by (unfold as_column, vec; reflexivity).
    rewrite Ec in Ea.
    assert (Er : map (fun l => as_column (vec l)) (repeat v t) = repeat (mkArr [1] (map (fun c => [c]) v)) t).
    { clear - Ec. induction t as [|t IH]; [reflexivity|]. cbn [repeat map]. rewrite IH, Ec. reflexivity. }
    rewrite map_map in Ea || idtac. rewrite Er, (hcats_repeat _ v) in Ea by reflexivity. injection Ea as <-.
    split; [lia|]. split; [|exists x', v; auto]. split; [reflexivity|]. cbn [arows]. apply Forall_forall. intros r Hr.
    apply in_map_iff in Hr as (c & <- & _). now exists c.
  Qed.

  (** numpy's global generator is used exactly once, and only without a seed; with a seed the
      function does not depend on it *)
Theorem C75_generator : forall dim out_dim np lo hi seed g r g',
    random_nd_function o k randint dim out_dim np lo hi seed g = (r, g') ->
    g' = (match seed, out_dim with None, S _ => snd (randint g) | _, _ => g end)
    /\ forall g2, (seed <> None -> fst (random_nd_function o k randint dim out_dim np lo hi seed g2) = r)
               /\ (fst (randint g2) = fst (randint g) -> fst (random_nd_function o k randint dim out_dim np lo hi seed g2) = r).
  Proof.
    assert (Hs : forall todo x sd fns g g2, fst (fn_loop k randint todo x (Some sd) fns g2) = fst (fn_loop k randint todo x (Some sd) fns g)).
    { induction todo as [|t IH]; intros; cbn [fn_loop]; [reflexivity|]. destruct (gp_sample k (gp_new k) x sd); [|reflexivity].
      destruct (gp_fit k (gp_new k) x x0) as [? [?|]]; [reflexivity|apply IH]. }
    unfold random_nd_function. intros dim out_dim np lo hi seed g r g' E.
    destruct seed as [sd|].
    - split; [exact (proj1 (fn_loop_seeded _ _ _ _ _ _ _ E))|]. intros g2. rewrite (Hs _ _ _ _ g), E. auto.
    - destruct out_dim as [|t]; [injection E as <- <-; split; [reflexivity|]; intros g2; split; reflexivity|].
      rewrite fn_loop_unseeded in E. split; [exact (proj1 (fn_loop_seeded _ _ _ _ _ _ _ E))|]. intros g2. split; [congruence|].
      intros Heq. rewrite fn_loop_unseeded, Heq, (Hs _ _ _ _ (snd (randint g))), E. reflexivity.
  Qed.

  (** without input rows no such function can be evaluated: ValueError *)
Theorem C75_no_rows : forall dim out_dim np lo hi seed g fns g' x,
    random_nd_function o k randint dim out_dim np lo hi seed g = (Ok fns, g') -> arows x = [] ->
    out_f k out_dim fns x = Err ValueError.
  Proof.
    intros dim out_dim np lo hi seed g fns g' x E Hx. destruct (fns_equal _ _ _ _ _ _ _ _ _ E) as (m & ->).
    unfold out_f. destruct out_dim as [|t]; [reflexivity|]. cbn [seq mapM repeat nth_error].
    unfold flatten_rows, alen. rewrite Hx. reflexivity.
  Qed.

  (** the fitting points: n_points ** dim of them, each with dim coordinates *)
Theorem C75_grid : forall dim np lo hi,
    List.length (grid o dim np lo hi) = np ^ dim /\ Forall (fun p => List.length p = dim) (grid o dim np lo hi).
  Proof.
    intros dim np lo hi. unfold grid. rewrite map_length.
    assert (Hl : List.length (linspace01 o np) = np).
    { destruct np as [|[|n]]; [reflexivity|reflexivity|]. unfold linspace01. rewrite app_length, map_length, seq_length. cbn. lia. }
    assert (H : List.length (product (linspace01 o np) dim) = np ^ dim /\ Forall (fun p => List.length p = dim) (product (linspace01 o np) dim)).
    { rewrite <- Hl at 2. generalize (linspace01 o np). clear. intros l. induction dim as [|d [IH1 IH2]]; cbn [product Nat.pow].
      - split; [reflexivity|repeat constructor].
      - split.
        + rewrite <- IH1. generalize (product l d). intros ps. clear. induction l as [|v l IH]; [reflexivity|].
          cbn [flat_map List.length]. rewrite app_length, map_length, IH. lia.
        + apply Forall_forall. intros p Hp. apply in_flat_map in Hp as (v & _ & Hp). apply in_map_iff in Hp as (q & <- & Hq).
          rewrite Forall_forall in IH2. cbn. now rewrite (IH2 q Hq). }
    split; [apply H|]. apply Forall_forall. intros p Hp. apply in_map_iff in Hp as (q & <- & Hq). rewrite map_length.
    destruct H as [_ H]. rewrite Forall_forall in H. now apply H.
  Qed.
End RandomFunctionProofs.
Print Assumptions C75_same_components.
Print Assumptions C75_generator.
Print Assumptions C75_grid.
Print Assumptions C75_no_rows.

(** in exact arithmetic the points lie between min_x and max_x, the corners included *)
Theorem C75_grid_range : forall dim np lo hi p v, (lo <= hi)%R ->
  In p (grid xreal dim np (Fin lo) (Fin hi)) -> In v p -> exists r, v = Fin r /\ (lo <= r <= hi)%R.
Proof.
  intros dim np lo hi p v Hle Hp Hv. unfold grid in Hp. apply in_map_iff in Hp as (q & <- & Hq). apply in_map_iff in Hv as (u & <- & Hu).
  assert (Hlin : forall u, In u (linspace01 xreal np) -> exists r, u = Fin r /\ (0 <= r <= 1)%R).
  { clear. intros u Hu. destruct np as [|[|n]]; [destruct Hu| |].
    - destruct Hu as [<-|[]]. exists 0%R. rewrite nint_x. split; [reflexivity|lra].
    - unfold linspace01 in Hu. apply in_app_or in Hu as [Hu|[<-|[]]].
      + apply in_map_iff in Hu as (i & <- & Hi). apply in_seq in Hi. exists (INR i / INR (S n))%R.
        assert (0 < INR (S n))%R by (apply lt_0_INR; lia).
        rewrite !nnat_x, nint_x. cbn [xreal nmul ndiv]. rewrite xdiv_fin by lra. cbn [xmul]. split; [f_equal; unfold Rdiv; lra|].
        split; [apply Rle_mult_inv_pos; [apply pos_INR|assumption]|]. apply (Rmult_le_reg_r (INR (S n))); [assumption|].
        unfold Rdiv. rewrite Rmult_assoc, Rinv_l by lra. rewrite Rmult_1_r, Rmult_1_l. apply le_INR. lia.
      + exists 1%R. rewrite nint_x. split; [reflexivity|lra]. }
  assert (Hprod : forall d q, In q (product (linspace01 xreal np) d) -> forall u, In u q -> In u (linspace01 xreal np)).
  { generalize (linspace01 xreal np). clear. intros l. induction d as [|d IH]; cbn [product]; intros q Hq u Hu.
    - destruct Hq as [<-|[]]. destruct Hu.
    - apply in_flat_map in Hq as (w & Hw & Hq). apply in_map_iff in Hq as (q' & <- & Hq'). destruct Hu as [<-|Hu]; [exact Hw|].
      exact (IH q' Hq' u Hu). }
  destruct (Hlin u (Hprod dim q Hq u Hu)) as (r & -> & Hr). exists (r * (hi - lo) + lo)%R. split; [reflexivity|]. nra.
Qed.
Print Assumptions C75_grid_range.

Section C75Case.
  (** a regressor that remembers what it was fitted on; predictions add up the inputs *)
  Let k : gp Z (list Z) := mkGp [] (fun _ xs s => Ok (map (fun _ => s) xs)) (fun _ _ y => (y, None))
    (fun m a => Ok (map (fun r => (fold_right Z.add 0 r + hd 0 m)%Z) (arows a))).
  Let zo : numops Z := mkNum Z Z.add Z.sub Z.mul Z.div Z.sqrt Z.log2 (fun z => z) (fun _ => 0%Z) (fun p _ => p) 0%Z 0%Z
    Z.ltb Z.leb Z.eqb (fun _ => false) (fun z => Ok z) (fun z => Ok z).
  Example C75_case :
    (let '(r, g) := random_nd_function zo k (fun g => (g, (g + 1)%Z)) 1 3 2 0%Z 1%Z None 7%Z in
     (do fns <- r; out_f k 3 fns (mkArr [2] [[1; 2]; [5; 5]]%Z), g))
    = (Ok (mkArr [3] [[10; 10; 10]; [17; 17; 17]]%Z), 8%Z)
    /\ out_f k 0 [] (mkArr [2] [[1; 2]]%Z) = Err ValueError.
  Proof. split; reflexivity. Qed.
End C75Case.

(** ** run_single_arm *)
Section SingleArmProofs.
  Context {N V A G : Type} (b : bench N V A G) (max inc : Z) (delta : N).

  (** the state after the rounds in which [seen] was shown *)
  Definition after (s : single N A G) (seen : list A) (a : A) (g : G) : single N A G :=
    mkSingle (sg_lcbs s ++ map (fun a => Attr (fst (bn_ci b a))) seen)
             (sg_ucbs s ++ map (fun a => Attr (snd (bn_ci b a))) seen)
             (sg_vars s ++ map (fun a => Attr (bn_var b a)) seen)
             (sg_ates s ++ map (fun a => Attr (bn_ate b a)) seen)
             (sg_counts s ++ map (fun i => Count (sg_current s + Z.of_nat i * inc)%Z) (seq 1 (List.length seen)))
             (sg_current s + Z.of_nat (List.length seen) * inc)%Z a g.

  Lemma after_nil s : after s [] (sg_arm s) (sg_gen s) = s.
  Proof. destruct s. unfold after. cbn. rewrite !app_nil_r, Z.add_0_r. reflexivity. Qed.
  Lemma after_cons s a2 g2 seen a g :
    after (after s [a2] a2 g2) seen a g = after s (a2 :: seen) a g.
  Proof.
    unfold after. cbn [sg_lcbs sg_ucbs sg_vars sg_ates sg_counts sg_current map List.length seq]. rewrite <- !app_assoc. cbn [app].
    f_equal; [|lia]. f_equal. f_equal. rewrite <- (seq_shift (List.length seen) 1), map_map. apply map_ext. intros i. f_equal. lia.
  Qed.

  Definition dict_of (s : single N A G) : sdict (list (entry N)) :=
    [("LCBs", sg_lcbs s); ("UCBs", sg_ucbs s); ("var_estimates", sg_vars s); ("ATE_estmitates", sg_ates s);
     ("n_samples", sg_counts s)]%string.

  Lemma single_returned fuel : forall s r s', loop fuel (single_body b max inc delta) s = Returned r s' ->
    exists k seen a g, rounds b inc delta k (sg_arm s) (sg_gen s) seen a g /\ List.length seen = k
      /\ s' = after s seen a g /\ r = dict_of s' /\ (max <= sg_current s + Z.of_nat k * inc)%Z
      /\ forall j, j < k -> (sg_current s + Z.of_nat j * inc < max)%Z.
  Proof.
    induction fuel as [|f IH]; intros s r s' E; cbn [loop] in E; [discriminate|].
    unfold single_body in E at 1. destruct (sg_current s <? max)%Z eqn:Ec.
    - destruct (bn_generate b inc (sg_gen s)) as [[d|e] g1] eqn:Eg; [|discriminate].
      destruct (bn_update b (sg_arm s) d delta g1) as [[a2 g2] [e|]] eqn:Eu; [discriminate|].
      destruct (IH _ _ _ E) as (k & seen & a & g & Hr & Hl & Hs & Hd & Hm & Hj). cbn [sg_arm sg_gen sg_current] in *.
      exists (S k), (a2 :: seen), a, g. split; [econstructor; eassumption|]. split; [cbn; now rewrite Hl|].
      split; [rewrite Hs; transitivity (after (after s [a2] a2 g2) seen a g); [|apply after_cons]|].
      { f_equal. unfold after. cbn [map List.length seq]. rewrite !Z.mul_1_l. reflexivity. }
      split; [exact Hd|]. split; [lia|]. intros [|j] Hjk; [apply Z.ltb_lt in Ec; lia|]. specialize (Hj j ltac:(lia)). lia.
    - injection E as <- <-. exists 0, [], (sg_arm s), (sg_gen s). split; [constructor|]. split; [reflexivity|].
      rewrite after_nil. split; [reflexivity|]. split; [reflexivity|]. apply Z.ltb_ge in Ec. split; [lia|]. lia.
  Qed.

  Lemma single_runs k : forall s seen a g fuel, rounds b inc delta k (sg_arm s) (sg_gen s) seen a g ->
    (max <= sg_current s + Z.of_nat k * inc)%Z -> (forall j, j < k -> (sg_current s + Z.of_nat j * inc < max)%Z) ->
    k < fuel -> loop fuel (single_body b max inc delta) s = Returned (dict_of (after s seen a g)) (after s seen a g).
  Proof.
    induction k as [|k IH]; intros s seen a g fuel Hr Hm Hj Hf; (destruct fuel as [|f]; [lia|]); cbn [loop]; unfold single_body at 1.
    - inversion Hr; subst. destruct (Z.ltb_spec (sg_current s) max); [lia|]. rewrite after_nil. reflexivity.
    - inversion Hr as [|? ? ? d g1 a2 g2 seen0 ? ? H0 H1 H5]; subst. destruct (Z.ltb_spec (sg_current s) max) as [_|Hc]; [|specialize (Hj 0 ltac:(lia)); lia].
      rewrite H0, H1. specialize (IH (after s [a2] a2 g2) seen0 a g f).
      assert (Ea : mkSingle (sg_lcbs s ++ [Attr (fst (bn_ci b a2))]) (sg_ucbs s ++ [Attr (snd (bn_ci b a2))])
          (sg_vars s ++ [Attr (bn_var b a2)]) (sg_ates s ++ [Attr (bn_ate b a2)]) (sg_counts s ++ [Count (sg_current s + inc)%Z])
          (sg_current s + inc)%Z a2 g2 = after s [a2] a2 g2).
      { unfold after. cbn [map List.length seq]. rewrite !Z.mul_1_l. reflexivity. }
      rewrite Ea, IH; [now rewrite after_cons|exact H5| | |lia].
      + cbn [after sg_current List.length]. lia.
      + intros j Hjk. specialize (Hj (S j) ltac:(lia)). cbn [after sg_current List.length]. lia.
  Qed.

  (** a run that returns made exactly as many rounds as are needed to reach max_samples, each
      with [inc] new samples and the full error budget, and reports one entry per round *)
Theorem C78_schedule : forall fuel a g r s', run_single_arm b max inc delta fuel a g = Returned r s' ->
    exists k seen g', rounds b inc delta k a g seen (sg_arm s') g' /\ List.length seen = k /\ rounds_needed max inc k
      /\ sget r "n_samples" = Some (map (fun i => Count (Z.of_nat (i + 1) * inc)%Z) (seq 0 k))
      /\ sget r "LCBs" = Some (map (fun a => Attr (fst (bn_ci b a))) seen)
      /\ sget r "UCBs" = Some (map (fun a => Attr (snd (bn_ci b a))) seen)
      /\ sget r "var_estimates" = Some (map (fun a => Attr (bn_var b a)) seen)
      /\ sget r "ATE_estmitates" = Some (map (fun a => Attr (bn_ate b a)) seen)
      /\ sget r "ATE_estimates" = None.
  Proof.
    intros fuel a g r s' E. unfold run_single_arm in E.
    destruct (single_returned fuel _ _ _ E) as (k & seen & a' & g' & Hr & Hl & Hs & Hd & Hm & Hj). cbn [sg_arm sg_gen sg_current] in *.
    exists k, seen, g'. rewrite Hd, Hs. cbn [after sg_arm]. split; [exact Hr|]. split; [exact Hl|].
    split; [split; [lia|]; intros j Hjk; specialize (Hj j Hjk); lia|].
    split; [|repeat split; reflexivity].
    cbn [dict_of sget String.eqb Ascii.eqb Bool.eqb]. cbn. f_equal. rewrite Hl. rewrite <- seq_shift, map_map. apply map_ext. intros i. f_equal. lia.
  Qed.

  (** it returns whenever none of these rounds raises *)
Theorem C78_returns : forall k a g seen a' g', rounds_needed max inc k -> rounds b inc delta k a g seen a' g' ->
    forall fuel, k < fuel -> exists r s', run_single_arm b max inc delta fuel a g = Returned r s' /\ sg_arm s' = a' /\ sg_gen s' = g'.
  Proof.
    intros k a g seen a' g' [Hm Hj] Hr fuel Hf. unfold run_single_arm. do 2 eexists. split; [|split].
    - apply (single_runs k _ seen a' g'); [exact Hr| | |exact Hf]; cbn [sg_current]; [lia|]. intros j Hjk. specialize (Hj j Hjk). lia.
    - reflexivity.
    - reflexivity.
  Qed.

  (** without progress it never returns *)
Theorem C78_no_progress : forall fuel a g r s', (inc <= 0)%Z -> (0 < max)%Z ->
    run_single_arm b max inc delta fuel a g <> Returned r s'.
  Proof.
    intros fuel a g r s' Hi Hm E. apply C78_schedule in E as (k & _ & _ & _ & _ & [Hk _] & _). nia.
  Qed.
End SingleArmProofs.
Print Assumptions C78_schedule.
Print Assumptions C78_returns.
Print Assumptions C78_no_progress.

(** the number of rounds is ceil(max/inc), none for max <= 0 *)
Theorem C78_count : forall max inc, (1 <= inc)%Z -> forall k, rounds_needed max inc k <-> Z.of_nat k = Z.max 0 (- (- max / inc)).
Proof.
  intros max inc Hi k.
  pose proof (Z.div_mod (- max) inc ltac:(lia)) as Hd. pose proof (Z.mod_pos_bound (- max) inc ltac:(lia)) as Hb.
  set (q := (- max / inc)%Z) in *. set (t := (- max mod inc)%Z) in *. split.
  - intros [H1 H2]. destruct k as [|k].
    + assert (0 <= q)%Z by nia. lia.
    + specialize (H2 k ltac:(lia)). rewrite Nat2Z.inj_succ in *. assert (Z.of_nat k < - q)%Z by nia. assert (- q <= Z.succ (Z.of_nat k))%Z by nia. lia.
  - intros E. split; [nia|]. intros j Hj. nia.
Qed.
Print Assumptions C78_count.

Section C78Case.
  (** an arm that counts its samples; the generator makes empty data sets of the given size *)
  Let b : bench Z Z Z unit := mkBench
    (fun n g => (Ok (mkED None None None (Z.to_nat n) 0), g))
    (fun a d delta g => (((a + Z.of_nat (n_units d))%Z, g), None)) (fun a => (Some (- a)%Z, Some a)) (fun a => Some a) (fun _ => None).
  Example C78_case : rounds_needed 10 4 3
    /\ (exists s, run_single_arm b 10 4 0%Z 4 0%Z tt = Returned
          [("LCBs", map (fun z => Attr (Some z)) [-4; -8; -12]%Z); ("UCBs", map (fun z => Attr (Some z)) [4; 8; 12]%Z);
           ("var_estimates", map (fun z => Attr (Some z)) [4; 8; 12]%Z); ("ATE_estmitates", [Attr None; Attr None; Attr None]);
           ("n_samples", map Count [4; 8; 12]%Z)]%string s).
  Proof.
    split; [split; [lia|]; intros j Hj; lia|]. eexists. reflexivity.
  Qed.
End C78Case.
