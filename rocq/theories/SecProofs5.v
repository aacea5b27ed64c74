(** The CPDs of Section 5.2 on real numbers. *)
From Coq Require Import String List Arith ZArith Reals Bool Lia Lra.
From Flocq Require Import Core.
From Verif Require Import PyBase PyLemmas Num NumLemmas NumOps DataModel ScmModel ScmProofs TabSpec TabReal ArmModel ParamModel ParamProofs5 PaperModel PaperSpec PaperProofs PaperProofs4 UtilModel UtilProps ExampleSpec ExampleProps CpdModel CpdSpec CpdProofs CpdProps SecSpec SecSpec2 SecProofs SecProofs2 SecProofs3 SecProofs4.
From Verif Require Import ScmSpec.
Import ListNotations.
Open Scope string_scope.
Open Scope nat_scope.
Open Scope R_scope.

(** ** the fitting points *)
Lemma linspace_x : exists l, linspace01 xreal 10 = map Fin l.
Proof.
  unfold linspace01.
  assert (H : exists c, ndiv xreal (nint xreal 1) (nnat xreal 9) = Fin c).
  { unfold nnat. rewrite !nint_x. eexists. apply xdiv_fin. cbn. lra. }
  destruct H as (c & Hc). rewrite Hc. unfold nnat. cbn [seq map app]. rewrite !nint_x. cbn [xreal nmul].
  eexists (_ :: _ :: _ :: _ :: _ :: _ :: _ :: _ :: _ :: _ :: []). cbn [map]. reflexivity.
Qed.
Lemma product_x (l : list R) dim : exists pts, product (map Fin l) dim = map (map Fin) pts.
Proof.
  induction dim as [|dim (pts & IH)]; [exists [[]]; reflexivity|]. cbn [product]. rewrite IH.
  exists (flat_map (fun v => map (cons v) pts) l). clear IH. induction l as [|a l IH]; [reflexivity|]. cbn [map flat_map].
  rewrite map_app, <- IH. f_equal. rewrite !map_map. reflexivity.
Qed.
Lemma grid_x dim lo hi : exists pts, grid xreal dim 10 (Fin lo) (Fin hi) = map (map Fin) pts /\ matrix (10 ^ dim) dim pts.
Proof.
  destruct (C75_grid xreal dim 10 (Fin lo) (Fin hi)) as [H1 H2]. revert H1 H2. unfold grid.
  destruct linspace_x as (l & ->). destruct (product_x l dim) as (pts & ->). intros H1 H2.
  set (f := fun x => x * (hi + - lo) + lo). exists (map (map f) pts).
  assert (E : map (map (fun v => nadd xreal (nmul xreal v (nsub xreal (Fin hi) (Fin lo))) (Fin lo))) (map (map Fin) pts) = map (map Fin) (map (map f) pts)).
  { rewrite !map_map. apply map_ext. intros p. rewrite !map_map. apply map_ext. intros x. reflexivity. }
  rewrite E in *. split; [reflexivity|]. rewrite map_length in H1. split; [exact H1|].
  apply Forall_map in H2. eapply Forall_impl; [|exact H2]. cbn. intros a Ha. now rewrite map_length in Ha.
Qed.

(** ** random functions *)
Section Functions.
  Context {G M : Type} (w : cpd_world X G) (gpr : gp X M) (fitted : nat -> M -> Prop) (value : M -> list R -> R).
  Hypothesis Hg : real_gp gpr fitted value.
  Hypothesis Hw : sane_global w.

  Lemma fn_loop_x d pts sd todo : (1 <= d)%nat -> matrix (10 ^ d) d pts -> (0 <= sd < 2 ^ 32)%Z -> (1 <= todo)%nat ->
    exists m, fitted d m /\ forall fns g, fn_loop gpr (cw_randint w) todo (map (map Fin) pts) (Some sd) fns g = (Ok (fns ++ repeat m todo)%list, g).
  Proof.
    intros Hd Hp Hs Ht. assert (Hn : (1 <= 10 ^ d)%nat) by (clear; induction d; cbn; lia).
    destruct (gr_sample _ _ _ Hg pts _ d sd Hn Hd Hp Hs) as (y & Ey & Ly). destruct (gr_fit _ _ _ Hg pts _ d y Hn Hd Hp Ly) as (m & Em & Fm).
    exists m. split; [exact Fm|]. clear Ht. induction todo as [|t IH]; intros fns g; cbn [fn_loop repeat]; [now rewrite app_nil_r|].
    rewrite Ey, Em, IH, <- app_assoc. reflexivity.
  Qed.
  Lemma make_rfun_x b d k g : (1 <= d)%nat -> (1 <= k)%nat ->
    exists m, fitted d m /\ make_rfun xreal w gpr b d k g = (Ok (k, repeat m k), snd (cw_randint w g)).
  Proof.
    intros Hd Hk. unfold make_rfun, random_nd_function. rewrite !nint_x. destruct (grid_x d (IZR (- b)) (IZR b)) as (pts & -> & Hp).
    destruct k as [|k]; [lia|]. rewrite fn_loop_unseeded. pose proof (sg_randint w Hw g) as Hr.
    destruct (fn_loop_x d pts (fst (cw_randint w g)) (S k) Hd Hp ltac:(lia) ltac:(lia)) as (m & Fm & E). exists m. split; [exact Fm|]. rewrite E. reflexivity.
  Qed.
  Lemma make_rfuns_x dims : Forall (fun d => (1 <= d)%nat) dims -> forall g, exists ms g',
    make_rfuns xreal w gpr dims g = (Ok (map (fun m => (1%nat, [m])) ms), g') /\ Forall2 fitted dims ms.
  Proof.
    induction 1 as [|d dims Hd _ IH]; intros g; [exists [], g; split; [reflexivity|constructor]|]. cbn [make_rfuns].
    destruct (make_rfun_x 2 d 1 g Hd ltac:(lia)) as (m & Fm & E). rewrite E. destruct (IH (snd (cw_randint w g))) as (ms & g' & E' & HF).
    rewrite E'. exists (m :: ms), g'. split; [reflexivity|]. now constructor.
  Qed.

  Lemma rcall_x d m k n rows : fitted d m -> (1 <= k)%nat -> (1 <= n)%nat -> matrix n d rows ->
    rcall gpr (k, repeat m k) (rmat d rows) = Ok (rmat k (map (fun row => repeat (value m row) k) rows)).
  Proof.
    intros Fm Hk Hn Hr. unfold rcall, out_f. cbn [fst snd].
    assert (Hm : mapM (fun i => match nth_error (repeat m k) i with
                                | None => Err IndexError
                                | Some m => do x' <- flatten_rows (rmat d rows); gp_predict gpr m x' end) (seq 0 k)
               = Ok (repeat (map Fin (map (value m) rows)) k)).
    { assert (Hf : flatten_rows (rmat d rows) = Ok (rmat d rows)).
      { unfold flatten_rows. rewrite alen_rmat, (proj1 Hr). destruct n; [lia|]. cbn [Nat.eqb]. unfold rmat. cbn [atail arows fold_right]. now rewrite Nat.mul_1_r. }
      rewrite Hf. cbn [bind]. pose proof (gr_predict _ _ _ Hg m n d rows Fm Hn Hr) as Ep.
      assert (H : forall l, (forall i, In i l -> (i < k)%nat) -> mapM (fun i => match nth_error (repeat m k) i with None => Err IndexError | Some m => gp_predict gpr m (rmat d rows) end) l
                = Ok (repeat (map Fin (map (value m) rows)) (length l))).
      { induction l as [|i l IH]; intros Hl; [reflexivity|]. cbn [mapM]. rewrite (nth_error_repeat m) by (apply Hl; now left). rewrite Ep. cbn [bind].
        rewrite IH by (intros j Hj; apply Hl; now right). reflexivity. }
      rewrite H by (intros i Hi; apply in_seq in Hi; lia). now rewrite seq_length. }
    rewrite Hm. cbn [bind]. clear Hm. destruct k as [|t]; [lia|]. cbn [repeat map]. unfold column_stack. cbn [map].
    set (v := map Fin (map (value m) rows)).
    assert (Ec : as_column (vec v) = mkArr [1%nat] (map (fun c => repeat c 1) v)) by (unfold as_column, vec; reflexivity).
    assert (Er : map as_column (map vec (repeat v t)) = repeat (mkArr [1%nat] (map (fun c => [c]) v)) t).
    { clear - Ec. induction t as [|t IH]; [reflexivity|]. cbn [repeat map]. rewrite IH, Ec. reflexivity. }
    rewrite Ec, Er, (hcats_repeat _ v) by reflexivity. unfold rmat, v. do 2 f_equal. rewrite !map_map. apply map_ext. intros row.
    cbn [plus repeat map]. f_equal. clear. induction t as [|t IH]; [reflexivity|]. cbn [repeat map]. now rewrite IH.
  Qed.

  (** sums of functions of the parents *)
  Definition column (l : list R) : arr X := rmat 1 (map (fun x => [x]) l).
  Lemma sum_columns n (ls : list (list R)) : Forall (fun l => length l = n) ls -> forall l0, length l0 = n ->
    exists t, sum_arrays xreal (map column (l0 :: ls)) = Ok (VArr (column t)) /\ length t = n
      /\ forall j, (j < n)%nat -> nth j t 0 = rsum (map (fun l => nth j l 0) (l0 :: ls)).
  Proof.
    intros Hls l0 H0. unfold sum_arrays. cbn [map].
    match goal with |- context [if ?c then _ else _] => assert (E : c = true) end.
    { apply forallb_forall. intros a Ha. apply in_map_iff in Ha as (l & <- & Hl). pose proof (proj1 (Forall_forall _ _) Hls l Hl) as Hll.
      destruct (list_eq_dec _ _ _) as [|C]; [reflexivity|]. exfalso. apply C. unfold vshape, column. rewrite !alen_rmat, !map_length, H0, Hll. reflexivity. }
    rewrite E. clear E. unfold column at 1. cbn [rmat atail].
    enough (H : forall l0, length l0 = n -> exists t, fold_left (fun acc b => map2 (map2 (nadd xreal)) acc (arows b)) (map column ls) (arows (column l0)) = arows (column t)
              /\ length t = n /\ forall j, (j < n)%nat -> nth j t 0 = nth j l0 0 + rsum (map (fun l => nth j l 0) ls)).
    { destruct (H l0 H0) as (t & E & Ht & Hv). exists t. rewrite E. split; [reflexivity|]. split; [exact Ht|]. intros j Hj. rewrite (Hv j Hj). reflexivity. }
    clear l0 H0. induction Hls as [|l ls Hl _ IH]; intros l0 H0; cbn [map fold_left].
    - exists l0. split; [reflexivity|]. split; [exact H0|]. intros j _. cbn [rsum]. lra.
    - assert (Ea : map2 (map2 (nadd xreal)) (arows (column l0)) (arows (column l)) = arows (column (map2 Rplus l0 l))).
      { unfold column, rmat. cbn [arows]. clear. revert l. induction l0 as [|a l0 IH]; intros [|b l]; try reflexivity. cbn [map map2]. f_equal. apply IH. }
      rewrite Ea. destruct (IH (map2 Rplus l0 l)) as (t & E & Ht & Hv); [rewrite map2_length; lia|]. exists t. split; [exact E|]. split; [exact Ht|].
      intros j Hj. rewrite (Hv j Hj), (nth_map2 Rplus l0 l j 0 0 0) by lia. cbn [rsum]. lra.
  Qed.
  Lemma sum_rfuns_x n ps ms : Forall2 (fun p m => fitted (fst p) m) ps ms -> samples_of n ps -> (1 <= n)%nat -> ps <> [] ->
    exists t, sum_rfuns xreal gpr (map (fun m => (1%nat, [m])) ms) (map sarr ps) = Ok (VArr (column t)) /\ length t = n
      /\ forall j, (j < n)%nat -> nth j t 0 = additive j ps (map value ms).
  Proof.
    intros HF Hs Hn Hne. unfold sum_rfuns. rewrite map_length.
    enough (H : forall qs ns, Forall2 (fun p m => fitted (fst p) m) qs ns -> samples_of n qs -> forall pre,
              mapM (fun jf => do p <- at_ (map sarr (pre ++ qs)) (fst jf); rcall gpr (snd jf) p) (combine (seq (length pre) (length ns)) (map (fun m => (1%nat, [m])) ns))
              = Ok (map column (map2 (fun p m => map (value m) (snd p)) qs ns))).
    { pose proof (H ps ms HF Hs []) as E0. cbn [app length] in E0. unfold rfun in E0 |- *. rewrite E0. clear E0. cbn [bind]. revert Hs Hne. destruct HF as [|p m ps ms Hp HF]; intros Hs Hne; [congruence|]. cbn [map2].
      inversion Hs as [|? ? Hp' Hs']; subst.
      destruct (sum_columns n (map2 (fun p m => map (value m) (snd p)) ps ms)) with (l0 := map (value m) (snd p)) as (t & E & Ht & Hv).
      { clear - HF Hs'. revert Hs'. induction HF as [|q m qs ns Hq _ IH]; intros Hs; cbn [map2]; [constructor|]. inversion Hs as [|? ? [Hq' _] Hs']; subst. constructor; [now rewrite map_length|now apply IH]. }
      { rewrite map_length. apply Hp'. }
      exists t. split; [exact E|]. split; [exact Ht|]. intros j Hj. rewrite (Hv j Hj). unfold additive. cbn [map map2 rsum].
      f_equal; [unfold unit_of; rewrite (nth_map_in _ _ j []) by (destruct Hp'; lia); reflexivity|].
      clear - HF Hs' Hj. revert Hs'. induction HF as [|q m qs ns Hq _ IH]; intros Hs; cbn [map map2 rsum]; [reflexivity|]. inversion Hs as [|? ? [Hq' _] Hs']; subst.
      rewrite (IH Hs'). f_equal. unfold unit_of. rewrite (nth_map_in _ _ j []) by lia. reflexivity. }
    clear ps ms HF Hs Hne. induction 1 as [|p m qs ns Hp HF IH]; intros Hs pre; [reflexivity|]. inversion Hs as [|? ? Hp' Hs']; subst.
    cbn [length seq map combine mapM fst snd].
    rewrite (at_ok _ (length pre) (sarr p)) by (rewrite map_length, app_length; cbn; lia). rewrite map_nth, app_nth2, Nat.sub_diag by lia. cbn [nth bind].
    unfold sarr at 1. pose proof (rcall_x (fst p) m 1 n (snd p) Hp ltac:(lia) Hn Hp') as Ec. cbn [repeat] in Ec. rewrite Ec. cbn [bind map2 map].
    specialize (IH Hs' (pre ++ [p])%list). rewrite <- app_assoc, app_length, Nat.add_1_r in IH. cbn [app] in IH. rewrite IH. cbn [bind].
    assert (Ecol : column (map (value m) (snd p)) = rmat 1 (map (fun row => [value m row]) (snd p))) by (unfold column; now rewrite map_map).
    rewrite Ecol. reflexivity.
  Qed.
  (** more functions than parents *)
  Lemma sum_rfuns_short n ps : samples_of n ps -> (1 <= n)%nat -> forall ms, Forall2 fitted (map fst ps) (firstn (length ps) ms) -> (length ps < length ms)%nat ->
    sum_rfuns xreal gpr (map (fun m => (1%nat, [m])) ms) (map sarr ps) = Err IndexError.
  Proof.
    intros Hs Hn ms HF Hl. unfold sum_rfuns. rewrite map_length.
    enough (H : forall qs, samples_of n qs -> forall ns pre, Forall2 fitted (map fst qs) (firstn (length qs) ns) -> (length qs < length ns)%nat ->
              mapM (fun jf => do p <- at_ (map sarr (pre ++ qs)) (fst jf); rcall gpr (snd jf) p) (combine (seq (length pre) (length ns)) (map (fun m => (1%nat, [m])) ns))
              = Err IndexError).
    { pose proof (H ps Hs ms [] HF Hl) as E0. cbn [app length] in E0. unfold rfun in E0 |- *. now rewrite E0. }
    clear ps ms Hs HF Hl. induction qs as [|p qs IH]; intros Hs [|m ns] pre HF Hl; try (cbn in Hl; lia); cbn [length seq map combine mapM fst snd].
    - rewrite at_err by (rewrite map_length, app_length; cbn; lia). reflexivity.
    - inversion Hs as [|? ? Hp' Hs']; subst. cbn [length firstn map] in HF. inversion HF as [|? ? ? ? Hp HF']; subst.
      rewrite (at_ok _ (length pre) (sarr p)) by (rewrite map_length, app_length; cbn; lia). rewrite map_nth, app_nth2, Nat.sub_diag by lia. cbn [nth bind].
      unfold sarr at 1. pose proof (rcall_x (fst p) m 1 n (snd p) Hp ltac:(lia) Hn Hp') as Ec. cbn [repeat] in Ec. rewrite Ec. cbn [bind].
      specialize (IH Hs' ns (pre ++ [p])%list HF' ltac:(cbn in Hl; lia)). rewrite <- app_assoc, app_length, Nat.add_1_r in IH. cbn [app] in IH. rewrite IH. reflexivity.
  Qed.
End Functions.
