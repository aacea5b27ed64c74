(** Arithmetic of arrays over the reals, for the conditional distributions. *)
From Coq Require Import String List Arith ZArith Reals Bool Lia Lra.
From Verif Require Import PyBase PyLemmas Num NumOps NumLaws DataModel ScmModel TabSpec TabReal ParamModel ParamProofs ParamProofs2 ParamProofs5 PaperModel PaperProofs4 ExampleSpec ExampleProps CpdModel CpdSpec.
Import ListNotations.
Open Scope R_scope.

Lemma entries_vec {N} (l : list N) : entries (vec l) = l.
Proof. unfold entries, vec. cbn [arows]. induction l as [|a l IH]; [reflexivity|]. cbn [map List.concat app]. now rewrite IH. Qed.
Lemma alen_vec {N} (l : list N) : alen (vec l) = length l.
Proof. unfold alen, vec. cbn [arows]. apply map_length. Qed.
Lemma alen_rmat d rows : alen (rmat d rows) = length rows.
Proof. unfold alen, rmat. cbn [arows]. apply map_length. Qed.

Lemma map2_map {A B C A' B'} (f : A' -> B' -> C) (u : A -> A') (v : B -> B') l : forall m,
  map2 f (map u l) (map v m) = map2 (fun a b => f (u a) (v b)) l m.
Proof. induction l as [|a l IH]; intros [|b m]; cbn [map map2]; trivial. now rewrite IH. Qed.
Lemma map_map2 {A B C D} (h : C -> D) (f : A -> B -> C) l : forall m, map h (map2 f l m) = map2 (fun a b => h (f a b)) l m.
Proof. induction l as [|a l IH]; intros [|b m]; cbn [map map2]; trivial. now rewrite IH. Qed.
Lemma nth_map2 {A B C} (f : A -> B -> C) l : forall m i da db dc, (i < length l)%nat -> (i < length m)%nat ->
  nth i (map2 f l m) dc = f (nth i l da) (nth i m db).
Proof. induction l as [|a l IH]; intros [|b m] [|i] da db dc Hl Hm; cbn in *; try lia; trivial. apply IH; lia. Qed.
Lemma map2_len {A B C} (f : A -> B -> C) l m n : length l = n -> length m = n -> length (map2 f l m) = n.
Proof. intros H1 H2. rewrite map2_length'. lia. Qed.
Lemma repeat_one {A} (l : list A) : length l = 1%nat -> exists x, l = [x].
Proof. destruct l as [|x [|]]; cbn; try lia. eauto. Qed.
Lemma stretch_full {A} k (l : list A) : length l = k -> stretch k l = l.
Proof. intros H. destruct l as [|x [|y l]]; try reflexivity. cbn in H. subst k. reflexivity. Qed.

(** ** addition of arrays of one shape *)
Lemma vop_vec f (u v : list X) : length u = length v ->
  vop f (VArr (vec u)) (VArr (vec v)) = Ok (VArr (vec (map2 f u v))).
Proof. intros H. unfold vop. cbn [vec atail]. fold (vec u) (vec v). rewrite !entries_vec, bzip_eq by exact H. reflexivity. Qed.
Lemma vop_rvec u v : length u = length v ->
  vop (nadd xreal) (VArr (rvec u)) (VArr (rvec v)) = Ok (VArr (rvec (map2 Rplus u v))).
Proof.
  intros H. unfold rvec. rewrite vop_vec by now rewrite !map_length. now rewrite map_map2, map2_map.
Qed.
Lemma vop_rmat n k A B : matrix n k A -> matrix n k B ->
  vop (nadd xreal) (VArr (rmat k A)) (VArr (rmat k B)) = Ok (VArr (rmat k (map2 (map2 Rplus) A B))).
Proof.
  intros [HA KA] [HB KB]. unfold vop, rmat. cbn [atail arows]. unfold alen, bcast2, baxis. cbn [arows].
  rewrite !map_length, HA, HB, !Nat.eqb_refl. cbn [bind]. do 3 f_equal.
  rewrite !stretch_full by (now rewrite map_length). rewrite map_map2, map2_map.
  clear HA HB. revert B KB. induction A as [|r A IH]; intros [|s B] KB; cbn [map2]; trivial.
  inversion KA as [|? ? Hr KA']; inversion KB as [|? ? Hs KB']; subst. f_equal.
  - unfold row_op. rewrite !stretch_full by (now rewrite map_length). now rewrite map2_map, map_map2.
  - now apply IH.
Qed.
Lemma matrix_add n k A B : matrix n k A -> matrix n k B -> matrix n k (map2 (map2 Rplus) A B).
Proof.
  intros [HA KA] [HB KB]. split; [now apply map2_len|]. apply Forall_forall. intros r Hr.
  apply In_nth with (d := []) in Hr as (i & Hi & <-). rewrite map2_length' in Hi.
  rewrite (nth_map2 _ _ _ _ [] []) by lia. rewrite Forall_forall in KA, KB.
  apply map2_len; [apply KA|apply KB]; apply nth_In; lia.
Qed.

(** ** dot products *)
Lemma inner_rdot u v : inner u v = rdot u v. Proof. reflexivity. Qed.
Lemma adot_vec d rows b : length b = d ->
  adot xreal (rmat d rows) (VArr (rvec b)) = Ok (VArr (rvec (map (fun r => inner r b) rows))).
Proof.
  intros H. unfold adot, rmat, rvec. cbn [atail arows vec]. fold (vec (map Fin b)).
  rewrite alen_vec, map_length, H, Nat.eqb_refl, entries_vec. do 3 f_equal. rewrite !map_map. apply map_ext.
  intros r. apply vdot_x.
Qed.
Lemma cols_dot_x k r B : Forall (fun r => length r = k) B ->
  cols_dot xreal k (map Fin r) (map (map Fin) B) = map Fin (map (fun c => inner r (rcol c B)) (seq 0 k)).
Proof.
  intros H. unfold cols_dot. rewrite map_map. apply map_ext_in. intros c Hc. apply in_seq in Hc.
  rewrite (col_x k) by (trivial; lia). apply vdot_x.
Qed.
Lemma adot_mat d k rows B : matrix d k B ->
  adot xreal (rmat d rows) (VArr (rmat k B)) =
  Ok (VArr (rmat k (map (fun r => map (fun c => inner r (rcol c B)) (seq 0 k)) rows))).
Proof.
  intros [HB KB]. unfold adot, rmat. cbn [atail arows]. unfold alen. cbn [arows]. rewrite map_length, HB, Nat.eqb_refl.
  do 3 f_equal. rewrite !map_map. apply map_ext. intros r. now apply cols_dot_x.
Qed.

(** ** the sum over the parents *)
Lemma vadd_in_rvec u v : length u = length v ->
  vadd_in xreal (VArr (rvec u)) (VArr (rvec v)) = Ok (VArr (rvec (map2 Rplus u v))).
Proof.
  intros H. unfold vadd_in. rewrite vop_rvec by exact H. cbn [bind].
  destruct (list_eq_dec Nat.eq_dec _ _) as [_|C]; [reflexivity|]. exfalso. apply C. unfold vshape, rvec. rewrite !alen_vec, !map_length.
  f_equal. rewrite map2_length'. lia.
Qed.
Lemma vadd_in_rmat n k A B : matrix n k A -> matrix n k B ->
  vadd_in xreal (VArr (rmat k A)) (VArr (rmat k B)) = Ok (VArr (rmat k (map2 (map2 Rplus) A B))).
Proof.
  intros HA HB. unfold vadd_in. rewrite (vop_rmat n) by assumption. cbn [bind].
  destruct (list_eq_dec Nat.eq_dec _ _) as [_|C]; [reflexivity|]. exfalso. apply C. unfold vshape. rewrite !alen_rmat.
  f_equal. rewrite (proj1 (matrix_add _ _ _ _ HA HB)). symmetry. apply HA.
Qed.

Lemma linear_cons j p ps b bs : linear j (p :: ps) (b :: bs) = inner (unit_of j p) b + linear j ps bs.
Proof. reflexivity. Qed.
Lemma linear_at_cons j c p ps b bs : linear_at j c (p :: ps) (b :: bs) = inner (unit_of j p) (rcol c b) + linear_at j c ps bs.
Proof. reflexivity. Qed.

Lemma at_skipn {A} (l : list A) : forall i x t, skipn i l = x :: t -> at_ l i = Ok x /\ skipn (S i) l = t.
Proof.
  unfold at_. induction l as [|a l IH]; intros [|i] x t H; cbn in *; try discriminate.
  - injection H as -> ->. auto.
  - now apply IH.
Qed.
Lemma at_past {A} (l : list A) i : skipn i l = [] -> at_ l i = Err IndexError.
Proof.
  intros H. unfold at_. destruct (nth_error l i) eqn:E; [|reflexivity]. exfalso.
  apply (f_equal (@length A)) in H. rewrite skipn_length in H. cbn in H.
  assert (i < length l)%nat by (apply nth_error_Some; congruence). lia.
Qed.

Lemma add_parents_vec n : forall ps bs, fits ps bs -> samples_of n ps ->
  forall betas extra i t, skipn i betas = (map (fun b => VArr (rvec b)) bs ++ extra)%list -> length t = n ->
  exists t', add_parents xreal (fun _ x => Ok x) betas (map sarr ps) i (VArr (rvec t)) = Ok (VArr (rvec t'))
    /\ length t' = n /\ forall j, (j < n)%nat -> nth j t' 0 = nth j t 0 + linear j ps bs.
Proof.
  induction 1 as [|p b ps bs Hb Hf IH]; intros Hs betas extra i t Hbs Ht.
  - exists t. split; [reflexivity|]. split; [exact Ht|]. intros j _. unfold linear. cbn. lra.
  - inversion Hs as [|? ? [Hn Hd] Hs']; subst. cbn [map app] in Hbs. apply at_skipn in Hbs as (Ea & Hk).
    cbn [map add_parents]. rewrite Ea. cbn [bind]. unfold sarr at 1. rewrite adot_vec by exact Hb. cbn [bind].
    rewrite vadd_in_rvec by (rewrite map_length; congruence). cbn [bind].
    destruct (IH Hs' betas extra (S i) (map2 Rplus t (map (fun r => inner r b) (snd p))) Hk) as (t' & E & Ht' & Hv).
    { apply map2_len; [reflexivity|]. now rewrite map_length. }
    exists t'. split; [exact E|]. split; [exact Ht'|]. intros j Hj. rewrite (Hv j Hj), linear_cons.
    rewrite (nth_map2 _ _ _ _ 0 0) by (rewrite ?map_length; lia). rewrite (nth_map_in _ _ j []) by lia. unfold unit_of. lra.
Qed.

Lemma add_parents_mat n k : forall ps bs, fits_at k ps bs -> samples_of n ps ->
  forall betas extra i t, skipn i betas = (map (fun b => VArr (rmat k b)) bs ++ extra)%list -> matrix n k t ->
  exists t', add_parents xreal (fun _ x => Ok x) betas (map sarr ps) i (VArr (rmat k t)) = Ok (VArr (rmat k t'))
    /\ matrix n k t' /\ forall j c, (j < n)%nat -> (c < k)%nat -> nth c (nth j t' []) 0 = nth c (nth j t []) 0 + linear_at j c ps bs.
Proof.
  induction 1 as [|p b ps bs Hb Hf IH]; intros Hs betas extra i t Hbs Ht.
  - exists t. split; [reflexivity|]. split; [exact Ht|]. intros j c _ _. unfold linear_at. cbn. lra.
  - inversion Hs as [|? ? [Hn Hd] Hs']; subst. cbn [map app] in Hbs. apply at_skipn in Hbs as (Ea & Hk).
    cbn [map add_parents]. rewrite Ea. cbn [bind]. unfold sarr at 1. rewrite adot_mat by exact Hb. cbn [bind].
    set (M := map (fun r => map (fun c => inner r (rcol c b)) (seq 0 k)) (snd p)).
    assert (HM : matrix (length (snd p)) k M).
    { split; [apply map_length|]. apply Forall_forall. intros r Hr. apply in_map_iff in Hr as (x & <- & _). now rewrite map_length, seq_length. }
    rewrite (vadd_in_rmat (length (snd p))) by assumption. cbn [bind].
    destruct (IH Hs' betas extra (S i) (map2 (map2 Rplus) t M) Hk) as (t' & E & Ht' & Hv).
    { now apply matrix_add. }
    exists t'. split; [exact E|]. split; [exact Ht'|]. intros j c Hj Hc. rewrite (Hv j c Hj Hc), linear_at_cons.
    destruct Ht as [Ht1 Ht2]. rewrite Forall_forall in Ht2.
    assert (El : length (nth j t []) = k) by (apply Ht2, nth_In; lia).
    rewrite (nth_map2 _ t _ j [] []) by (unfold M; rewrite ?map_length; lia).
    unfold M at 1. rewrite (nth_map_in _ _ j []) by lia.
    rewrite (nth_map2 _ _ _ c 0 0) by (rewrite ?map_length, ?seq_length; lia).
    rewrite (nth_map_in _ _ c 0%nat) by (rewrite seq_length; lia). rewrite seq_nth by lia. unfold unit_of. cbn [Nat.add]. lra.
Qed.

(** ** noise *)
Lemma per_draw_num {N} n (x : N) : per_draw n (VNum x) = Ok (repeat x n). Proof. reflexivity. Qed.
Lemma sqrt_x c : 0 <= c -> nsqrt xreal (Fin c) = Fin (sqrt c).
Proof. intros H. cbn [xreal nsqrt xsqrt]. unfold xsqrt. destruct (Rlt_dec c 0); [lra|reflexivity]. Qed.

Lemma normal_noise_x {G} (w : cpd_world X G) m c n g es g' : 0 <= c ->
  cw_normal w (repeat (Fin m) n) (repeat (Fin (sqrt c)) n) g = (Ok (map Fin es), g') ->
  normal_noise xreal w (VNum (Fin m)) (VNum (Fin c)) n g = (Ok (VArr (rvec es)), g').
Proof.
  intros Hc E. unfold normal_noise. cbn [vmap]. rewrite !per_draw_num, sqrt_x by exact Hc. cbn [bind]. rewrite E. reflexivity.
Qed.
Lemma mv_noise_x {G} (w : cpd_world X G) ms cov n g es g' : matrix (length ms) (length ms) cov ->
  cw_mvnormal w (map Fin ms) (map (map Fin) cov) n g = (Ok (map (map Fin) es), g') ->
  mv_noise w (VArr (rvec ms)) (VArr (rmat (length ms) cov)) n g = (Ok (VArr (rmat (length ms) es)), g').
Proof.
  intros [Hc _] E. unfold mv_noise, rvec at 1. cbn [vec atail rmat]. fold (vec (map Fin ms)). fold (rmat (length ms) cov).
  fold (rvec ms). rewrite alen_rmat, Hc, Nat.eqb_refl. unfold rvec. rewrite alen_vec, map_length, Nat.eqb_refl. cbn [andb].
  rewrite entries_vec. unfold rmat at 1. cbn [arows]. rewrite E. reflexivity.
Qed.

(** ** the logistic function *)
Lemma sigmoid_x x : sigmoid xreal (Fin x) = Fin (sigm x).
Proof.
  unfold sigmoid, sigm. rewrite !nint_x. cbn [xreal nsub nexp nadd ndiv xsub xneg xadd xexp].
  pose proof (exp_pos (- x)). rewrite xdiv_fin by (replace (0 + - x) with (- x) by lra; lra).
  f_equal. now replace (0 + - x) with (- x) by lra.
Qed.
Lemma sigm_open x : 0 < sigm x < 1.
Proof.
  unfold sigm. pose proof (exp_pos (- x)). split.
  - apply Rdiv_lt_0_compat; lra.
  - apply (Rmult_lt_reg_r (1 + exp (- x))); [lra|]. unfold Rdiv. rewrite Rmult_assoc, Rinv_l by lra. lra.
Qed.

(** rows of single entries *)
Lemma rows_like_singles {A} (shape : list A) : forall l, length l = length shape ->
  rows_like (map (fun v => [v]) shape) l = map (fun v => [v]) l.
Proof.
  induction shape as [|a s IH]; intros [|x l] H; cbn in *; try lia; trivial. f_equal. apply IH. lia.
Qed.

(** ** the shapes of noise *)
Lemma flatten_rvec xs : vflatten (VArr (rvec xs)) = VArr (rvec xs).
Proof. unfold vflatten, rvec. now rewrite entries_vec. Qed.
Lemma flatten_column xs : vflatten (VArr (rmat 1 (map (fun x => [x]) xs))) = VArr (rvec xs).
Proof.
  unfold vflatten, rvec. do 2 f_equal. unfold entries, rmat. cbn [arows]. induction xs as [|x xs IH]; [reflexivity|].
  cbn [map List.concat app]. now rewrite IH.
Qed.
Lemma flatten_one v xs : one_dim v xs -> vflatten v = VArr (rvec xs).
Proof. intros [-> | ->]; [apply flatten_rvec|apply flatten_column]. Qed.

Lemma per_draw_unit n v l : per_unit n v l -> per_draw n v = Ok (map Fin l).
Proof.
  intros [r|r|rs H].
  - now rewrite per_draw_num, repeat_fin.
  - unfold per_draw, rvec. cbn [vec atail]. fold (vec (map Fin [r])). rewrite alen_vec, entries_vec. cbn [map List.length].
    destruct (Nat.eqb_spec 1 n) as [<-|_]; [reflexivity|]. now rewrite repeat_fin.
  - unfold per_draw, rvec. cbn [vec atail]. fold (vec (map Fin rs)). now rewrite alen_vec, entries_vec, map_length, H, Nat.eqb_refl.
Qed.
Lemma map_rep {A B} (f : A -> B) x n : map f (repeat x n) = repeat (f x) n.
Proof. induction n as [|n IH]; [reflexivity|]. cbn [repeat map]. now rewrite IH. Qed.
Lemma per_unit_sqrt n v l : per_unit n v l -> Forall (fun r => 0 <= r) l ->
  per_draw n (vmap (nsqrt xreal) v) = Ok (map Fin (map sqrt l)).
Proof.
  intros Hv Hl. destruct Hv as [r|r|rs H].
  - cbn [vmap]. rewrite per_draw_num. destruct n as [|n]; [reflexivity|]. inversion Hl; subst. rewrite sqrt_x by assumption.
    now rewrite map_rep, repeat_fin.
  - change (vmap (nsqrt xreal) (VArr (rvec [r]))) with (VArr (vec [nsqrt xreal (Fin r)])).
    destruct n as [|n]; [reflexivity|]. inversion Hl; subst. rewrite sqrt_x by assumption.
    change (vec [Fin (sqrt r)]) with (rvec [sqrt r]). rewrite map_rep. apply per_draw_unit, PU_one.
  - assert (E : vmap (nsqrt xreal) (VArr (rvec rs)) = VArr (rvec (map sqrt rs))).
    { clear H. unfold vmap, amap, rvec, vec. cbn [atail arows]. do 2 f_equal. rewrite !map_map. apply map_ext_in. intros r Hr. cbn [map].
      rewrite sqrt_x; [reflexivity|]. rewrite Forall_forall in Hl. auto. }
    rewrite E. apply per_draw_unit, PU_each. now rewrite map_length.
Qed.

Lemma normal_noise_u {G} (w : cpd_world X G) mean cov ms cs n g es g' :
  per_unit n mean ms -> per_unit n cov cs -> Forall (fun c => 0 <= c) cs ->
  cw_normal w (map Fin ms) (map Fin (map sqrt cs)) g = (Ok (map Fin es), g') ->
  normal_noise xreal w mean cov n g = (Ok (VArr (rvec es)), g').
Proof.
  intros Hm Hc Hp E. unfold normal_noise. rewrite (per_draw_unit n mean ms Hm), (per_unit_sqrt n cov cs Hc Hp). cbn [bind].
  now rewrite E.
Qed.

Lemma hcats_rmat n : forall ps d rows, matrix n d rows -> samples_of n ps ->
  hcats (rmat d rows) (map sarr ps) =
  Ok (rmat (d + list_sum (map fst ps)) (map (fun j => nth j rows [] ++ List.concat (map (unit_of j) ps))%list (seq 0 n))).
Proof.
  induction ps as [|p ps IH]; intros d rows [Hr Hd] Hs.
  - cbn [map hcats]. f_equal. rewrite Nat.add_0_r. f_equal. rewrite (list_eta rows []) at 1. rewrite Hr. apply map_ext. intros j.
    cbn [map List.concat]. now rewrite app_nil_r.
  - inversion Hs as [|? ? [H1 H2] H3]; subst x l. cbn [map hcats]. unfold hcat, sarr at 1, rmat at 1. cbn [atail].
    unfold sarr at 1, rmat at 1. cbn [atail]. destruct (list_eq_dec Nat.eq_dec [] []) as [_|C]; [|congruence].
    rewrite alen_rmat. unfold sarr. rewrite alen_rmat, Hr, H1, Nat.eqb_refl. cbn [andb bind].
    assert (E : mkArr [(d + fst p)%nat] (map2 (@app X) (arows (rmat d rows)) (arows (rmat (fst p) (snd p))))
                = rmat (d + fst p) (map2 (@app R) rows (snd p))).
    { unfold rmat. cbn [arows]. f_equal. rewrite map2_map, map_map2. clear. revert rows. induction (snd p) as [|b m IH]; intros [|a l]; cbn [map2]; trivial.
      now rewrite IH, map_app. }
    fold (rmat (fst p) (snd p)). fold sarr. rewrite E. change (map sarr ps) with (map sarr ps). rewrite IH; [|split|exact H3].
    + cbn [map list_sum fold_right]. rewrite Nat.add_assoc. do 2 f_equal. apply map_ext_in. intros j Hj. apply in_seq in Hj.
      rewrite (nth_map2 _ _ _ j [] []) by lia. cbn [List.concat]. now rewrite app_assoc.
    + now apply map2_len.
    + apply Forall_forall. intros r Hr'. apply In_nth with (d := []) in Hr' as (i & Hi & <-). rewrite map2_length' in Hi.
      rewrite (nth_map2 _ _ _ i [] []) by lia. rewrite Forall_forall in Hd, H2. rewrite app_length, Hd, H2; [reflexivity| |]; apply nth_In; lia.
Qed.
Lemma column_stack_samples n ps : ps <> [] -> samples_of n ps -> column_stack (map sarr ps) = Ok (features n ps).
Proof.
  intros Hne Hs. destruct ps as [|p ps]; [now destruct Hne|]. inversion Hs as [|? ? H1 H2]; subst x l. unfold column_stack.
  assert (E : forall l, map (@as_column X) (map sarr l) = map sarr l).
  { intros l. rewrite map_map. apply map_ext. intros q. reflexivity. }
  rewrite E. cbn [map]. unfold sarr at 1. rewrite (hcats_rmat n) by assumption. reflexivity.
Qed.
