(** Proofs about paper_utils.py: the masks against the layout of generated covariates. *)
From Coq Require Import List Arith ZArith Lia Bool String.
From Verif Require Import PyBase Num NumOps DataModel ScmModel ScmSpec ScmProofs ScmProps BanditModel ArmModel
  ParamModel PaperModel PaperSpec PaperProofs PaperProofs2.
Import ListNotations.
Open Scope nat_scope.
Open Scope string_scope.

(** the variables after Z0 *)
Lemma nth_layout m : forall b, b < 2 * m ->
  nth b (flat_map (fun i => [Vn i; Zn i]) (seq 1 m)) "" = block_var b.
Proof.
  assert (H : forall m a b, b < 2 * m ->
    nth b (flat_map (fun i => [Vn i; Zn i]) (seq a m)) "" =
    if Nat.even b then Vn (b / 2 + a) else Zn (b / 2 + a)).
  { clear m. induction m as [|m IH]; intros a b Hb; [lia|]. cbn [seq flat_map app].
    destruct b as [|[|b]]; [reflexivity|reflexivity|]. cbn [nth]. rewrite IH by lia.
    replace (S (S b) / 2) with (S (b / 2)).
    - cbn [Nat.even]. replace (S (b / 2) + a) with (b / 2 + S a) by lia. reflexivity.
    - symmetry. replace (S (S b)) with (1 * 2 + b) by lia. rewrite Nat.div_add_l by lia. reflexivity. }
  intros b Hb. apply H, Hb.
Qed.

Lemma length_layout m : List.length (layout m) = S (2 * m).
Proof.
  unfold layout. cbn [List.length]. f_equal.
  assert (H : forall k a, List.length (flat_map (fun i => [Vn i; Zn i]) (seq a k)) = 2 * k); [|apply H].
  induction k as [|k IH]; intro a; [reflexivity|]. cbn [seq flat_map app List.length]. rewrite IH. lia.
Qed.

Lemma block_var_wrong m i b : 1 <= i <= m ->
  read_var m b i <> (if observes_v b i then Vn i else Zn i).
Proof.
  intro Hi. unfold read_var, block_var. destruct (observes_v b i).
  - destruct (Nat.even (m + i - 1)) eqn:E; [|discriminate].
    intro H. apply Vn_inj in H. apply Nat.even_spec in E as (q & Eq). rewrite Eq in H.
    rewrite (Nat.mul_comm 2 q), Nat.div_mul in H by lia. lia.
  - destruct (Nat.even (i - 1)) eqn:E; [discriminate|].
    intro H. apply Zn_inj in H.
    pose proof (Nat.div_lt (i - 1) 2). destruct (Nat.eq_dec i 1) as [->|]; [discriminate E|]. lia.
Qed.

Section Run.
  Context {V G : Type}.

  Lemma Forall2_nth_r {A B} (R : A -> B -> Prop) l1 l2 da db b : Forall2 R l1 l2 -> b < List.length l2 ->
    R (nth b l1 da) (nth b l2 db).
  Proof.
    intro H. revert b. induction H; intros [|b] Hb; cbn in *; try lia; trivial. apply IHForall2. lia.
  Qed.

  Definition dims_layout (zd vd : list nat) (m : nat) : list nat :=
    nth 0 zd 0 :: flat_map (fun i => [nth i vd 0; nth i zd 0]) (seq 1 m).

  Lemma shaped_width k (a : arr V) : shaped k a -> width a = k.
  Proof. intros (H & _). unfold width. now rewrite H. Qed.

  Lemma cols_shaped zd vd m (sample : string -> arr V -> Prop) cols :
    has_dims zd vd m sample -> Forall2 sample (layout m) cols ->
    map width cols = dims_layout zd vd m /\ (forall c, In c cols -> shaped (width c) c).
  Proof.
    intros (H0 & HZ & HV) HF. unfold layout, dims_layout in *. inversion HF as [|? a0 ? rest Ha0 HF' E1 E2]; subst.
    assert (Hrest : map width rest = flat_map (fun i => [nth i vd 0; nth i zd 0]) (seq 1 m) /\
                    (forall c, In c rest -> shaped (width c) c)).
    { clear HF Ha0. assert (Hb : forall i, In i (seq 1 m) -> 1 <= i <= m) by (intros i Hi; apply in_seq in Hi; lia).
      revert rest HF' Hb. induction (seq 1 m) as [|i l IH]; cbn [flat_map app]; intros rest HF' Hb.
      - inversion HF'; subst. split; [reflexivity|intros c []].
      - inversion HF' as [|? v ? r1 Hv HF1 E1 E2]; subst. inversion HF1 as [|? z ? r2 Hz HF2 E1 E2]; subst.
        destruct (IH r2 HF2) as (Ew & Es); [intros; apply Hb; now right|].
        specialize (Hb i (or_introl eq_refl)).
        pose proof (HV i v Hb Hv) as Sv. pose proof (HZ i z Hb Hz) as Sz.
        cbn [map]. rewrite (shaped_width _ _ Sv), (shaped_width _ _ Sz), Ew. split; [reflexivity|].
        intros c [<-|[<-|Hc]]; [rewrite (shaped_width _ _ Sv); exact Sv|rewrite (shaped_width _ _ Sz); exact Sz|auto]. }
    destruct Hrest as (Ew & Es). specialize (H0 a0 Ha0). cbn [map]. rewrite (shaped_width _ _ H0), Ew.
    split; [reflexivity|]. intros c [<-|Hc]; [rewrite (shaped_width _ _ H0); exact H0|auto].
  Qed.

  (** everything known about a run of the SCM of the example *)
  Lemma run_facts m (cpds : sdict (cpd V G)) s n g d g' log zd vd :
    paper_scm m cpds = Ok s ->
    generate (logging s) n (g, []) = (Ok d, (g', log)) -> has_dims zd vd m (latest log) ->
    exists cols x, Forall2 (latest log) (layout m) cols /\ side_by_side cols x /\ dcov d = Some x /\
      n_units d = List.length (arows x) /\ map width cols = dims_layout zd vd m /\
      (forall c, In c cols -> shaped (width c) c) /\ atail x = [list_sum (dims_layout zd vd m)].
  Proof.
    intros Es Hg Hd.
    assert (Hgen : generate s n g = (Ok d, g')).
    { destruct (C21_calls s n g) as (log' & E & _). rewrite Hg in E.
      destruct (generate s n g) as [r1 g1]. cbn [fst snd] in E. injection E as <- <- <-. reflexivity. }
    destruct (C21_result s n g d g' Hgen) as (log' & E & _ & _ & cols & x & t & y & HF & Hside & _ & _ & Hx & _ & _ & Hn & _).
    rewrite Hg in E. injection E as <-.
    destruct (paper_scm_ok m cpds (proj1 (paper_scm_inv _ _ _ Es))) as (s' & E' & _ & _ & Hcov & _).
    rewrite Es in E'. injection E' as <-. rewrite Hcov in HF.
    destruct (cols_shaped zd vd m (latest log) cols Hd HF) as (Hw & Hsh).
    exists cols, x. do 6 (split; [assumption|]).
    destruct Hside as (Hne & (tl' & Ht & Htl) & _). rewrite Ht, Hw. f_equal.
    destruct cols as [|c cols]; [contradiction|]. rewrite <- (Htl c) by now left.
    destruct (Hsh c (or_introl eq_refl)) as (Hc & _). rewrite Hc. reflexivity.
  Qed.

  Lemma latest_fun (log : list (call V)) v a b : latest log v a -> latest log v b -> a = b.
  Proof.
    intros (p1 & c1 & q1 & E1 & V1 & O1 & N1) (p2 & c2 & q2 & E2 & V2 & O2 & N2).
    assert (H : forall (p1 p2 q1 q2 : list (call V)) c1 c2, (p1 ++ c1 :: q1 = p2 ++ c2 :: q2)%list ->
      c_var c1 = v -> c_var c2 = v -> ~ In v (map c_var q1) -> ~ In v (map c_var q2) -> c1 = c2).
    { clear. induction p1 as [|x p1 IH]; intros [|y p2] q1 q2 c1 c2 E V1 V2 N1 N2; cbn in E.
      - now inversion E.
      - inversion E; subst. exfalso. apply N1. rewrite map_app. apply in_or_app. right. left. congruence.
      - inversion E; subst. exfalso. apply N2. rewrite map_app. apply in_or_app. right. left. congruence.
      - injection E as _ E. apply (IH p2 q1 q2); assumption. }
    assert (c1 = c2) by (apply (H p1 p2 q1 q2); trivial; congruence). subst. congruence.
  Qed.

  Lemma select_fn_list (k : mask) (d : expdata V) x w : dcov d = Some x -> atail x = [w] ->
    (forall l, k <> MArr false l) -> Forall (fun j => j < w) (mask_list k) ->
    select_fn k d = Ok (ed_init (Some (mkArr [List.length (mask_list k)] (map (take_at (mask_list k)) (arows x))))
                          (dexp d) (drsp d)).
  Proof.
    intros Hx Hw Hk HF. unfold select_fn. destruct k as [l|[|] l].
    - now apply mask_fn_take with w.
    - now apply mask_fn_take with w.
    - exfalso. now apply (Hk l).
  Qed.

  (** ** Z0 *)
  Lemma z0_read m (cpds : sdict (cpd V G)) s n g d g' log zd vd :
    paper_scm m cpds = Ok s -> generate (logging s) n (g, []) = (Ok d, (g', log)) ->
    has_dims zd vd m (latest log) ->
    exists r c a, select_fn (MList (z_block zd 0)) d = Ok r /\ dcov r = Some c /\ latest log "Z0" a /\
      c = a /\ dexp r = dexp d /\ drsp r = drsp d.
  Proof.
    intros Es Hg Hd. destruct (run_facts m cpds s n g d g' log zd vd Es Hg Hd)
      as (cols & x & HF & Hside & Hx & Hn & Hw & Hsh & Hat).
    destruct cols as [|a cols]; [inversion HF|].
    assert (Ha : latest log "Z0" a) by (inversion HF; trivial).
    assert (Hwa : width a = nth 0 zd 0) by (injection Hw; trivial).
    rewrite (select_fn_list (MList (z_block zd 0)) d x _ Hx Hat).
    - do 2 eexists. exists a. split; [reflexivity|]. cbn [ed_init dcov dexp drsp]. split; [reflexivity|].
      split; [exact Ha|]. split; [|split; reflexivity].
      assert (Hrows : map (take_at (z_block zd 0)) (arows x) = arows a).
      { apply (nth_ext _ _ [] []).
        - rewrite map_length. destruct Hside as (_ & _ & Hl & _). symmetry. apply Hl. now left.
        - intros i Hi. rewrite map_length in Hi.
          rewrite (nth_indep _ [] (take_at (z_block zd 0) [])), map_nth by (rewrite map_length; exact Hi).
          pose proof (block_read (a :: cols) x i 0 Hside Hi) as HB. cbn [nth map firstn List.length] in HB.
          rewrite Hwa in HB. unfold z_block. cbn [firstn]. apply HB; [lia|exact Hsh]. }
      cbn [mask_list]. rewrite Hrows. destruct (Hsh a (or_introl eq_refl)) as (Ht & _).
      unfold z_block. rewrite seq_length, <- Hwa, <- Ht. now destruct a.
    - discriminate.
    - apply Forall_forall. intros j Hj. cbn [mask_list] in Hj. apply in_seq in Hj. unfold dims_layout.
      cbn in Hj.
      match goal with |- j < list_sum (?a :: ?b) => change (list_sum (a :: b)) with (a + list_sum b) end. lia.
  Qed.

  (** ** widths *)
  Lemma dims_layout_sum zd vd m : List.length zd = S m -> List.length vd = S m ->
    list_sum (dims_layout zd vd m) + nth 0 vd 0 = list_sum zd + list_sum vd.
  Proof.
    intros Hz Hv.
    assert (H : forall k, k <= m -> list_sum (dims_layout zd vd k) + nth 0 vd 0 =
      list_sum (firstn (S k) zd) + list_sum (firstn (S k) vd)).
    { induction k as [|k IH]; intro Hk.
      - rewrite !sum_firstn_S. unfold dims_layout. cbn. lia.
      - rewrite (sum_firstn_S zd (S k)), (sum_firstn_S vd (S k)). unfold dims_layout in *.
        rewrite seq_S, flat_map_app. cbn [flat_map app Nat.add]. rewrite app_comm_cons, list_sum_app.
        specialize (IH ltac:(lia)). change (list_sum [nth (S k) vd 0; nth (S k) zd 0]) with (nth (S k) vd 0 + (nth (S k) zd 0 + 0)).
        lia. }
    rewrite (H m (le_n m)), <- Hz, firstn_all, Hz, <- Hv, firstn_all. reflexivity.
  Qed.

  Lemma arm_mask_list zd vd m k : mask_list (arm_mask zd vd m k) = arm_columns zd vd m k.
  Proof. unfold arm_mask. destruct (Nat.eqb m 1); reflexivity. Qed.

  Lemma arm_mask_usable zd vd m k : (m = 1 \/ blocks_nonempty zd vd m k = true) ->
    forall l, arm_mask zd vd m k <> MArr false l.
  Proof.
    intros H l. unfold arm_mask. destruct (Nat.eqb_spec m 1); [discriminate|].
    destruct H as [H|H]; [contradiction|]. rewrite H. discriminate.
  Qed.

  Lemma blocks_nonempty_spec zd vd m k : blocks_nonempty zd vd m k = true <->
    forall i, 1 <= i <= m -> 0 < (if observes_v k i then nth i vd 0 else nth i zd 0).
  Proof.
    unfold blocks_nonempty. rewrite forallb_forall. split; intros H i Hi.
    - specialize (H i ltac:(apply in_seq; lia)). unfold block_of, v_block, z_block in H.
      destruct (observes_v k i); [destruct (nth i vd 0)|destruct (nth i zd 0)]; cbn in H; try discriminate; lia.
    - apply in_seq in Hi. specialize (H i ltac:(lia)). unfold block_of, v_block, z_block.
      destruct (observes_v k i); [destruct (nth i vd 0)|destruct (nth i zd 0)]; cbn; trivial; lia.
  Qed.

  Lemma arm_select zd vd m k (d : expdata V) x : List.length zd = S m -> List.length vd = S m -> nth 0 vd 0 = 0 ->
    (m = 1 \/ blocks_nonempty zd vd m k = true) ->
    dcov d = Some x -> atail x = [list_sum (dims_layout zd vd m)] ->
    exists r c, select_fn (arm_mask zd vd m k) d = Ok r /\ dcov r = Some c /\ dexp r = dexp d /\ drsp r = drsp d /\
      atail c = [arm_dim zd vd m k] /\ List.length (arows c) = List.length (arows x) /\
      forall i, i < List.length (arows x) -> row c i = take_at (arm_columns zd vd m k) (row x i).
  Proof.
    intros Hz Hv H0 Hne Hx Hat.
    rewrite (select_fn_list (arm_mask zd vd m k) d x _ Hx Hat).
    - do 2 eexists. split; [reflexivity|]. cbn [ed_init dcov dexp drsp]. split; [reflexivity|].
      split; [reflexivity|]. split; [reflexivity|]. cbn [atail arows]. rewrite arm_mask_list, arm_columns_length.
      split; [reflexivity|]. split; [apply map_length|]. intros i Hi. unfold row. cbn [arows].
      rewrite (nth_indep _ [] (take_at (arm_columns zd vd m k) [])) by (rewrite map_length; exact Hi).
      now rewrite map_nth.
    - apply arm_mask_usable, Hne.
    - rewrite arm_mask_list. apply Forall_forall. intros j Hj. apply arm_columns_bound in Hj.
      pose proof (dims_layout_sum zd vd m Hz Hv). lia.
  Qed.

  (** ** equal dimensions: every back-door mask reads other variables *)
  Lemma equal_dims_sums zd vd m dd b : equal_dims zd vd m dd -> b <= 2 * m ->
    list_sum (firstn (S b) (dims_layout zd vd m)) = nth 0 zd 0 + b * dd.
  Proof.
    intros (_ & _ & _ & Heq) Hb. unfold dims_layout.
    replace (flat_map (fun i => [nth i vd 0; nth i zd 0]) (seq 1 m)) with (repeat dd (2 * m)).
    - cbn [firstn]. match goal with |- list_sum (?a :: ?b) = _ => change (list_sum (a :: b)) with (a + list_sum b) end.
      f_equal. rewrite <- (firstn_skipn b (repeat dd (2 * m))) at 1.
      assert (E : firstn b (repeat dd (2 * m)) = repeat dd b).
      { replace (2 * m) with (b + (2 * m - b)) by lia. rewrite repeat_app, firstn_app, repeat_length, Nat.sub_diag.
        cbn. rewrite app_nil_r. rewrite firstn_all2; [reflexivity|rewrite repeat_length; lia]. }
      rewrite firstn_skipn, E. clear. induction b as [|b IH]; [reflexivity|]. cbn [repeat].
      change (list_sum (dd :: repeat dd b)) with (dd + list_sum (repeat dd b)). rewrite IH. lia.
    - assert (H : forall l, (forall i, In i l -> 1 <= i <= m) ->
        flat_map (fun i => [nth i vd 0; nth i zd 0]) l = repeat dd (2 * List.length l)).
      { induction l as [|i l IH]; intro Hl; [reflexivity|]. cbn [flat_map List.length].
        replace (2 * S (List.length l)) with (S (S (2 * List.length l))) by lia. cbn [repeat app].
        rewrite IH by (intros; apply Hl; now right). destruct (Heq i (Hl i (or_introl eq_refl))) as (-> & ->). reflexivity. }
      rewrite H, seq_length; [reflexivity|]. intros i Hi. apply in_seq in Hi. lia.
  Qed.

  Lemma sum_firstn_equal (l : list nat) m dd i : (forall j, 1 <= j <= m -> nth j l 0 = dd) -> 1 <= i <= S m ->
    list_sum (firstn i l) = nth 0 l 0 + (i - 1) * dd.
  Proof.
    intros H Hi. induction i as [|i IH]; [lia|]. rewrite sum_firstn_S.
    destruct i as [|i]; [cbn; lia|]. rewrite IH by lia. rewrite (H (S i)) by lia.
    replace (S (S i) - 1) with (S (S i - 1)) by lia. cbn [Nat.mul]. lia.
  Qed.

  Lemma equal_dims_block zd vd m dd i b : equal_dims zd vd m dd -> 1 <= i <= m ->
    block_of zd vd b i = seq (nth 0 zd 0 + (if b then m + i - 1 else i - 1) * dd) dd.
  Proof.
    intros (Hz & Hv & H0 & Heq) Hi. destruct (Heq i Hi) as (Ez & Ev). unfold block_of, z_block, v_block.
    destruct b.
    - rewrite Ev. f_equal. rewrite (sum_firstn_equal vd m dd i) by (try lia; intros j Hj; apply Heq; exact Hj).
      rewrite H0. rewrite <- (firstn_all zd), Hz.
      rewrite (sum_firstn_equal zd m dd (S m)) by (try lia; intros j Hj; apply Heq; exact Hj).
      replace (S m - 1) with m by lia. replace (m + i - 1) with (m + (i - 1)) by lia.
      rewrite Nat.mul_add_distr_r. rewrite <- Hz, firstn_all. lia.
    - rewrite Ez. f_equal. apply (sum_firstn_equal zd m dd i); [intros j Hj; apply Heq; exact Hj|lia].
  Qed.

  Lemma equal_read m (cpds : sdict (cpd V G)) s n g d g' log zd vd dd k :
    paper_scm m cpds = Ok s -> generate (logging s) n (g, []) = (Ok d, (g', log)) ->
    has_dims zd vd m (latest log) -> equal_dims zd vd m dd -> 1 <= dd -> 1 <= m ->
    exists r c, select_fn (arm_mask zd vd m k) d = Ok r /\ dcov r = Some c /\ dexp r = dexp d /\ drsp r = drsp d /\
      List.length (arows c) = n_units d /\
      forall i, i < n_units d -> exists rows,
        Forall2 (fun j w => exists a, latest log (read_var m k j) a /\ w = row a i) (seq 1 m) rows /\
        row c i = List.concat rows.
  Proof.
    intros Es Hg Hd Heq Hdd Hm. destruct (run_facts m cpds s n g d g' log zd vd Es Hg Hd)
      as (cols & x & HF & Hside & Hx & Hn & Hw & Hsh & Hat).
    pose proof Heq as (Hz & Hv & H0 & Hd').
    destruct (arm_select zd vd m k d x Hz Hv H0) as (r & c & Er & Ec & Ee & Ey & _ & Hlen & Hrow); trivial.
    { right. apply blocks_nonempty_spec. intros i Hi. destruct (Hd' i Hi) as (-> & ->). destruct (observes_v k i); lia. }
    exists r, c. repeat split; trivial; [congruence|]. intros i Hi. rewrite Hn in Hi.
    exists (map (fun j => take_at (block_of zd vd (observes_v k j) j) (row x i)) (seq 1 m)). split.
    2: { rewrite (Hrow i Hi). unfold arm_columns. rewrite take_at_flat. reflexivity. }
    assert (HFl : forall l, (forall j, In j l -> 1 <= j <= m) ->
      Forall2 (fun j w => exists a, latest log (read_var m k j) a /\ w = row a i) l
        (map (fun j => take_at (block_of zd vd (observes_v k j) j) (row x i)) l)).
    { induction l as [|j l IH]; intro Hl; [constructor|]. cbn [map].
      constructor; [|apply IH; intros; apply Hl; now right].
      specialize (Hl j (or_introl eq_refl)).
      rewrite (equal_dims_block zd vd m dd j) by trivial.
      set (b := if observes_v k j then m + j - 1 else j - 1).
      assert (Hb : b < 2 * m) by (unfold b; destruct (observes_v k j); lia).
      assert (Hlc : List.length cols = S (2 * m)).
      { rewrite <- length_layout. clear - HF. induction HF; cbn; congruence. }
      exists (nth (S b) cols x). split.
      - pose proof (Forall2_nth_r (latest log) (layout m) cols "" x (S b) HF ltac:(lia)) as HL.
        unfold layout in HL. cbn [nth] in HL. rewrite nth_layout in HL by exact Hb. exact HL.
      - pose proof (block_read cols x i (S b) Hside Hi ltac:(lia) Hsh) as HB. rewrite Hw in HB.
        rewrite (equal_dims_sums zd vd m dd b Heq) in HB by lia. rewrite <- HB. do 2 f_equal.
        pose proof (equal_dims_sums zd vd m dd b Heq ltac:(lia)) as S1.
        pose proof (equal_dims_sums zd vd m dd (S b) Heq ltac:(lia)) as S2.
        rewrite sum_firstn_S, S1, <- Hw in S2.
        rewrite (nth_indep (map width cols) 0 (width x)), map_nth in S2 by (rewrite map_length; lia). lia. }
    apply HFl. intros j Hj. apply in_seq in Hj. lia.
  Qed.

  (** ** any positive dimensions: a mask that should start with Z_1 starts with V_1 *)
  Lemma first_read m (cpds : sdict (cpd V G)) s n g d g' log zd vd k :
    paper_scm m cpds = Ok s -> generate (logging s) n (g, []) = (Ok d, (g', log)) ->
    has_dims zd vd m (latest log) -> List.length zd = S m -> List.length vd = S m -> nth 0 vd 0 = 0 ->
    (forall i, 1 <= i <= m -> 0 < nth i zd 0 /\ 0 < nth i vd 0) -> 1 <= m -> observes_v k 1 = false ->
    exists r c a, select_fn (arm_mask zd vd m k) d = Ok r /\ dcov r = Some c /\ latest log (Vn 1) a /\
      List.length (arows c) = n_units d /\ List.length (arows a) = n_units d /\
      forall i, i < n_units d -> exists v, hd_error (row c i) = Some v /\ hd_error (row a i) = Some v.
  Proof.
    intros Es Hg Hd Hz Hv H0 Hpos Hm Hk. destruct (run_facts m cpds s n g d g' log zd vd Es Hg Hd)
      as (cols & x & HF & Hside & Hx & Hn & Hw & Hsh & Hat).
    destruct (arm_select zd vd m k d x Hz Hv H0) as (r & c & Er & Ec & Ee & Ey & _ & Hlen & Hrow); trivial.
    { right. apply blocks_nonempty_spec. intros i Hi. destruct (Hpos i Hi). destruct (observes_v k i); lia. }
    destruct m as [|m]; [lia|].
    destruct cols as [|a0 [|a cols]]; try (unfold layout in HF; cbn in HF; inversion HF; fail).
    { unfold layout in HF. cbn in HF. inversion HF as [|? ? ? ? ? HF']. inversion HF'. }
    assert (Ha : latest log (Vn 1) a) by (unfold layout in HF; cbn in HF; inversion HF as [|? ? ? ? ? HF']; inversion HF'; trivial).
    exists r, c, a. repeat split; trivial; [congruence| |].
    { rewrite Hn. destruct Hside as (_ & _ & Hl & _). apply Hl. right. now left. }
    intros i Hi. rewrite Hn in Hi.
    assert (Hw0 : width a0 = nth 0 zd 0 /\ width a = nth 1 vd 0).
    { unfold dims_layout in Hw. cbn in Hw. injection Hw. auto. }
    destruct Hw0 as (Hw0 & Hw1).
    pose proof (block_read (a0 :: a :: cols) x i 1 Hside Hi ltac:(cbn; lia) Hsh) as HB.
    cbn [nth map firstn] in HB. change (list_sum [width a0]) with (width a0 + 0) in HB. rewrite Nat.add_0_r, Hw0, Hw1 in HB.
    pose proof (Hpos 1 ltac:(lia)) as (Pz & Pv).
    destruct (nth 1 vd 0) as [|pv] eqn:Ev; [lia|]. destruct (nth 1 zd 0) as [|pz] eqn:Ez; [lia|].
    assert (Hra : List.length (row a i) = S pv).
    { destruct (Hsh a (or_intror (or_introl eq_refl))) as (_ & HFa). rewrite Forall_forall in HFa.
      rewrite Hw1 in HFa. apply HFa. unfold row. apply nth_In.
      destruct Hside as (_ & _ & Hl & _). rewrite (Hl a); [exact Hi|right; now left]. }
    destruct (row a i) as [|v ra] eqn:Era; [discriminate Hra|]. exists v. split; [|reflexivity].
    rewrite (Hrow i Hi). unfold arm_columns. cbn [seq flat_map]. rewrite Hk. unfold z_block.
    rewrite Ez. rewrite (sum_firstn_S zd 0). cbn [firstn]. change (list_sum []) with 0. cbn [Nat.add].
    cbn [seq app]. cbn [seq] in HB. unfold take_at in HB |- *. cbn [flat_map] in HB |- *.
    destruct (nth_error (row x i) (nth 0 zd 0)) as [w|] eqn:En.
    - cbn [app] in HB. injection HB as HB _. subst w. reflexivity.
    - exfalso. cbn [app] in HB.
      assert (Hnone : flat_map (fun j => match nth_error (row x i) j with Some z => [z] | None => [] end) (seq (S (nth 0 zd 0)) pv) = []).
      { apply nth_error_None in En. assert (Hall : forall l, (forall j, In j l -> nth 0 zd 0 <= j) ->
          flat_map (fun j => match nth_error (row x i) j with Some z => [z] | None => [] end) l = []).
        { induction l as [|j l IH]; intro Hl; [reflexivity|]. cbn [flat_map].
          rewrite (proj2 (nth_error_None (row x i) j)) by (specialize (Hl j (or_introl eq_refl)); lia).
          apply IH. intros; apply Hl; now right. }
        apply Hall. intros j Hj. apply in_seq in Hj. lia. }
      rewrite Hnone in HB. discriminate HB.
  Qed.

  (** ** masks that cannot be used *)
  Lemma empty_block_raises zd vd m k (d : expdata V) x : 2 <= m -> dcov d = Some x ->
    blocks_nonempty zd vd m k = false -> select_fn (arm_mask zd vd m k) d = Err IndexError.
  Proof.
    intros Hm Hx Hb. unfold arm_mask. destruct (Nat.eqb_spec m 1); [lia|]. rewrite Hb. cbn [select_fn].
    now rewrite Hx.
  Qed.

  Lemma placeholder_raises zd vd m k (d : expdata V) x : List.length zd = S m -> List.length vd = S m ->
    0 < nth 0 vd 0 -> 0 < nth m vd 0 -> 1 <= m -> observes_v k m = true ->
    dcov d = Some x -> atail x = [list_sum (dims_layout zd vd m)] ->
    select_fn (arm_mask zd vd m k) d = Err IndexError.
  Proof.
    intros Hz Hv H0 Hp Hm Hk Hx Hat.
    assert (Hin : In (list_sum zd + list_sum vd - 1) (arm_columns zd vd m k)).
    { unfold arm_columns. apply in_flat_map. exists m. split; [apply in_seq; lia|]. rewrite Hk.
      unfold v_block. apply in_seq.
      assert (E : list_sum vd = list_sum (firstn m vd) + nth m vd 0).
      { rewrite <- sum_firstn_S, <- Hv, firstn_all. reflexivity. }
      lia. }
    pose proof (dims_layout_sum zd vd m Hz Hv) as Hs.
    assert (E : mask_fn (map Z.of_nat (arm_columns zd vd m k)) d = Err IndexError).
    { unfold mask_fn, mask_cov. rewrite Hx, Hat.
      rewrite (mapM_norm_index_err _ _ _ Hin) by lia. reflexivity. }
    unfold arm_mask. destruct (Nat.eqb m 1); [exact E|].
    destruct (blocks_nonempty zd vd m k); [exact E|]. cbn [select_fn]. now rewrite Hx.
  Qed.
End Run.
