From Coq Require Import List Arith ZArith Lia Bool Permutation.
From Verif Require Import PyBase PyLemmas Num NumLemmas DataModel DataSpec DataProofs.
Import ListNotations.

Section Slice.
  Context {V : Type}.
  Implicit Types d : expdata V.

  Lemma nth_error_firstn {X} (l : list X) n j :
    nth_error (firstn n l) j = if j <? n then nth_error l j else None.
  Proof.
    revert n j; induction l as [|x xs IH]; intros n j.
    - rewrite firstn_nil. destruct j, (_ <? n); reflexivity.
    - destruct n; [destruct j; reflexivity|]. destruct j; [reflexivity|].
      change (S j <? S n) with (j <? n). apply IH.
  Qed.
  Lemma nth_error_skipn {X} (l : list X) n j : nth_error (skipn n l) j = nth_error l (n + j).
  Proof.
    revert n; induction l as [|x xs IH]; intros n; destruct n; simpl; try reflexivity.
    - destruct j; reflexivity.
    - apply IH.
  Qed.

  Definition bounds (n : nat) (start stop : option Z) : nat * nat :=
    (match start with None => 0 | Some b => slice_bound n b end,
     match stop with None => n | Some b => slice_bound n b end).

  Lemma slice_bound_le n b : slice_bound n b <= n.
  Proof. unfold slice_bound. destruct (Z.ltb_spec b 0); lia. Qed.

  Lemma aslice_len start stop (a : arr V) :
    length (arows (aslice start stop a)) =
    snd (bounds (length (arows a)) start stop) - fst (bounds (length (arows a)) start stop).
  Proof.
    unfold aslice, bounds, alen. simpl. rewrite firstn_length, skipn_length.
    assert (match stop with None => length (arows a) | Some b => slice_bound (length (arows a)) b end <= length (arows a)).
    { destruct stop; [apply slice_bound_le|lia]. }
    lia.
  Qed.

  Lemma getslice_gen d start stop : aligned d ->
    exists s, getslice d start stop = Ok s /\ aligned s /\ same_shape d s /\
      let '(lo, hi) := bounds (n_units d) start stop in
      units s = map (unit_of d) (seq lo (hi - lo)).
  Proof.
    intros (c & Hc & Hl & Hf & He & Hr). unfold getslice. rewrite Hc.
    eexists. split; [reflexivity|].
    assert (Hlen : forall a : option (arr V), present_len a (n_units d) ->
      present_len (option_map (aslice start stop) a) (length (arows (aslice start stop c)))).
    { intros [x|]; cbn -[aslice]; intros H; [|exact I]. rewrite !aslice_len, H, Hl. reflexivity. }
    split.
    { eexists. split; [reflexivity|]. split; [reflexivity|]. split; [reflexivity|]. split; apply Hlen; assumption. }
    split.
    { unfold same_shape. rewrite Hc. simpl. repeat split; auto.
      - destruct (dexp d); reflexivity.
      - destruct (drsp d); reflexivity. }
    destruct (bounds (n_units d) start stop) as [lo hi] eqn:Eb.
    unfold units. change (n_units (ed_init _ _ _)) with (length (arows (aslice start stop c))).
    rewrite aslice_len, Hl, Eb. simpl fst; simpl snd.
    assert (Hn : forall (x : arr V) j, length (arows x) = n_units d -> j < hi - lo ->
      nth_error (arows (aslice start stop x)) j = nth_error (arows x) (lo + j)).
    { intros x j Hx Hj. unfold aslice, alen. simpl. rewrite Hx.
      change (match start with None => 0 | Some b => slice_bound (n_units d) b end) with (fst (bounds (n_units d) start stop)).
      change (match stop with None => n_units d | Some b => slice_bound (n_units d) b end) with (snd (bounds (n_units d) start stop)).
      rewrite Eb. simpl. rewrite nth_error_firstn.
      destruct (Nat.ltb_spec j (hi - lo)); [|lia]. apply nth_error_skipn. }
    replace (seq lo (hi - lo)) with (map (fun j => lo + j) (seq 0 (hi - lo))).
    2:{ clear. generalize (hi - lo) as n. induction n as [|n IH]; [reflexivity|].
        rewrite !seq_S, map_app, IH. reflexivity. }
    rewrite map_map. apply map_ext_in. intros j Hj. apply in_seq in Hj.
    unfold unit_of. rewrite Hc. cbn -[aslice]. rewrite Hn by (auto; lia).
    f_equal; [f_equal|].
    - destruct (dexp d) as [x|]; cbn -[aslice] in *; [|reflexivity]. rewrite Hn by (auto; lia). reflexivity.
    - destruct (drsp d) as [x|]; cbn -[aslice] in *; [|reflexivity]. rewrite Hn by (auto; lia). reflexivity.
  Qed.

  Lemma getslice_window_l d a b : aligned d -> 
    exists s, getslice d (Some (Z.of_nat a)) (Some (Z.of_nat b)) = Ok s /\ aligned s /\ same_shape d s /\
      units s = map (unit_of d) (filter (fun j => (a <=? j) && (j <? b)) (seq 0 (n_units d))).
  Proof.
    intros Ha. destruct (getslice_gen d (Some (Z.of_nat a)) (Some (Z.of_nat b)) Ha) as (s & E & H1 & H2 & H3).
    exists s. split; [exact E|]. split; [exact H1|]. split; [exact H2|].
    cbn [bounds] in H3. rewrite H3. f_equal.
    unfold slice_bound. destruct (Z.ltb_spec (Z.of_nat a) 0); [lia|]. destruct (Z.ltb_spec (Z.of_nat b) 0); [lia|].
    rewrite !Nat2Z.id. clear. generalize (n_units d) as n. intros n.
    set (lo := Nat.min n a). set (hi := Nat.min n b).
    assert (Hlo : lo <= n) by (unfold lo; lia). assert (Hhi : hi <= n) by (unfold hi; lia).
    assert (Hsplit : seq 0 n = seq 0 lo ++ seq lo (hi - lo) ++ seq (lo + (hi - lo)) (n - (lo + (hi - lo)))).
    { rewrite <- seq_app, <- (seq_app lo _ 0). f_equal. lia. }
    rewrite Hsplit, !filter_app.
    assert (forall (f : nat -> bool) l, (forall x, In x l -> f x = false) -> filter f l = []) as Hnone.
    { intros; apply filter_none; assumption. }
    rewrite (Hnone _ (seq 0 lo)).
    2:{ intros x Hx. apply in_seq in Hx. destruct (Nat.leb_spec a x); [|reflexivity]. unfold lo in Hx. lia. }
    rewrite (Hnone _ (seq (lo + (hi - lo)) _)).
    2:{ intros x Hx. apply in_seq in Hx. destruct (Nat.leb_spec a x), (Nat.ltb_spec x b); try reflexivity.
        exfalso. unfold lo, hi in *. lia. }
    simpl. rewrite app_nil_r. symmetry. apply filter_all.
    intros x Hx. apply in_seq in Hx. destruct (Nat.leb_spec a x), (Nat.ltb_spec x b); try reflexivity;
      exfalso; unfold lo, hi in *; lia.
  Qed.

  Lemma getslice_last_l d u : aligned d -> 1 <= u ->
    exists s, getslice d (Some (- Z.of_nat u)%Z) None = Ok s /\ aligned s /\ same_shape d s /\
      units s = map (unit_of d) (seq (n_units d - u) (Nat.min u (n_units d))).
  Proof.
    intros Ha Hu. destruct (getslice_gen d (Some (- Z.of_nat u)%Z) None Ha) as (s & E & H1 & H2 & H3).
    exists s. split; [exact E|]. split; [exact H1|]. split; [exact H2|].
    cbn [bounds] in H3. rewrite H3. f_equal.
    unfold slice_bound. destruct (Z.ltb_spec (- Z.of_nat u) 0); [|lia].
    f_equal; lia.
  Qed.

  Lemma windows_cover_l d u m : aligned d -> 1 <= u -> n_units d <= m * u ->
    exists ws, mapM (fun i => getslice d (Some (Z.of_nat (i * u))) (Some (Z.of_nat ((i + 1) * u)))) (seq 0 m) = Ok ws /\
      concat (map units ws) = units d.
  Proof.
    intros Ha Hu Hm.
    assert (Hw : forall i, exists s, getslice d (Some (Z.of_nat (i * u))) (Some (Z.of_nat ((i + 1) * u))) = Ok s /\
      units s = map (unit_of d) (seq (Nat.min (n_units d) (i * u)) (Nat.min (n_units d) ((i + 1) * u) - Nat.min (n_units d) (i * u)))).
    { intros i. destruct (getslice_gen d (Some (Z.of_nat (i * u))) (Some (Z.of_nat ((i + 1) * u))) Ha) as (s & E & _ & _ & H3).
      exists s. split; [exact E|]. cbn [bounds] in H3. rewrite H3. unfold slice_bound.
      destruct (Z.ltb_spec (Z.of_nat (i * u)) 0); [lia|]. destruct (Z.ltb_spec (Z.of_nat ((i + 1) * u)) 0); [lia|].
      rewrite !Nat2Z.id. reflexivity. }
    assert (Hall : forall m, exists ws, mapM (fun i => getslice d (Some (Z.of_nat (i * u))) (Some (Z.of_nat ((i + 1) * u)))) (seq 0 m) = Ok ws /\
      concat (map units ws) = map (unit_of d) (seq 0 (Nat.min (n_units d) (m * u)))).
    { clear m Hm. induction m as [|m (ws & Ew & Hc)].
      - exists []. split; [reflexivity|]. simpl. rewrite Nat.min_0_r. reflexivity.
      - destruct (Hw m) as (s & Es & Hs).
        exists (ws ++ [s]). split.
        + rewrite seq_S. simpl plus.
          assert (mapM_app : forall {X Y} (f : X -> res Y) l1 l2 y1 y2, mapM f l1 = Ok y1 -> mapM f l2 = Ok y2 ->
                    mapM f (l1 ++ l2) = Ok (y1 ++ y2)).
          { clear. intros X Y f l1; induction l1 as [|x xs IH]; simpl; intros l2 y1 y2 H1 H2.
            - injection H1 as <-. exact H2.
            - destruct (f x); simpl in *; [|discriminate]. destruct (mapM f xs) as [l|] eqn:E; simpl in *; [|discriminate].
              injection H1 as <-. rewrite (IH l2 l y2 eq_refl H2). reflexivity. }
          apply mapM_app; [exact Ew|]. cbn [mapM]. rewrite Es. reflexivity.
        + rewrite map_app, concat_app, Hc. simpl. rewrite app_nil_r, Hs, <- map_app. f_equal.
          pose proof (seq_app (Nat.min (n_units d) (m * u)) (Nat.min (n_units d) ((m + 1) * u) - Nat.min (n_units d) (m * u)) 0) as Hsa.
          rewrite Nat.add_0_l in Hsa. rewrite <- Hsa. f_equal.
          replace ((m + 1) * u) with (u + m * u) by lia. simpl. lia. }
    destruct (Hall m) as (ws & Ew & Hc). exists ws. split; [exact Ew|].
    rewrite Hc. unfold units. do 2 f_equal. lia.
  Qed.

  (** * C09 *)
  Lemma norm_index_ok n z : in_range n z ->
    norm_index n z = Ok (Z.to_nat (if (z <? 0)%Z then Z.of_nat n + z else z)%Z).
  Proof.
    intros [H1 H2]. unfold norm_index.
    destruct (Z.leb_spec (- Z.of_nat n) z); [|lia]. destruct (Z.ltb_spec z (Z.of_nat n)); [|lia]. simpl.
    destruct (z <? 0)%Z; [rewrite Z.add_comm|]; reflexivity.
  Qed.
  Lemma norm_index_err n z : ~ in_range n z -> norm_index n z = Err IndexError.
  Proof.
    intros H. unfold norm_index, in_range in *.
    destruct (Z.leb_spec (- Z.of_nat n) z), (Z.ltb_spec z (Z.of_nat n)); simpl; try reflexivity. lia.
  Qed.
  Lemma in_range_dec n z : in_range n z \/ ~ in_range n z.
  Proof. unfold in_range. lia. Qed.

  Definition npos (n : nat) (z : Z) : nat := Z.to_nat (if (z <? 0)%Z then Z.of_nat n + z else z)%Z.
  Lemma npos_lt n z : in_range n z -> npos n z < n.
  Proof. unfold in_range, npos. destruct (Z.ltb_spec z 0); lia. Qed.

  Lemma mapM_norm_ok n idx : Forall (in_range n) idx -> mapM (norm_index n) idx = Ok (map (npos n) idx).
  Proof.
    intros H. apply mapM_map. intros z Hz. apply norm_index_ok.
    rewrite Forall_forall in H. apply H, Hz.
  Qed.
  Lemma mapM_norm_err n idx : ~ Forall (in_range n) idx -> mapM (norm_index n) idx = Err IndexError.
  Proof.
    induction idx as [|z zs IH]; intros H; [exfalso; apply H; constructor|].
    simpl. destruct (in_range_dec n z) as [Hz|Hz].
    - rewrite norm_index_ok by assumption. simpl. rewrite IH; [reflexivity|].
      intros H'. apply H. constructor; assumption.
    - rewrite norm_index_err by assumption. reflexivity.
  Qed.
  Lemma forall_in_range_dec n idx : Forall (in_range n) idx \/ ~ Forall (in_range n) idx.
  Proof.
    induction idx as [|z zs IH]; [left; constructor|].
    destruct (in_range_dec n z); destruct IH as [IH|IH].
    - left; constructor; assumption.
    - right; intros H'; inversion H'; contradiction.
    - right; intros H'; inversion H'; contradiction.
    - right; intros H'; inversion H'; contradiction.
  Qed.

  Lemma take_at_nth {X} js (l : list X) : Forall (fun j => j < length l) js ->
    length (take_at js l) = length js /\
    forall t j, nth_error js t = Some j -> nth_error (take_at js l) t = nth_error l j.
  Proof.
    induction js as [|j js IH]; simpl; intros H.
    - split; [reflexivity|]. intros [|t] j; discriminate.
    - inversion H as [|? ? Hj Hjs]; subst. destruct (IH Hjs) as [IH1 IH2]. clear IH.
      destruct (nth_error l j) as [x|] eqn:E.
      2:{ apply nth_error_None in E. lia. }
      simpl. split; [rewrite IH1; reflexivity|].
      intros [|t] j' Hj'; simpl in *; [injection Hj' as <-; auto|]. apply IH2, Hj'.
  Qed.

  Lemma mask_fn_l f idx d : aligned d -> matrix f d ->
    (Forall (in_range f) idx ->
       exists r c c', mask_fn idx d = Ok r /\ dcov d = Some c /\ dcov r = Some c' /\
         dexp r = dexp d /\ drsp r = drsp d /\ n_units r = n_units d /\ n_features r = length idx /\
         aligned r /\ matrix (length idx) r /\ Forall2 (picks f idx) (arows c) (arows c')) /\
    (~ Forall (in_range f) idx -> mask_fn idx d = Err IndexError).
  Proof.
    intros (c & Hc & Hl & Hf & He & Hr) (c0 & Hc0 & Ht & Hrows).
    assert (c0 = c) by congruence. subst c0. clear Hc0.
    unfold mask_fn, mask_cov. rewrite Hc, Ht. split.
    - intros Hidx. rewrite mapM_norm_ok by assumption. simpl.
      eexists _, c, _. split; [reflexivity|]. split; [reflexivity|]. split; [reflexivity|].
      simpl. split; [reflexivity|]. split; [reflexivity|].
      assert (Hn : length (map (take_at (map (npos f) idx)) (arows c)) = n_units d) by (rewrite map_length; exact Hl).
      assert (Hpk : Forall2 (picks f idx) (arows c) (map (take_at (map (npos f) idx)) (arows c))).
      { clear -Hrows Hidx. induction (arows c) as [|r rs IH]; simpl; [constructor|].
        inversion Hrows as [|? ? Hrl Hrs]; subst. constructor; [|apply IH, Hrs].
        destruct (take_at_nth (map (npos (length r)) idx) r) as [T1 T2].
        { apply Forall_map. eapply Forall_impl; [|exact Hidx]. intros z Hz. apply npos_lt, Hz. }
        split; [rewrite T1, map_length; reflexivity|].
        intros j z Hj. apply (T2 j). rewrite nth_error_map, Hj. reflexivity. }
      split; [exact Hn|]. split; [reflexivity|]. split.
      { eexists. split; [reflexivity|]. simpl. unfold alen. simpl.
        split; [reflexivity|]. split; [reflexivity|]. rewrite Hn. auto. }
      split; [|exact Hpk].
      eexists. split; [reflexivity|]. split; [reflexivity|]. simpl.
      clear -Hpk. induction Hpk as [|? ? ? ? [H _]]; constructor; auto.
    - intros Hidx. rewrite mapM_norm_err by assumption. reflexivity.
  Qed.

  (* all column positions but [j] *)
  Lemma take_seq {X} (l : list X) a n : a + n <= length l ->
    take_at (seq a n) l = firstn n (skipn a l).
  Proof.
    revert a; induction n as [|n IH]; intros a H; simpl; [reflexivity|].
    rewrite (IH (S a)) by lia.
    destruct (nth_error l a) as [x|] eqn:E; [|apply nth_error_None in E; lia].
    assert (Hsk : skipn a l = x :: skipn (S a) l).
    { clear -E. revert a E; induction l as [|y ys IH]; intros [|a] E; simpl in *; try discriminate.
      - injection E as <-. reflexivity.
      - apply IH, E. }
    rewrite Hsk. reflexivity.
  Qed.
  Lemma take_at_app {X} (l : list X) a b : take_at (a ++ b) l = take_at a l ++ take_at b l.
  Proof. apply flat_map_app. Qed.

  Lemma others_split f j : j < f ->
    filter (fun i => negb (i =? j)) (seq 0 f) = seq 0 j ++ seq (S j) (f - S j).
  Proof.
    intros H. replace f with (j + S (f - S j)) at 1 by lia. rewrite seq_app, filter_app. simpl.
    rewrite Nat.eqb_refl. simpl. f_equal; apply filter_all; intros x Hx; apply in_seq in Hx;
      destruct (Nat.eqb_spec x j); try reflexivity; lia.
  Qed.

  Lemma remove_fn_l f i d : matrix f d ->
    (in_range f i ->
       remove_fn i d =
       mask_fn (map Z.of_nat (filter (fun c => negb (c =? Z.to_nat (if (i <? 0)%Z then Z.of_nat f + i else i)))
                                     (seq 0 f))) d) /\
    (~ in_range f i -> remove_fn i d = Err IndexError).
  Proof.
    intros (c & Hc & Ht & Hrows). unfold remove_fn, mask_fn, mask_cov. rewrite Hc, Ht. split.
    - intros Hi. fold (npos f i). pose proof (npos_lt f i Hi) as Hlt.
      rewrite norm_index_ok by assumption. fold (npos f i). simpl.
      rewrite others_split by assumption.
      set (js := seq 0 (npos f i) ++ seq (S (npos f i)) (f - S (npos f i))).
      assert (Hjs : forall z, In z (map Z.of_nat js) -> norm_index f z = Ok (Z.to_nat z)).
      { intros z Hz. apply in_map_iff in Hz as (x & <- & Hx).
        assert (x < f) by (unfold js in Hx; apply in_app_or in Hx as [Hx|Hx]; apply in_seq in Hx; lia).
        rewrite norm_index_ok by (unfold in_range; lia). destruct (Z.ltb_spec (Z.of_nat x) 0); [lia|reflexivity]. }
      rewrite (mapM_map _ Z.to_nat _ Hjs). simpl. rewrite map_map.
      rewrite (map_ext (fun x => Z.to_nat (Z.of_nat x)) (fun x => x)) by (intros; apply Nat2Z.id). rewrite map_id.
      assert (Hlen : length (map Z.of_nat js) = f - 1).
      { unfold js. rewrite map_length, app_length, !seq_length. lia. }
      rewrite Hlen.
      assert (Hm : map (delete_at (npos f i)) (arows c) = map (take_at js) (arows c)).
      { apply map_ext_in. intros r Hr.
        rewrite Forall_forall in Hrows. specialize (Hrows r Hr). unfold delete_at, js.
        rewrite take_at_app, (take_seq r 0), (take_seq r (S (npos f i))) by lia. simpl. f_equal.
        assert (Hz : length (skipn (S (npos f i)) r) = f - S (npos f i)) by (rewrite skipn_length; lia).
        rewrite <- Hz. symmetry. apply firstn_all. }
      rewrite Hm. reflexivity.
    - intros Hi. rewrite norm_index_err by assumption. reflexivity.
  Qed.

  (** * C10 *)
  Lemma select_map {X Y} (g : X -> Y) m l : select m (map g l) = map g (select m l).
  Proof. revert l; induction m as [|b bs IH]; intros [|x xs]; simpl; try reflexivity. destruct b; simpl; rewrite IH; reflexivity. Qed.

  Lemma amask_bind m (a : arr V) (t : list nat) (g : list V -> list V) :
    amask m (mkArr t (map g (arows a))) =
    do b <- amask m a; Ok (mkArr t (map g (arows b))).
  Proof.
    unfold amask, alen. simpl. rewrite map_length.
    destruct (length m =? length (arows a)); simpl; [rewrite select_map|]; reflexivity.
  Qed.

  Lemma fold_by_mask d c f idx m : dcov d = Some c -> atail c = [f] -> Forall (in_range f) idx ->
    fold_by (ed_init (Some (mkArr [length idx] (map (take_at (map (npos f) idx)) (arows c)))) (dexp d) (drsp d)) m =
    bind (fold_by d m) (mask_fn idx).
  Proof.
    intros Hc Ht Hidx. unfold fold_by. simpl. rewrite Hc. unfold cmask.
    rewrite (amask_bind m c). unfold amask at 1 2.
    destruct (length m =? alen c); simpl; [|reflexivity].
    destruct (omask m (dexp d)); simpl; [|reflexivity].
    destruct (omask m (drsp d)); simpl; [|reflexivity].
    unfold mask_fn, mask_cov. simpl. rewrite Ht, mapM_norm_ok by assumption. reflexivity.
  Qed.

  Lemma mapM_ext {X Y} (f g : X -> res Y) l : (forall x, f x = g x) -> mapM f l = mapM g l.
  Proof. intros H. induction l; simpl; [reflexivity|]. rewrite H, IHl. reflexivity. Qed.
  Lemma mapM_bind {X Y Z} (f : X -> res Y) (g : Y -> res Z) l :
    (forall x y, In x l -> f x = Ok y -> exists z, g y = Ok z) ->
    mapM (fun x => bind (f x) g) l = bind (mapM f l) (mapM g).
  Proof.
    intros Hg. induction l as [|x xs IH]; simpl; [reflexivity|].
    destruct (f x) as [y|] eqn:Ef; simpl; [|reflexivity].
    destruct (Hg x y (or_introl eq_refl) Ef) as [z Ez].
    rewrite IH by (intros; eapply Hg; simpl; eauto).
    destruct (mapM f xs); simpl; rewrite Ez; reflexivity.
  Qed.

  Lemma mask_kfold_commute_l perm f idx d k : matrix f d -> (1 <= k)%Z -> Forall (in_range f) idx ->
    bind (mask_fn idx d) (fun d' => k_fold perm (mkED (dcov d') (dexp d') (drsp d') (n_units d) (n_features d')) k) =
    bind (k_fold perm d k) (mapM (mask_fn idx)).
  Proof.
    intros (c & Hc & Ht & Hrows) Hk Hidx.
    unfold mask_fn at 1. rewrite Hc. unfold mask_cov. rewrite Ht, mapM_norm_ok by assumption. simpl.
    rewrite !k_fold_unfold by assumption. simpl.
    rewrite <- mapM_bind.
    - apply mapM_ext. intros i.
      rewrite <- (fold_by_mask d c f idx _ Hc Ht Hidx). reflexivity.
    - intros i y _ Hy. unfold fold_by, cmask in Hy. rewrite Hc in Hy. unfold amask at 1 in Hy.
      destruct (_ =? alen c); simpl in Hy; [|discriminate].
      destruct (omask _ (dexp d)); simpl in Hy; [|discriminate].
      destruct (omask _ (drsp d)); simpl in Hy; [|discriminate].
      injection Hy as <-. unfold mask_fn, mask_cov. simpl. rewrite Ht, mapM_norm_ok by assumption.
      simpl. eauto.
  Qed.

  Lemma mask_kfold_commute_l3 perm f idx d k : aligned d -> matrix f d -> (1 <= k)%Z ->
    Forall (in_range f) idx ->
    bind (mask_fn idx d) (fun d' => k_fold perm d' k) = bind (k_fold perm d k) (mapM (mask_fn idx)).
  Proof.
    intros Ha Hm Hk Hidx. rewrite <- (mask_kfold_commute_l perm f) by assumption.
    destruct (mask_fn_l f idx d Ha Hm) as [H _].
    destruct (H Hidx) as (r & c & c' & E & _ & _ & _ & _ & Hn & _). rewrite E. simpl. rewrite <- Hn.
    destruct r; reflexivity.
  Qed.

  Lemma aslice_map a b t (g : list V -> list V) (c : arr V) :
    aslice a b (mkArr t (map g (arows c))) = mkArr t (map g (arows (aslice a b c))).
  Proof.
    unfold aslice, alen. simpl. rewrite map_length, <- firstn_map, <- skipn_map. reflexivity.
  Qed.
  Lemma mask_slice_commute_l f idx d a b : matrix f d -> Forall (in_range f) idx ->
    bind (mask_fn idx d) (fun d' => getslice d' a b) = bind (getslice d a b) (mask_fn idx).
  Proof.
    intros (c & Hc & Ht & Hrows) Hidx.
    unfold mask_fn at 1. rewrite Hc. unfold mask_cov. rewrite Ht, mapM_norm_ok by assumption. simpl.
    unfold getslice. cbn [dcov dexp drsp ed_init]. rewrite Hc. rewrite aslice_map.
    cbn [bind]. unfold mask_fn, mask_cov. cbn [dcov dexp drsp ed_init atail aslice].
    rewrite Ht, mapM_norm_ok by assumption. reflexivity.
  Qed.

  Lemma remove_kfold_commute_l perm f i d k : aligned d -> matrix f d -> (1 <= k)%Z -> in_range f i ->
    (forall l, Permutation (perm l) l) ->
    bind (remove_fn i d) (fun d' => k_fold perm d' k) = bind (k_fold perm d k) (mapM (remove_fn i)).
  Proof.
    intros Ha Hm Hk Hi Hp.
    destruct (remove_fn_l f i d Hm) as [H _]. rewrite (H Hi).
    fold (npos f i). pose proof (npos_lt f i Hi) as Hlt.
    set (idx := map Z.of_nat _).
    assert (Hidx : Forall (in_range f) idx).
    { unfold idx. apply Forall_map, Forall_forall. intros x Hx. apply filter_In in Hx as [Hx _].
      apply in_seq in Hx. unfold in_range; lia. }
    rewrite (mask_kfold_commute_l3 perm f) by assumption.
    destruct Hm as (c & Hc & Ht & Hrows).
    destruct Ha as (c0 & Hc0 & Hl & Hf & He & Hr). assert (c0 = c) by congruence. subst c0.
    assert (Hpl : forall l, length (perm l) = length l) by (intros; apply Permutation_length, Hp).
    rewrite (k_fold_ok perm d k c) by assumption. cbn [bind].
    set (l := map _ (seq 0 (Z.to_nat k))).
    assert (Hl' : forall x, In x l -> matrix f x).
    { intros x Hx. apply in_map_iff in Hx as (j & <- & _). eexists. split; [reflexivity|]. simpl.
      split; [exact Ht|]. clear -Hrows. generalize (fold_mask perm (n_units d) (Z.to_nat k) j) as m.
      induction Hrows; intros [|[] m]; simpl; auto. }
    clearbody l. induction l as [|x xs IH]; simpl; [reflexivity|].
    destruct (remove_fn_l f i x) as [H' _]; [apply Hl'; simpl; auto|]. rewrite (H' Hi).
    fold (npos f i). fold idx. rewrite IH by (intros; apply Hl'; simpl; auto). reflexivity.
  Qed.

  (** * C11 *)
  Lemma mask_fn_vector_l idx d : aligned d -> vector d -> Forall (in_range (n_units d)) idx ->
    exists r c c', mask_fn idx d = Ok r /\ dcov d = Some c /\ dcov r = Some c' /\
      n_units r = length idx /\ n_features r = 1 /\ dexp r = dexp d /\ drsp r = drsp d /\
      (forall j z, nth_error idx j = Some z ->
         nth_error (arows c') j = nth_error (arows c) (Z.to_nat (if (z <? 0)%Z then Z.of_nat (n_units d) + z else z))) /\
      (dexp d <> None -> (aligned r <-> length idx = n_units d)).
  Proof.
    intros (c & Hc & Hl & Hf & He & Hr) (c0 & Hc0 & Ht & Hrows) Hidx.
    assert (c0 = c) by congruence. subst c0.
    unfold mask_fn, mask_cov. rewrite Hc, Ht. unfold alen. rewrite Hl, mapM_norm_ok by assumption. simpl.
    destruct (take_at_nth (map (npos (n_units d)) idx) (arows c)) as [T1 T2].
    { apply Forall_map. eapply Forall_impl; [|exact Hidx]. intros z Hz. rewrite Hl. apply npos_lt, Hz. }
    rewrite map_length in T1.
    eexists _, c, _. split; [reflexivity|]. split; [reflexivity|]. split; [reflexivity|]. simpl.
    unfold alen. simpl. split; [exact T1|]. do 3 (split; [reflexivity|]). split.
    - intros j z Hj. apply T2. rewrite nth_error_map, Hj. reflexivity.
    - intros Hne. destruct (dexp d) as [e|] eqn:Ee; [|congruence]. simpl in He. split.
      + intros (c' & Hc' & Hl' & _ & He' & _). simpl in *. unfold alen in *. simpl in *.
        rewrite T1 in *. congruence.
      + intros E. eexists. split; [reflexivity|]. simpl. unfold alen. simpl. rewrite T1, E.
        auto.
  Qed.

  Lemma remove_fn_vector_l i d : vector d -> remove_fn i d = Err AxisError.
  Proof. intros (c & Hc & Ht & _). unfold remove_fn. rewrite Hc, Ht. reflexivity. Qed.
End Slice.

(** * C12 *)
Section Lin.
  Context {V G : Type} (vzero : V) (vadd vmul : V -> V -> V) (o : lin_oracle V G).

  Lemma nth_error_vec (l : list V) j v : nth_error l j = Some v -> nth_error (arows (vec l)) j = Some [v].
  Proof. intros H. simpl. rewrite nth_error_map, H. reflexivity. Qed.

  Lemma lin_generate_l g st n x st1 t st2 e1 st3 e2 st4 : 
    lo_randn o st n (lg_features g) = (x, st1) -> length x = n ->
    length (lg_gamma g) = lg_features g -> length (lg_beta g) = lg_features g ->
    lo_binom o st1 (map (fun r => lo_sigmoid o (dot1 vzero vadd vmul r (lg_gamma g))) x) = (t, st2) ->
    length t = n ->
    lo_noise o st2 n = (e1, st3) -> lo_noise o st3 n = (e2, st4) ->
    (length e1 <> n -> lin_generate vzero vadd vmul o g st n = (Err ValueError, st3)) /\
    (length e1 = n -> length e2 = n ->
      exists d y, lin_generate vzero vadd vmul o g st n = (Ok d, st4) /\
        n_units d = n /\ n_features d = lg_features g /\ aligned d /\
        dcov d = Some (mkArr [lg_features g] x) /\
        dexp d = Some (mkArr [] (map (fun v => [v]) t)) /\
        drsp d = Some (mkArr [] (map (fun v => [v]) y)) /\
        forall i r ti ei, nth_error x i = Some r -> nth_error t i = Some ti -> nth_error e2 i = Some ei ->
          nth_error y i = Some (vadd (vadd (dot1 vzero vadd vmul r (lg_beta g)) (vmul (lg_tau g) ti)) ei)) /\
    (length e1 = n -> n <> 1 -> forall e, e2 = [e] ->
      exists d y, lin_generate vzero vadd vmul o g st n = (Ok d, st4) /\ n_units d = n /\
        drsp d = Some (mkArr [] (map (fun v => [v]) y)) /\ length y = n /\
        forall i r ti, nth_error x i = Some r -> nth_error t i = Some ti ->
          nth_error y i = Some (vadd (vadd (dot1 vzero vadd vmul r (lg_beta g)) (vmul (lg_tau g) ti)) e)).
  Proof.
    intros Hx Hxn Hg Hb Ht Htn He1 He2. unfold lin_generate, xdot.
    rewrite Hx, Hg, Nat.eqb_refl, map_map, Ht, He1, Hb, Nat.eqb_refl.
    split; [|split].
    - intros Hne. apply Nat.eqb_neq in Hne. rewrite Hne. reflexivity.
    - intros H1 H2. apply Nat.eqb_eq in H1. rewrite H1. cbn [negb].
      unfold badd at 1. rewrite !map_length, Hxn, Htn, Nat.eqb_refl, He2.
      unfold badd. rewrite map2_length, !map_length, Hxn, Htn, Nat.min_id, H2, Nat.eqb_refl.
      eexists _, _. split; [reflexivity|]. simpl. unfold alen. simpl.
      split; [exact Hxn|]. split; [reflexivity|]. split.
      { eexists. split; [reflexivity|]. simpl. split; [reflexivity|]. split; [reflexivity|].
        unfold alen. simpl. rewrite !map_length, !map2_length, !map_length. lia. }
      split; [reflexivity|]. split; [reflexivity|]. split; [reflexivity|].
      intros i r ti ei Hr Hti Hei.
      rewrite !nth_error_map2, !nth_error_map, Hr, Hti, Hei. reflexivity.
    - intros H1 Hn1 e ->. apply Nat.eqb_eq in H1. rewrite H1. cbn [negb].
      unfold badd at 1. rewrite !map_length, Hxn, Htn, Nat.eqb_refl, He2.
      unfold badd. rewrite map2_length, !map_length, Hxn, Htn, Nat.min_id. cbn [length].
      apply Nat.eqb_neq in Hn1. rewrite Hn1. cbn [Nat.eqb hd].
      eexists _, _. split; [reflexivity|]. simpl. unfold alen. simpl.
      split; [exact Hxn|]. split; [reflexivity|].
      split; [rewrite map_length, map2_length, !map_length; lia|].
      intros i r ti Hr Hti. rewrite nth_error_map, !nth_error_map2, !nth_error_map, Hr, Hti. reflexivity.
  Qed.

  Lemma lin_init_l nf beta tau gamma :
    (forall g, gamma = Some g -> length g <> nf -> lin_init vzero nf beta tau gamma = Err ValueError) /\
    (forall g, gamma = Some g -> length g = nf -> exists l, lin_init vzero nf beta tau gamma = Ok l /\
        lg_beta l = beta /\ lg_tau l = tau /\ lg_gamma l = g /\ lg_features l = nf) /\
    (gamma = None -> exists l, lin_init vzero nf beta tau gamma = Ok l /\
        lg_beta l = beta /\ lg_tau l = tau /\ lg_gamma l = repeat vzero nf /\ lg_features l = nf).
  Proof.
    unfold lin_init. split; [|split].
    - intros g -> H. apply Nat.eqb_neq in H. rewrite H. reflexivity.
    - intros g -> H. apply Nat.eqb_eq in H. rewrite H. apply Nat.eqb_eq in H. eauto 10.
    - intros ->. eauto 10.
  Qed.
End Lin.
