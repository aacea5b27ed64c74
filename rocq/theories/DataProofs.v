From Coq Require Import List Arith ZArith Lia Bool Permutation.
From Verif Require Import PyBase PyLemmas Num NumLemmas DataModel DataSpec.
Import ListNotations.

(** * positions of a mask *)
Fixpoint pos (m : list bool) (o : nat) : list nat :=
  match m with [] => [] | b :: bs => if b then o :: pos bs (S o) else pos bs (S o) end.

Lemma filter_ext_in' {X} (f g : X -> bool) l : (forall x, In x l -> f x = g x) -> filter f l = filter g l.
Proof. apply filter_ext_in. Qed.

Lemma pos_filter m : forall o, pos m o = filter (fun j => nth (j - o) m false) (seq o (length m)).
Proof.
  induction m as [|b bs IH]; intros o; simpl; [reflexivity|].
  rewrite Nat.sub_diag.
  assert (E : filter (fun j => nth (j - o) (b :: bs) false) (seq (S o) (length bs)) =
              filter (fun j => nth (j - S o) bs false) (seq (S o) (length bs))).
  { apply filter_ext_in'. intros j Hj. apply in_seq in Hj.
    replace (j - o) with (S (j - S o)) by lia. reflexivity. }
  destruct b; simpl in *; rewrite E, IH; reflexivity.
Qed.

Lemma select_nth {V} (l : list V) : forall m o t, length m = length l ->
  nth_error (select m l) t =
  match nth_error (pos m o) t with Some j => nth_error l (j - o) | None => None end.
Proof.
  induction l as [|x xs IH]; intros [|b bs] o t H; simpl in *; try discriminate.
  - destruct t; reflexivity.
  - injection H as H.
    assert (Hs : forall t, nth_error (select bs xs) t =
      match nth_error (pos bs (S o)) t with Some j => nth_error (x :: xs) (j - o) | None => None end).
    { intros t'. rewrite (IH bs (S o) t' H).
      destruct (nth_error (pos bs (S o)) t') as [j|] eqn:E; [|reflexivity].
      assert (Hj : In j (pos bs (S o))) by (eapply nth_error_In; eauto).
      rewrite pos_filter in Hj. apply filter_In in Hj as [Hj _]. apply in_seq in Hj.
      replace (j - o) with (S (j - S o)) by lia. reflexivity. }
    destruct b; [|apply Hs].
    destruct t; simpl; [rewrite Nat.sub_diag; reflexivity|apply Hs].
Qed.

Lemma select_pos_length {V} (l : list V) : forall m o, length m = length l ->
  length (select m l) = length (pos m o).
Proof.
  induction l as [|x xs IH]; intros [|b bs] o H; simpl in *; try discriminate; [reflexivity|].
  injection H as H. destruct b; simpl; rewrite (IH bs (S o) H); reflexivity.
Qed.

Lemma map_nth_seq {X Y} (g : X -> Y) (d : X) (l : list X) :
  map (fun t => g (nth t l d)) (seq 0 (length l)) = map g l.
Proof.
  induction l as [|x xs IH]; simpl; [reflexivity|].
  f_equal. rewrite <- seq_shift, map_map. exact IH.
Qed.

Section Fold.
  Context {V : Type}.
  Implicit Types d f : expdata V.

  Lemma amask_ok m (a : arr V) : length m = length (arows a) ->
    amask m a = Ok (mkArr (atail a) (select m (arows a))).
  Proof. intros H. unfold amask, alen. rewrite H, Nat.eqb_refl. reflexivity. Qed.
  Lemma amask_bad m (a : arr V) : length m <> length (arows a) -> amask m a = Err IndexError.
  Proof. intros H. unfold amask, alen. apply Nat.eqb_neq in H. rewrite H. reflexivity. Qed.

  Lemma omask_ok m (a : option (arr V)) : present_len a (length m) ->
    omask m a = Ok (option_map (fun x => mkArr (atail x) (select m (arows x))) a).
  Proof. destruct a as [x|]; simpl; intros H; [rewrite amask_ok by auto|]; reflexivity. Qed.

  Definition folded d m (c : arr V) : expdata V :=
    ed_init (Some (mkArr (atail c) (select m (arows c))))
            (option_map (fun x => mkArr (atail x) (select m (arows x))) (dexp d))
            (option_map (fun x => mkArr (atail x) (select m (arows x))) (drsp d)).

  Lemma fold_by_ok d m c : dcov d = Some c -> length m = length (arows c) ->
    present_len (dexp d) (length m) -> present_len (drsp d) (length m) ->
    fold_by d m = Ok (folded d m c).
  Proof.
    intros Hc Hl He Hr. unfold fold_by, cmask. rewrite Hc, amask_ok by assumption. simpl.
    rewrite omask_ok by assumption. simpl. rewrite omask_ok by assumption. reflexivity.
  Qed.

  Lemma folded_n_units d m c : n_units (folded d m c) = length (select m (arows c)).
  Proof. reflexivity. Qed.

  Lemma folded_spec d m c : dcov d = Some c -> length m = length (arows c) ->
    n_features d = afeatures c ->
    present_len (dexp d) (length m) -> present_len (drsp d) (length m) ->
    aligned (folded d m c) /\ same_shape d (folded d m c) /\
    n_units (folded d m c) = length (pos m 0) /\
    units (folded d m c) = map (unit_of d) (pos m 0).
  Proof.
    intros Hc Hl Hf He Hr.
    assert (Hlen : forall a : option (arr V), present_len a (length m) ->
      present_len (option_map (fun x => mkArr (atail x) (select m (arows x))) a) (length (select m (arows c)))).
    { intros [x|]; simpl; intros H; [|exact I].
      rewrite (select_pos_length (arows x) m 0) by auto.
      rewrite (select_pos_length (arows c) m 0) by auto. reflexivity. }
    split; [|split; [|split]].
    - eexists. split; [reflexivity|]. split; [reflexivity|]. split; [reflexivity|].
      split; apply Hlen; assumption.
    - unfold same_shape. rewrite Hc. simpl. repeat split.
      + destruct (dexp d); reflexivity.
      + destruct (drsp d); reflexivity.
      + exact Hf.
    - rewrite folded_n_units. apply select_pos_length; assumption.
    - unfold units. rewrite folded_n_units, (select_pos_length (arows c) m 0) by assumption.
      rewrite <- (map_nth_seq (unit_of d) 0 (pos m 0)).
      apply map_ext_in. intros t Ht. apply in_seq in Ht.
      destruct (nth_error (pos m 0) t) as [j|] eqn:Ej.
      2:{ apply nth_error_None in Ej. lia. }
      rewrite (nth_error_nth _ _ 0 Ej).
      assert (Hsel : forall l : list (list V), length m = length l ->
                     nth_error (select m l) t = nth_error l j).
      { intros l Hll. rewrite (select_nth l m 0 t Hll), Ej, Nat.sub_0_r. reflexivity. }
      unfold unit_of. rewrite Hc. simpl. rewrite Hsel by assumption.
      f_equal; [f_equal|].
      + destruct (dexp d) as [x|]; simpl in *; [|reflexivity]. rewrite Hsel by auto. reflexivity.
      + destruct (drsp d) as [x|]; simpl in *; [|reflexivity]. rewrite Hsel by auto. reflexivity.
  Qed.

  Lemma select_count {X} (l : list X) m : length m = length l ->
    length (select m l) = length (filter (fun b => b) m).
  Proof.
    revert m; induction l as [|x xs IH]; intros [|b bs] H; simpl in *; try discriminate; [reflexivity|].
    injection H as H. destruct b; simpl; rewrite (IH bs H); reflexivity.
  Qed.

  Definition fold_mask (perm : list nat -> list nat) (n k i : nat) : list bool :=
    map (fun x => x =? i) (perm (map (fun j => j mod k) (seq 0 n))).

  Lemma fold_mask_length perm n k i : (forall l, length (perm l) = length l) ->
    length (fold_mask perm n k i) = n.
  Proof. intros H. unfold fold_mask. rewrite map_length, H, map_length, seq_length. reflexivity. Qed.

  Lemma k_fold_unfold perm d k : (1 <= k)%Z ->
    k_fold perm d k =
    mapM (fun i => fold_by d (fold_mask perm (n_units d) (Z.to_nat k) i)) (seq 0 (Z.to_nat k)).
  Proof. intros Hk. unfold k_fold. destruct (Z.ltb_spec k 1); [lia|]. reflexivity. Qed.

  Lemma k_fold_ok perm d k c : (1 <= k)%Z -> (forall l, length (perm l) = length l) ->
    dcov d = Some c -> length (arows c) = n_units d ->
    present_len (dexp d) (n_units d) -> present_len (drsp d) (n_units d) ->
    k_fold perm d k =
    Ok (map (fun i => folded d (fold_mask perm (n_units d) (Z.to_nat k) i) c) (seq 0 (Z.to_nat k))).
  Proof.
    intros Hk Hp Hc Hl He Hr. rewrite k_fold_unfold by assumption.
    apply mapM_map. intros i _. apply fold_by_ok; auto; rewrite fold_mask_length; auto.
  Qed.

  Lemma nth_fold_mask perm n k i j : (forall l, length (perm l) = length l) -> (j < n)%nat ->
    nth j (fold_mask perm n k i) false =
    (nth j (perm (map (fun j => j mod k) (seq 0 n))) 0 =? i).
  Proof.
    intros Hp Hj. unfold fold_mask.
    set (p := perm _). assert (length p = n) by (unfold p; rewrite Hp, map_length, seq_length; reflexivity).
    rewrite (nth_indep _ false ((fun x => x =? i) 0)) by (rewrite map_length; lia).
    rewrite (map_nth (fun x => x =? i)). reflexivity.
  Qed.

  Lemma filter_assign_perm (assign : nat -> nat) k s : (forall j, In j s -> assign j < k) ->
    Permutation (concat (map (fun i => filter (fun j => assign j =? i) s) (seq 0 k))) s.
  Proof.
    induction s as [|j s IH]; intros H.
    - rewrite (map_ext_in _ (fun _ => [])) by (intros; reflexivity).
      generalize (seq 0 k) as l; induction l; simpl; auto.
    - assert (Hj : assign j < k) by (apply H; simpl; auto).
      assert (IH' : Permutation (concat (map (fun i => filter (fun j => assign j =? i) s) (seq 0 k))) s)
        by (apply IH; intros; apply H; simpl; auto).
      transitivity (j :: concat (map (fun i => filter (fun j => assign j =? i) s) (seq 0 k)));
        [|constructor; exact IH']. clear IH IH'.
      assert (Hseq : seq 0 k = seq 0 (assign j) ++ assign j :: seq (S (assign j)) (k - S (assign j))).
      { rewrite <- (seq_app (assign j) 1 0) || idtac.
        replace k with (assign j + S (k - S (assign j))) at 1 by lia.
        rewrite seq_app. simpl. reflexivity. }
      rewrite Hseq, !map_app, !concat_app. simpl. rewrite Nat.eqb_refl.
      assert (Hne : forall a b, (forall i, In i (seq a b) -> i <> assign j) ->
        map (fun i => filter (fun j => assign j =? i) (j :: s)) (seq a b) =
        map (fun i => filter (fun j => assign j =? i) s) (seq a b)).
      { intros a b Hab. apply map_ext_in. intros i Hi. simpl.
        destruct (Nat.eqb_spec (assign j) i) as [E|]; [|reflexivity].
        exfalso. apply (Hab i Hi). auto. }
      simpl in Hne.
      rewrite (Hne 0 (assign j)) by (intros i Hi; apply in_seq in Hi; lia).
      rewrite (Hne (S (assign j)) (k - S (assign j))) by (intros i Hi; apply in_seq in Hi; lia).
      simpl. symmetry. apply Permutation_middle.
  Qed.

  Lemma concat_map_map {X Y Z} (g : Y -> Z) (h : X -> list Y) l :
    concat (map (fun i => map g (h i)) l) = map g (concat (map h l)).
  Proof. induction l; simpl; [reflexivity|]. rewrite map_app, IHl. reflexivity. Qed.

  (** * C01 *)
  Lemma k_fold_partition_l perm d k : aligned d -> (forall l, Permutation (perm l) l) -> (1 <= k)%Z ->
    exists folds, k_fold perm d k = Ok folds /\ length folds = Z.to_nat k /\
      Forall (fun f => aligned f /\ same_shape d f) folds /\
      Permutation (concat (map units folds)) (units d) /\
      exists assign : nat -> nat,
        (forall j, j < n_units d -> assign j < Z.to_nat k) /\
        (forall i f, nth_error folds i = Some f ->
           units f = map (unit_of d) (filter (fun j => assign j =? i) (seq 0 (n_units d)))).
  Proof.
    intros (c & Hc & Hl & Hf & He & Hr) Hp Hk.
    assert (Hpl : forall l, length (perm l) = length l) by (intros; apply Permutation_length, Hp).
    set (n := n_units d) in *. set (kn := Z.to_nat k).
    set (folds := map (fun i => folded d (fold_mask perm n kn i) c) (seq 0 kn)).
    set (assign := fun j => nth j (perm (map (fun j => j mod kn) (seq 0 n))) 0).
    assert (Hspec : forall i, aligned (folded d (fold_mask perm n kn i) c) /\
      same_shape d (folded d (fold_mask perm n kn i) c) /\
      units (folded d (fold_mask perm n kn i) c) =
        map (unit_of d) (filter (fun j => assign j =? i) (seq 0 n))).
    { intros i. destruct (folded_spec d (fold_mask perm n kn i) c) as (Ha & Hs & _ & Hu); auto;
        rewrite ?fold_mask_length; auto.
      split; [exact Ha|]. split; [exact Hs|].
      rewrite Hu, pos_filter, fold_mask_length by auto. f_equal.
      apply filter_ext_in. intros j Hj. apply in_seq in Hj.
      rewrite Nat.sub_0_r, nth_fold_mask by (auto; lia). reflexivity. }
    assert (Hbound : forall j, j < n -> assign j < kn).
    { intros j Hj.
      assert (Hin : In (assign j) (map (fun j => j mod kn) (seq 0 n))).
      { apply (Permutation_in _ (Hp _)). apply nth_In. rewrite Hpl, map_length, seq_length. exact Hj. }
      apply in_map_iff in Hin as (x & <- & _). apply Nat.mod_upper_bound. unfold kn; lia. }
    exists folds. split; [apply k_fold_ok; auto|].
    split; [unfold folds; rewrite map_length, seq_length; reflexivity|].
    split.
    { apply Forall_forall. intros f Hf'. apply in_map_iff in Hf' as (i & <- & _).
      destruct (Hspec i) as (? & ? & _). auto. }
    split.
    - unfold folds. rewrite map_map.
      rewrite (map_ext _ (fun i => map (unit_of d) (filter (fun j => assign j =? i) (seq 0 n))))
        by (intros i; apply Hspec).
      rewrite concat_map_map. apply Permutation_map. apply filter_assign_perm.
      intros j Hj. apply in_seq in Hj. apply Hbound. lia.
    - exists assign. split; [exact Hbound|].
      intros i f Hi. unfold folds in Hi. rewrite nth_error_map in Hi.
      destruct (nth_error (seq 0 kn) i) as [i'|] eqn:Ei; [|discriminate].
      simpl in Hi. injection Hi as <-.
      assert (i' = i). { apply nth_error_nth with (d := 0) in Ei as Ei'.
        rewrite seq_nth in Ei'; [lia|]. rewrite <- (seq_length kn 0).
        apply nth_error_Some. congruence. }
      subst i'. apply Hspec.
  Qed.

  (** * C02 *)
  Lemma filter_map_length {X Y} (g : X -> Y) (p : Y -> bool) l :
    length (filter p (map g l)) = length (filter (fun x => p (g x)) l).
  Proof. induction l; simpl; [reflexivity|]. destruct (p (g a)); simpl; congruence. Qed.

  Lemma filter_perm_length {X} (p : X -> bool) l l' : Permutation l l' ->
    length (filter p l) = length (filter p l').
  Proof.
    induction 1; simpl; auto; try congruence.
    - destruct (p x); simpl; congruence.
    - destruct (p x), (p y); simpl; reflexivity.
  Qed.

  Lemma residue_count n k i : 1 <= k -> i < k ->
    length (filter (fun j => j mod k =? i) (seq 0 n)) = n / k + (if i <? n mod k then 1 else 0).
  Proof.
    intros Hk Hi. induction n as [|n IH].
    - simpl. rewrite Nat.div_0_l, Nat.mod_0_l by lia. reflexivity.
    - rewrite seq_S, filter_app, app_length, IH. simpl.
      pose proof (Nat.div_mod n k ltac:(lia)) as Hdm.
      pose proof (Nat.mod_upper_bound n k ltac:(lia)) as Hub.
      destruct (Nat.eq_dec (S (n mod k)) k) as [E|E].
      + assert (S n / k = S (n / k)) as -> by (symmetry; apply (Nat.div_unique _ _ _ 0); nia).
        assert (S n mod k = 0) as -> by (symmetry; apply (Nat.mod_unique _ _ (S (n / k))); nia).
        destruct (Nat.ltb_spec i (n mod k)), (Nat.eqb_spec (n mod k) i), (Nat.ltb_spec i 0); simpl; lia.
      + assert (S n / k = n / k) as -> by (symmetry; apply (Nat.div_unique _ _ _ (S (n mod k))); nia).
        assert (S n mod k = S (n mod k)) as -> by (symmetry; apply (Nat.mod_unique _ _ (n / k)); nia).
        destruct (Nat.ltb_spec i (n mod k)), (Nat.eqb_spec (n mod k) i), (Nat.ltb_spec i (S (n mod k))); simpl; lia.
  Qed.

  Lemma k_fold_sizes_l perm d k folds : aligned d -> (forall l, Permutation (perm l) l) ->
    k_fold perm d k = Ok folds ->
    (forall i f, nth_error folds i = Some f ->
       n_units f = length (filter (fun j => j mod Z.to_nat k =? i) (seq 0 (n_units d))) /\
       n_units f = n_units d / Z.to_nat k + (if i <? n_units d mod Z.to_nat k then 1 else 0)) /\
    (forall f g, In f folds -> In g folds -> n_units f <= S (n_units g)).
  Proof.
    intros (c & Hc & Hl & Hf & He & Hr) Hp Hk.
    assert (Hpl : forall l, length (perm l) = length l) by (intros; apply Permutation_length, Hp).
    assert (Hk1 : (1 <= k)%Z).
    { unfold k_fold in Hk. destruct (Z.ltb_spec k 1); [discriminate|lia]. }
    rewrite (k_fold_ok perm d k c) in Hk by auto. injection Hk as <-.
    set (n := n_units d) in *. set (kn := Z.to_nat k).
    assert (Hkn : 1 <= kn) by (unfold kn; lia).
    assert (Hsz : forall i, n_units (folded d (fold_mask perm n kn i) c) =
                  length (filter (fun j => j mod kn =? i) (seq 0 n))).
    { intros i. rewrite folded_n_units, select_count by (rewrite fold_mask_length; auto).
      unfold fold_mask. rewrite filter_map_length.
      rewrite (filter_perm_length _ _ _ (Hp _)). rewrite filter_map_length. reflexivity. }
    assert (H1 : forall i f, nth_error (map (fun i => folded d (fold_mask perm n kn i) c) (seq 0 kn)) i = Some f ->
       n_units f = length (filter (fun j => j mod kn =? i) (seq 0 n)) /\
       n_units f = n / kn + (if i <? n mod kn then 1 else 0)).
    { intros i f Hi. rewrite nth_error_map in Hi.
      destruct (nth_error (seq 0 kn) i) as [i'|] eqn:Ei; [|discriminate].
      simpl in Hi. injection Hi as <-.
      assert (Hik : i < kn). { rewrite <- (seq_length kn 0). apply nth_error_Some. congruence. }
      assert (i' = i). { apply nth_error_nth with (d := 0) in Ei as Ei'.
        rewrite seq_nth in Ei' by lia. lia. }
      subst i'. rewrite Hsz. split; [reflexivity|]. apply residue_count; assumption. }
    split; [exact H1|].
    intros f g Hif Hig. apply In_nth_error in Hif as [i Hif]. apply In_nth_error in Hig as [j Hig].
    apply H1 in Hif as [_ ->]. apply H1 in Hig as [_ ->].
    destruct (i <? n mod kn), (j <? n mod kn); lia.
  Qed.

  (** * C03 *)
  Lemma mapM_first_err {X Y} (f : X -> res Y) x xs e : f x = Err e -> mapM f (x :: xs) = Err e.
  Proof. intros H. simpl. rewrite H. reflexivity. Qed.

  Lemma seq_pos k : 1 <= k -> seq 0 k = 0 :: seq 1 (k - 1).
  Proof. intros. destruct k; [lia|]. simpl. rewrite Nat.sub_0_r. reflexivity. Qed.

  Lemma k_fold_errors_l perm d k : (forall l, length (perm l) = length l) ->
    ((k < 1)%Z -> k_fold perm d k = Err ValueError) /\
    ((1 <= k)%Z -> dcov d = None -> k_fold perm d k = Err TypeError) /\
    ((1 <= k)%Z -> dcov d <> None ->
       ~ (present_len (dcov d) (n_units d) /\ present_len (dexp d) (n_units d) /\
          present_len (drsp d) (n_units d)) ->
       k_fold perm d k = Err IndexError) /\
    ((1 <= k)%Z -> dcov d <> None -> present_len (dcov d) (n_units d) ->
       present_len (dexp d) (n_units d) -> present_len (drsp d) (n_units d) ->
       exists folds, k_fold perm d k = Ok folds).
  Proof.
    intros Hp. split; [|split; [|split]].
    - intros Hk. unfold k_fold. destruct (Z.ltb_spec k 1); [reflexivity|lia].
    - intros Hk Hc. rewrite k_fold_unfold, seq_pos by lia.
      apply mapM_first_err. unfold fold_by, cmask. rewrite Hc. reflexivity.
    - intros Hk Hc Hbad. destruct (dcov d) as [c|] eqn:Ec; [|congruence]. clear Hc.
      rewrite k_fold_unfold, seq_pos by lia. apply mapM_first_err.
      pose proof (fold_mask_length perm (n_units d) (Z.to_nat k) 0 Hp) as Hml.
      set (m := fold_mask _ _ _ _) in *.
      unfold fold_by, cmask. rewrite Ec.
      destruct (Nat.eq_dec (length m) (length (arows c))) as [E1|E1].
      2:{ rewrite amask_bad by assumption. reflexivity. }
      rewrite amask_ok by assumption. simpl.
      assert (Ho : forall a : option (arr V), ~ present_len a (length m) -> omask m a = Err IndexError).
      { intros [x|]; simpl; intros H; [|tauto]. rewrite amask_bad by auto. reflexivity. }
      assert (Hdec : forall a : option (arr V), present_len a (length m) \/ ~ present_len a (length m)).
      { intros [x|]; simpl; [|auto]. destruct (Nat.eq_dec (length (arows x)) (length m)); auto. }
      destruct (Hdec (dexp d)) as [He|He]; [|rewrite (Ho _ He); reflexivity].
      rewrite (omask_ok _ _ He). simpl.
      destruct (Hdec (drsp d)) as [Hr|Hr]; [|rewrite (Ho _ Hr); reflexivity].
      exfalso. apply Hbad. rewrite <- Hml. simpl. auto.
    - intros Hk Hc Hl He Hr. destruct (dcov d) as [c|] eqn:Ec; [|congruence].
      eexists. apply (k_fold_ok perm d k c); auto.
  Qed.

  (** * C04 *)
  Lemma subsample_errors_l draw d p :
    fleb f0 p && fleb p (f_of_Z 1) = false -> subsample draw d p = Err ValueError.
  Proof. intros H. unfold subsample. rewrite H. reflexivity. Qed.

  Lemma pos_neg_perm m : forall o, Permutation (pos m o ++ pos (map negb m) o) (seq o (length m)).
  Proof.
    induction m as [|b bs IH]; intros o; simpl; [constructor|].
    destruct b; simpl.
    - constructor. apply IH.
    - rewrite <- (IH (S o)). symmetry. apply Permutation_middle.
  Qed.

  Lemma subsample_ok_l draw d p : aligned d -> (forall n, length (draw n) = n) ->
    fleb f0 p && fleb p (f_of_Z 1) = true ->
    exists a b, subsample draw d p = Ok (a, b) /\ aligned a /\ aligned b /\
      same_shape d a /\ same_shape d b /\
      exists inn : nat -> bool,
        units a = map (unit_of d) (filter inn (seq 0 (n_units d))) /\
        units b = map (unit_of d) (filter (fun j => negb (inn j)) (seq 0 (n_units d))) /\
        forall j u, nth_error (draw (n_units d)) j = Some u ->
          inn j = fltb u (fdiv p (fadd p (fsub (f_of_Z 1) p))).
  Proof.
    intros (c & Hc & Hl & Hf & He & Hr) Hd Hp. unfold subsample. rewrite Hp. simpl.
    set (m := choice_mask p (draw (n_units d))).
    assert (Hm : length m = n_units d) by (unfold m, choice_mask; rewrite map_length; apply Hd).
    assert (Hm' : length (map negb m) = n_units d) by (rewrite map_length; exact Hm).
    rewrite (omask_ok m (dexp d)) by (rewrite Hm; exact He). simpl.
    rewrite (omask_ok (map negb m) (dexp d)) by (rewrite Hm'; exact He). simpl.
    rewrite (omask_ok m (drsp d)) by (rewrite Hm; exact Hr). simpl.
    rewrite (omask_ok (map negb m) (drsp d)) by (rewrite Hm'; exact Hr). simpl.
    unfold cmask. rewrite Hc.
    rewrite (amask_ok m c) by congruence. simpl.
    rewrite (amask_ok (map negb m) c) by congruence. simpl.
    change (ed_init (Some (mkArr (atail c) (select m (arows c)))) _ _) with (folded d m c).
    change (ed_init (Some (mkArr (atail c) (select (map negb m) (arows c)))) _ _) with (folded d (map negb m) c).
    destruct (folded_spec d m c) as (Ha1 & Hs1 & _ & Hu1); auto; try (rewrite Hm; auto).
    destruct (folded_spec d (map negb m) c) as (Ha2 & Hs2 & _ & Hu2); auto; try (rewrite Hm'; auto).
    exists (folded d m c), (folded d (map negb m) c).
    do 5 (split; [solve [auto]|]).
    exists (fun j => nth j m false). split; [|split].
    - rewrite Hu1, pos_filter, Hm. f_equal. apply filter_ext. intros j. rewrite Nat.sub_0_r. reflexivity.
    - rewrite Hu2, pos_filter, Hm'. f_equal. apply filter_ext_in. intros j Hj. apply in_seq in Hj.
      rewrite Nat.sub_0_r.
      rewrite (nth_indep _ false (negb false)) by (rewrite Hm'; lia).
      apply map_nth.
    - intros j u Hj. apply nth_error_nth. unfold m, choice_mask. rewrite nth_error_map, Hj. reflexivity.
  Qed.

  (** p = 1 keeps every unit in the first part, p = 0 none *)
  Lemma filter_all {X} (p : X -> bool) l : (forall x, In x l -> p x = true) -> filter p l = l.
  Proof. induction l as [|x xs IH]; simpl; intros H; [reflexivity|]. rewrite H by auto. rewrite IH by auto. reflexivity. Qed.
  Lemma filter_none {X} (p : X -> bool) l : (forall x, In x l -> p x = false) -> filter p l = [].
  Proof. induction l as [|x xs IH]; simpl; intros H; [reflexivity|]. rewrite H by auto. rewrite IH by auto. reflexivity. Qed.

  Lemma subsample_extremes_l draw d : aligned d -> (forall n, length (draw n) = n) ->
    (forall n u, In u (draw n) -> fleb f0 u = true /\ fltb u (f_of_Z 1) = true) ->
    (exists a b, subsample draw d (f_of_Z 1) = Ok (a, b) /\ units a = units d /\ units b = []) /\
    (exists a b, subsample draw d f0 = Ok (a, b) /\ units a = [] /\ units b = units d).
  Proof.
    intros Ha Hd Hu. split.
    - destruct (subsample_ok_l draw d (f_of_Z 1) Ha Hd) as (a & b & E & _ & _ & _ & _ & inn & H1 & H2 & H3);
        [reflexivity|].
      assert (Hin : forall j, In j (seq 0 (n_units d)) -> inn j = true).
      { intros j Hj. apply in_seq in Hj.
        destruct (nth_error (draw (n_units d)) j) as [u|] eqn:Eu.
        2:{ apply nth_error_None in Eu. rewrite Hd in Eu. lia. }
        rewrite (H3 j u Eu). apply nth_error_In, Hu in Eu as [_ Eu]. exact Eu. }
      exists a, b. split; [exact E|]. split.
      + rewrite H1, filter_all by exact Hin. reflexivity.
      + rewrite H2, filter_none; [reflexivity|]. intros j Hj. rewrite (Hin j Hj). reflexivity.
    - destruct (subsample_ok_l draw d f0 Ha Hd) as (a & b & E & _ & _ & _ & _ & inn & H1 & H2 & H3);
        [reflexivity|].
      assert (Hin : forall j, In j (seq 0 (n_units d)) -> inn j = false).
      { intros j Hj. apply in_seq in Hj.
        destruct (nth_error (draw (n_units d)) j) as [u|] eqn:Eu.
        2:{ apply nth_error_None in Eu. rewrite Hd in Eu. lia. }
        rewrite (H3 j u Eu). apply nth_error_In, Hu in Eu as [Eu _].
        change (fdiv f0 (fadd f0 (fsub (f_of_Z 1) f0))) with f0.
        apply fleb_spec in Eu as (N0 & Nu & Hle). apply fltb_num_false; auto. }
      exists a, b. split; [exact E|]. split.
      + rewrite H1, filter_none by exact Hin. reflexivity.
      + rewrite H2, filter_all; [reflexivity|]. intros j Hj. rewrite (Hin j Hj). reflexivity.
  Qed.

  (** * C05 - C07 *)
  Variable vnone : V.

  Lemma np_r_some (a b : arr V) :
    np_r vnone (Some a) (Some b) =
    if list_eq_dec Nat.eq_dec (atail a) (atail b) then Ok (mkArr (atail a) (arows a ++ arows b)) else Err ValueError.
  Proof. reflexivity. Qed.

  Lemma append_field_ok (a b o : option (arr V)) : append_field vnone a b = Ok o <-> stacked a b o.
  Proof.
    unfold append_field, stacked. destruct a as [x|].
    - destruct b as [y|].
      + rewrite np_r_some. destruct (list_eq_dec Nat.eq_dec (atail x) (atail y)) as [E|E]; simpl.
        * split; [intros H; injection H as <-; eauto|]. intros (b & Hb & _ & ->). injection Hb as <-. reflexivity.
        * split; [discriminate|]. intros (b & Hb & Ht & _). injection Hb as <-. contradiction.
      + split; [discriminate|]. intros (b & Hb & _). discriminate.
    - split; [intros H; injection H as <-; reflexivity|intros ->; reflexivity].
  Qed.
  Lemma append_field_err (a b : option (arr V)) :
    ~ stackable a b -> append_field vnone a b = Err ValueError.
  Proof.
    unfold append_field, stackable. destruct a as [x|]; [|tauto].
    destruct b as [y|]; [|reflexivity]. rewrite np_r_some.
    destruct (list_eq_dec Nat.eq_dec (atail x) (atail y)) as [E|E]; simpl; [|reflexivity].
    intros H. exfalso. apply H. eauto.
  Qed.
  Lemma stackable_dec (a b : option (arr V)) : stackable a b \/ ~ stackable a b.
  Proof.
    unfold stackable. destruct a as [x|]; [|auto]. destruct b as [y|].
    - destruct (list_eq_dec Nat.eq_dec (atail x) (atail y)) as [E|E]; [left; eauto|].
      right. intros (b & Hb & Ht). injection Hb as <-. contradiction.
    - right. intros (b & Hb & _). discriminate.
  Qed.
  Lemma stackable_stacked (a b : option (arr V)) : stackable a b -> exists o, stacked a b o.
  Proof.
    unfold stackable, stacked. destruct a as [x|]; [|eauto]. intros (b' & -> & Ht). eauto.
  Qed.

  Lemma append_inv (a b r : expdata V) : append vnone a b = (r, None) ->
    n_features b = n_features a /\
    exists c, np_r vnone (dcov a) (dcov b) = Ok c /\ dcov r = Some c /\
      stacked (dexp a) (dexp b) (dexp r) /\ stacked (drsp a) (drsp b) (drsp r) /\
      n_units r = length (arows c) /\ n_features r = n_features a.
  Proof.
    unfold append. destruct (Nat.eqb_spec (n_features b) (n_features a)) as [Ef|]; simpl; [|discriminate].
    destruct (np_r vnone (dcov a) (dcov b)) as [c|] eqn:Ec; [|discriminate].
    destruct (append_field vnone (dexp a) (dexp b)) as [x|] eqn:Ex; [|discriminate].
    destruct (append_field vnone (drsp a) (drsp b)) as [y|] eqn:Ey; [|discriminate].
    intros H. injection H as <-. simpl. apply append_field_ok in Ex. apply append_field_ok in Ey.
    split; [exact Ef|]. exists c. repeat split; auto.
  Qed.
  Lemma append_intro (a b r : expdata V) c : n_features b = n_features a ->
    np_r vnone (dcov a) (dcov b) = Ok c -> dcov r = Some c ->
    stacked (dexp a) (dexp b) (dexp r) -> stacked (drsp a) (drsp b) (drsp r) ->
    n_units r = length (arows c) -> n_features r = n_features a ->
    append vnone a b = (r, None).
  Proof.
    intros Hf Hc Hr He Hy Hn Hfr. unfold append. rewrite Hf, Nat.eqb_refl. simpl. rewrite Hc.
    apply append_field_ok in He. apply append_field_ok in Hy. rewrite He, Hy.
    destruct r as [rc re ry rn rf]. simpl in *. subst. reflexivity.
  Qed.

  Lemma append_concat_l (a b r : expdata V) : aligned a -> aligned b -> append vnone a b = (r, None) ->
    stacked (dcov a) (dcov b) (dcov r) /\ stacked (dexp a) (dexp b) (dexp r) /\
    stacked (drsp a) (drsp b) (drsp r) /\
    n_units r = n_units a + n_units b /\ n_features r = n_features a /\ aligned r.
  Proof.
    intros (ca & Hca & Hla & Hfa & Hea & Hra) (cb & Hcb & Hlb & Hfb & Heb & Hrb) H.
    apply append_inv in H as (Hf & c & Hc & Hr & He & Hy & Hn & Hfr).
    rewrite Hca, Hcb, np_r_some in Hc.
    destruct (list_eq_dec Nat.eq_dec (atail ca) (atail cb)) as [E|E]; [|discriminate].
    injection Hc as <-. simpl in *. rewrite app_length in Hn.
    assert (Hst : forall x y z m n, stacked x y z -> present_len x m -> present_len y n -> @present_len V z (m + n)).
    { intros [x|] y z m n; simpl; [|intros ->; simpl; auto].
      intros (b' & -> & Ht & ->) Hx Hy'. simpl in *. rewrite app_length. lia. }
    split; [rewrite Hca, Hcb; simpl; exists cb; auto|].
    split; [exact He|]. split; [exact Hy|]. split; [lia|]. split; [exact Hfr|].
    exists (mkArr (atail ca) (arows ca ++ arows cb)).
    split; [exact Hr|]. split; [simpl; rewrite app_length; lia|].
    split; [rewrite Hfr, Hfa; reflexivity|].
    replace (n_units r) with (n_units a + n_units b) by lia. eauto.
  Qed.

  Lemma stacked_assoc (a b c ab bc abc : option (arr V)) :
    stacked a b ab -> stacked ab c abc -> stacked b c bc -> stacked a bc abc.
  Proof.
    unfold stacked. destruct a as [x|].
    - intros (y & -> & Hxy & ->) (z & -> & Hxz & ->) (z' & Hz & _ & ->). injection Hz as <-.
      simpl in *. eexists. split; [reflexivity|]. simpl. split; [exact Hxy|].
      rewrite app_assoc. reflexivity.
    - intros -> ->. auto.
  Qed.

  Lemma append_assoc_l (a b c ab bc abc : expdata V) :
    append vnone a b = (ab, None) -> append vnone ab c = (abc, None) -> append vnone b c = (bc, None) ->
    append vnone a bc = (abc, None).
  Proof.
    intros H1 H2 H3.
    apply append_inv in H1 as (Hf1 & c1 & Hc1 & Hr1 & He1 & Hy1 & Hn1 & Hfr1).
    apply append_inv in H2 as (Hf2 & c2 & Hc2 & Hr2 & He2 & Hy2 & Hn2 & Hfr2).
    apply append_inv in H3 as (Hf3 & c3 & Hc3 & Hr3 & He3 & Hy3 & Hn3 & Hfr3).
    apply (append_intro a bc abc c2); try congruence.
    - rewrite Hr3. rewrite Hr1 in Hc2. unfold np_r in *. simpl in *.
      set (ra := r_operand vnone (dcov a)) in *. set (rb := r_operand vnone (dcov b)) in *.
      set (rc := r_operand vnone (dcov c)) in *.
      destruct (list_eq_dec Nat.eq_dec (atail ra) (atail rb)) as [E|E]; [|discriminate].
      injection Hc1 as <-. simpl in *.
      destruct (list_eq_dec Nat.eq_dec (atail ra) (atail rc)) as [E2|E2]; [|discriminate].
      injection Hc2 as <-.
      destruct (list_eq_dec Nat.eq_dec (atail rb) (atail rc)) as [E3|E3]; [|discriminate].
      injection Hc3 as <-. simpl.
      destruct (list_eq_dec Nat.eq_dec (atail ra) (atail rb)) as [_|]; [|congruence].
      rewrite app_assoc. reflexivity.
    - eapply stacked_assoc; eauto.
    - eapply stacked_assoc; eauto.
  Qed.

  Lemma append_all_units_l bs : forall (d r : expdata V) c, aligned d -> Forall aligned bs ->
    append_all vnone d bs = (r, None) -> dcov d = Some c ->
    aligned r /\
    (exists c', dcov r = Some c' /\ atail c' = atail c /\
      arows c' = arows c ++ concat (map (fun b => match dcov b with Some x => arows x | None => [] end) bs)) /\
    option_map arows (dexp r) = option_map (fun x => arows x ++
      concat (map (fun b => match dexp b with Some x => arows x | None => [] end) bs)) (dexp d) /\
    option_map arows (drsp r) = option_map (fun x => arows x ++
      concat (map (fun b => match drsp b with Some x => arows x | None => [] end) bs)) (drsp d) /\
    n_units r = n_units d + list_sum (map n_units bs).
  Proof.
    induction bs as [|b bs IH]; simpl; intros d r c Ha Hbs H Hc.
    - injection H as <-. split; [exact Ha|].
      split; [exists c; rewrite app_nil_r; auto|].
      assert (E : forall o : option (arr V), option_map arows o = option_map (fun x => arows x ++ []) o).
      { intros [x|]; simpl; [rewrite app_nil_r|]; reflexivity. }
      rewrite <- !E. auto with arith.
    - inversion Hbs as [|? ? Hb Hbs']; subst.
      destruct (append vnone d b) as [d' [e|]] eqn:E; [discriminate|].
      destruct (append_concat_l d b d' Ha Hb E) as (Sc & Se & Sr & Hn & _ & Ha').
      rewrite Hc in Sc. destruct Sc as (cb & Hcb & Ht & Hcd).
      destruct (IH d' r _ Ha' Hbs' H Hcd) as (Hal & (c' & Hc' & Htc & Hrows) & He & Hr & Hn').
      simpl in Htc, Hrows.
      split; [exact Hal|]. split.
      { exists c'. split; [exact Hc'|]. split; [exact Htc|]. rewrite Hcb, Hrows, app_assoc. reflexivity. }
      assert (Est : forall x y z (p : list (list V)), stacked x y z ->
        option_map (fun a => arows a ++ p) z =
        option_map (fun a => arows a ++ (match y with Some v => arows v | None => [] end) ++ p) x).
      { intros [x|] y z p; simpl; [|intros ->; reflexivity].
        intros (v & -> & _ & ->). simpl. rewrite app_assoc. reflexivity. }
      rewrite He, Hr, (Est _ _ _ _ Se), (Est _ _ _ _ Sr). repeat split; auto. lia.
  Qed.

  (** * C06 *)
  Lemma append_raises_l (a b : expdata V) : dcov a <> None -> dcov b <> None ->
    (snd (append vnone a b) = None <->
     n_features b = n_features a /\ stackable (dcov a) (dcov b) /\
     stackable (dexp a) (dexp b) /\ stackable (drsp a) (drsp b)) /\
    (snd (append vnone a b) <> None -> snd (append vnone a b) = Some ValueError) /\
    (* the state left behind *)
    (~ (n_features b = n_features a /\ stackable (dcov a) (dcov b)) ->
       fst (append vnone a b) = a) /\
    (n_features b = n_features a -> forall ca cb, dcov a = Some ca -> dcov b = Some cb -> atail ca = atail cb ->
       ~ stackable (dexp a) (dexp b) ->
       fst (append vnone a b) =
         mkED (Some (mkArr (atail ca) (arows ca ++ arows cb))) (dexp a) (drsp a) (n_units a) (n_features a)) /\
    (n_features b = n_features a -> forall ca cb, dcov a = Some ca -> dcov b = Some cb -> atail ca = atail cb ->
       forall x, stacked (dexp a) (dexp b) x -> ~ stackable (drsp a) (drsp b) ->
       fst (append vnone a b) =
         mkED (Some (mkArr (atail ca) (arows ca ++ arows cb))) x (drsp a) (n_units a) (n_features a)).
  Proof.
    intros Ha Hb. destruct (dcov a) as [ca|] eqn:Eca; [|congruence].
    destruct (dcov b) as [cb|] eqn:Ecb; [|congruence]. clear Ha Hb.
    unfold append. rewrite Eca, Ecb, np_r_some.
    destruct (Nat.eqb_spec (n_features b) (n_features a)) as [Ef|Ef]; simpl.
    2:{ repeat split; try tauto; try discriminate. }
    destruct (list_eq_dec Nat.eq_dec (atail ca) (atail cb)) as [Et|Et].
    2:{ simpl. split; [|split; [|split; [|split]]].
        - split; [discriminate|]. intros (_ & (x & Hx & Ht) & _). injection Hx as <-. contradiction.
        - auto.
        - auto.
        - intros _ ? ? H1 H2 H3. congruence.
        - intros _ ? ? H1 H2 H3. congruence. }
    destruct (stackable_dec (dexp a) (dexp b)) as [Se|Se].
    2:{ rewrite append_field_err by assumption. simpl. split; [|split; [|split; [|split]]].
        - split; [discriminate|]. tauto.
        - auto.
        - intros H. exfalso. apply H. eauto.
        - intros _ ? ? H1 H2 _ _. injection H1 as <-. injection H2 as <-. reflexivity.
        - intros _ ? ? H1 H2 _ x Hx. exfalso. apply Se. unfold stackable, stacked in *.
          destruct (dexp a); [|exact I]. destruct Hx as (y & ? & ? & _). eauto. }
    destruct (stackable_stacked _ _ Se) as (x & Hx). pose proof Hx as Hx'.
    apply append_field_ok in Hx'. rewrite Hx'.
    destruct (stackable_dec (drsp a) (drsp b)) as [Sr|Sr].
    - destruct (stackable_stacked _ _ Sr) as (y & Hy). apply append_field_ok in Hy. rewrite Hy. simpl.
      split; [|split; [|split; [|split]]]; try tauto.
      + split; [|reflexivity]. intros _. repeat split; auto. eauto.
      + intros H. exfalso. apply H. eauto.
    - rewrite append_field_err by assumption. simpl. split; [|split; [|split; [|split]]].
      + split; [discriminate|]. tauto.
      + auto.
      + intros H. exfalso. apply H. eauto.
      + tauto.
      + intros _ ? ? H1 H2 _ x' Hx'' _. injection H1 as <-. injection H2 as <-.
        apply append_field_ok in Hx''. congruence.
  Qed.

  Lemma append_half_done_l (a b : expdata V) perm k : aligned a -> aligned b -> 0 < n_units b ->
    (forall l, length (perm l) = length l) -> (1 <= k)%Z ->
    n_features b = n_features a -> stackable (dcov a) (dcov b) ->
    snd (append vnone a b) <> None ->
    exists c, dcov (fst (append vnone a b)) = Some c /\
      length (arows c) = n_units a + n_units b /\
      n_units (fst (append vnone a b)) = n_units a /\
      drsp (fst (append vnone a b)) = drsp a /\
      k_fold perm (fst (append vnone a b)) k = Err IndexError.
  Proof.
    intros (ca & Hca & Hla & Hfa & Hea & Hra) (cb & Hcb & Hlb & Hfb & Heb & Hrb) Hpos Hp Hk Hf Hs Hfail.
    destruct (append_raises_l a b ltac:(congruence) ltac:(congruence)) as (Hiff & _ & _ & H1 & H2).
    rewrite Hca in Hs. destruct Hs as (cb' & Hcb' & Ht). assert (cb' = cb) by congruence. subst cb'.
    assert (Hgoal : forall d, dcov d = Some (mkArr (atail ca) (arows ca ++ arows cb)) ->
      n_units d = n_units a -> drsp d = drsp a ->
      exists c, dcov d = Some c /\ length (arows c) = n_units a + n_units b /\ n_units d = n_units a /\
        drsp d = drsp a /\ k_fold perm d k = Err IndexError).
    { intros d Hd Hn Hr. eexists. split; [exact Hd|]. simpl. rewrite app_length.
      split; [lia|]. split; [exact Hn|]. split; [exact Hr|].
      apply (k_fold_errors_l perm d k Hp); [exact Hk|congruence|].
      rewrite Hd. simpl. rewrite app_length. lia. }
    destruct (stackable_dec (dexp a) (dexp b)) as [Se|Se].
    - destruct (stackable_dec (drsp a) (drsp b)) as [Sr|Sr].
      + exfalso. apply Hfail. apply Hiff. rewrite Hca. repeat split; auto. simpl. eauto.
      + destruct (stackable_stacked _ _ Se) as (x & Hx).
        rewrite (H2 Hf ca cb Hca Hcb Ht x Hx Sr). apply Hgoal; reflexivity.
    - rewrite (H1 Hf ca cb Hca Hcb Ht Se). apply Hgoal; reflexivity.
  Qed.

  (** * C07 *)
  Lemma append_empty_l (e y : option (arr V)) (d : expdata V) : 1 <= n_features d ->
    append vnone (ed_init None e y) d = (ed_init None e y, Some ValueError).
  Proof.
    intros H. unfold append. simpl. destruct (Nat.eqb_spec (n_features d) 0); [lia|]. reflexivity.
  Qed.
  Lemma append_empty_twice_l :
    let z := ed_init (V := V) None None None in
    snd (append vnone z z) = None /\ n_units (fst (append vnone z z)) = 2.
  Proof. split; reflexivity. Qed.
End Fold.
