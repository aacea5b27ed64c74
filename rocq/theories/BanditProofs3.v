(** Successive elimination: accounting, candidates, survival of the best arm; exits of all
    three algorithms. *)
From Coq Require Import List Arith ZArith Lia Bool Reals Lra.
From Flocq Require Import Core BinarySingleNaN.
From Verif Require Import PyBase PyLemmas Num NumLemmas BanditModel BanditSpec BanditProofs1 BanditProofs2.
Import ListNotations.
Open Scope nat_scope.

Lemma select_In {X} (mask : list bool) : forall (l : list X) x, In x (select mask l) -> In x l.
Proof.
  induction mask as [|b bs IH]; intros [|y l] x; simpl; try tauto.
  destruct b; simpl; [intros [->|H]; auto|auto].
Qed.
Lemma select_NoDup {X} (mask : list bool) : forall (l : list X), NoDup l -> NoDup (select mask l).
Proof.
  induction mask as [|b bs IH]; intros [|y l] H; simpl; try constructor.
  inversion H; subst. destruct b; [constructor; auto|auto]. intros Hin. apply select_In in Hin. contradiction.
Qed.
Lemma select_map_In {X} (p : X -> bool) (l : list X) x : In x (select (map p l) l) <-> In x l /\ p x = true.
Proof.
  induction l as [|y l IH]; simpl; [tauto|].
  destruct (p y) eqn:E; simpl; rewrite IH; intuition (subst; auto; congruence).
Qed.
Lemma select_map_map_In {X Y} (p : X -> bool) (f : X -> Y) (l : list X) y :
  In y (select (map p l) (map f l)) <-> exists x, In x l /\ p x = true /\ f x = y.
Proof.
  induction l as [|a l IH]; simpl; [firstorder|].
  destruct (p a) eqn:E; simpl; rewrite IH; clear IH.
  - split.
    + intros [<-|(x & H1 & H2 & H3)]; eauto.
    + intros (x & [->|H1] & H2 & H3); eauto.
  - split.
    + intros (x & H1 & H2 & H3); eauto.
    + intros (x & [->|H1] & H2 & H3); [congruence|]. eauto.
Qed.

Lemma cand_readings_map cand rs : (forall i, In i cand -> i < length rs) ->
  cand_readings cand rs = map (rd rs) cand.
Proof.
  induction cand as [|i cand IH]; simpl; intros H; [reflexivity|].
  rewrite IH by auto. destruct (nth_error rs i) as [r|] eqn:E.
  - simpl. f_equal. symmetry. apply nth_error_nth. exact E.
  - apply nth_error_None in E. specialize (H i (or_introl eq_refl)). lia.
Qed.

Lemma eliminate_spec cand rs cand' : (forall i, In i cand -> i < length rs) ->
  eliminate cand rs = Ok cand' ->
  exists b, In b cand /\ num (r_var (rd rs b)) /\
    (forall i, In i cand -> num (r_var (rd rs i)) -> (fkey (r_var (rd rs b)) <= fkey (r_var (rd rs i)))%R) /\
    cand' = select (map (fun i => fltb (r_lcb (rd rs i)) (r_ucb (rd rs b))) cand) cand.
Proof.
  intros Hin. unfold eliminate. rewrite (cand_readings_map _ _ Hin).
  intros H. apply bind_ok in H as (m & Hm & H). apply bind_ok in H as (lu & Hlu & H). injection H as <-.
  rewrite !map_map in *.
  pose proof (py_min_in _ _ Hlu) as Hl.
  apply select_map_map_In in Hl as (b & Hb & He & Hu). apply feqb_spec in He as (Hn1 & Hn2 & Hk).
  exists b. split; [exact Hb|]. split; [exact Hn1|]. split.
  - intros i Hi Hni. rewrite Hk. apply (py_min_lower _ _ Hm Hn2); [|exact Hni].
    apply in_map_iff. eauto.
  - rewrite Hu. reflexivity.
Qed.
Lemma eliminate_In cand rs cand' i : (forall i, In i cand -> i < length rs) -> eliminate cand rs = Ok cand' -> In i cand' -> In i cand.
Proof. intros Hin H Hi. destruct (eliminate_spec _ _ _ Hin H) as (b & _ & _ & _ & ->). eapply select_In; eauto. Qed.
Lemma eliminate_NoDup cand rs cand' : (forall i, In i cand -> i < length rs) -> eliminate cand rs = Ok cand' -> NoDup cand -> NoDup cand'.
Proof. intros Hin H Hi. destruct (eliminate_spec _ _ _ Hin H) as (b & _ & _ & _ & ->). apply select_NoDup, Hi. Qed.

(** sums *)
Lemma list_sum_app l1 l2 : list_sum (l1 ++ l2) = list_sum l1 + list_sum l2.
Proof. unfold list_sum. rewrite fold_right_app. induction l1; simpl; lia. Qed.

Lemma sum_indicator (u : nat) (f : nat -> bool) k n :
  list_sum (map (fun i => if f i then u else 0) (seq k n)) = u * length (filter f (seq k n)).
Proof. revert k; induction n as [|n IH]; intros k; simpl; [lia|]. rewrite IH. destruct (f k); simpl; lia. Qed.

Lemma existsb_In i l : existsb (Nat.eqb i) l = true <-> In i l.
Proof. rewrite existsb_exists. split; [intros (x & H & E); apply Nat.eqb_eq in E; subst; auto|]. intros H. exists i. rewrite Nat.eqb_refl. auto. Qed.

Lemma filter_In_length cand K : NoDup cand -> (forall i, In i cand -> i < K) ->
  length (filter (fun i => existsb (Nat.eqb i) cand) (seq 0 K)) = length cand.
Proof.
  intros Hnd Hb. apply Nat.le_antisymm.
  - apply NoDup_incl_length; [apply NoDup_filter, seq_NoDup|].
    intros i Hi. apply filter_In in Hi as [_ Hi]. apply existsb_In, Hi.
  - apply NoDup_incl_length; [exact Hnd|].
    intros i Hi. apply filter_In. split; [apply in_seq; specialize (Hb i Hi); lia|]. apply existsb_In, Hi.
Qed.
Lemma smp_of_sum cfg cand K : NoDup cand -> (forall i, In i cand -> i < K) ->
  list_sum (smp_of cfg cand K) = length cand * c_units cfg.
Proof. intros H1 H2. unfold smp_of. rewrite sum_indicator, filter_In_length by assumption. lia. Qed.
Lemma smp_of_nth cfg cand K j : nth_error (smp_of cfg cand K) j =
  if j <? K then Some (if existsb (Nat.eqb j) cand then c_units cfg else 0) else None.
Proof.
  unfold smp_of. rewrite nth_error_map. destruct (Nat.ltb_spec j K) as [H|H].
  - rewrite nth_error_nth' with (d := 0) by (rewrite seq_length; lia). rewrite seq_nth by lia. reflexivity.
  - rewrite (proj2 (nth_error_None _ _)) by (rewrite seq_length; lia). reflexivity.
Qed.

Lemma sums_push (h : list (list nat)) xs n t : Forall (fun l => length l = n) h -> length h = length xs ->
  list_sum (map (fun l => list_sum (firstn (S t) l)) (push h xs)) =
  list_sum (map (fun l => list_sum (firstn (S t) l)) h) + (if n <=? t then list_sum xs else 0).
Proof.
  intros Hf. revert xs; induction Hf as [|l h Hl Hf IH]; intros [|x xs] Hlen; simpl in Hlen; try discriminate.
  - simpl. destruct (n <=? t); reflexivity.
  - cbn [push map2 map list_sum fold_right]. unfold push in IH.
    change (fold_right Nat.add 0) with list_sum. rewrite IH by lia.
    assert (E : list_sum (firstn (S t) (l ++ [x])) = list_sum (firstn (S t) l) + (if n <=? t then x else 0)).
    { rewrite firstn_app, Hl, list_sum_app. f_equal. destruct (Nat.leb_spec n t) as [H|H].
      - replace (S t - n) with (S (t - n)) by lia. simpl. rewrite firstn_nil. simpl. lia.
      - replace (S t - n) with 0 by lia. reflexivity. }
    rewrite E. destruct (n <=? t); simpl; lia.
Qed.

Section P.
  Context {A D G : Type} (ops : arm_ops A D G) (w : world D G) (cfg : config).
  Notation bstate := (bstate (A := A) (G := G)).
  Implicit Types s : bstate.

  (** arms outside the list are untouched *)
  Lemma pull_list_other all delta is : forall arms g j, ~ In j is ->
    nth_error (fst (fst (pull_list ops w cfg all delta is arms g))) j = nth_error arms j.
  Proof.
    induction is as [|i is IH]; simpl; intros arms g j Hj; [reflexivity|].
    destruct (nth_error arms i) as [a|]; [|reflexivity].
    destruct (get_data w cfg all (a_units ops a) g) as [[d|e] g1]; [|reflexivity].
    destruct (a_update ops a d delta g1) as [[a' g2] [e|]]; simpl.
    - rewrite nth_error_modify. destruct (Nat.eqb_spec i j); [exfalso; auto|reflexivity].
    - rewrite IH by auto. rewrite nth_error_modify. destruct (Nat.eqb_spec i j); [exfalso; auto|reflexivity].
  Qed.

  Lemma recorded_next s arms' g2 rs smp total cand' K j t : shape ops K s -> length rs = K -> j < K ->
    let s' := record_round (set_arms s arms' g2) rs smp total in
    recorded (mkB (b_arms s') (b_g s') (b_hist s') (b_smp s') (b_cum s') (b_total s') cand') j t =
    if t =? length (b_cum s) then nth_error rs j else recorded s j t.
  Proof.
    intros Hs Hl Hj. unfold recorded. simpl. rewrite nth_push.
    pose proof (sh_hist _ _ _ Hs) as Hh. pose proof (sh_hlen _ _ _ Hs) as Hf.
    destruct (nth_error (b_hist s) j) as [h|] eqn:Eh; [|apply nth_error_None in Eh; lia].
    destruct (nth_error rs j) as [r|] eqn:Er; [|apply nth_error_None in Er; lia].
    rewrite nth_error_snoc. rewrite Forall_forall in Hf. rewrite (Hf h) by (eapply nth_error_In; eauto). reflexivity.
  Qed.

  (** one record per arm: sampled in the first [r] rounds, never afterwards *)
  Definition arm_record s (j r : nat) : Prop :=
    r <= length (b_cum s) /\ (1 <= length (b_cum s) -> 1 <= r) /\
    nth_error (b_smp s) j = Some (repeat (c_units cfg) r ++ repeat 0 (length (b_cum s) - r)) /\
    forall t, r <= t < length (b_cum s) -> recorded s j t = recorded s j (r - 1).

  Record se_inv K s : Prop := mkSe {
    se_shp : shape ops K s;
    se_nd : NoDup (b_cand s);
    se_b : forall i, In i (b_cand s) -> i < K;
    se_rec : forall j, j < K -> exists r, arm_record s j r /\ (In j (b_cand s) -> r = length (b_cum s));
    se_cum : forall t, t < length (b_cum s) -> nth_error (b_cum s) t = Some (samples_upto s t);
    se_tot : b_total s = list_sum (map list_sum (b_smp s));
    se_low : 2 * c_units cfg * length (b_cum s) <= b_total s;
    se_all : length (b_cum s) = 0 -> forall j, j < K -> In j (b_cand s) }.

  Lemma se_inv_init arms g : se_inv (length arms) (binit arms g).
  Proof.
    constructor; simpl.
    - apply shape_init.
    - apply seq_NoDup.
    - intros i Hi. apply in_seq in Hi. lia.
    - intros j Hj. exists 0. split; [|reflexivity]. unfold arm_record; simpl.
      split; [lia|]. split; [lia|]. split; [|lia].
      rewrite nth_error_map. destruct (nth_error arms j) eqn:E; [reflexivity|]. apply nth_error_None in E. lia.
    - lia.
    - induction arms; simpl; auto.
    - lia.
    - intros _ j Hj. apply in_seq. lia.
  Qed.

  Lemma sum_push (h : list (list nat)) xs : length h = length xs ->
    list_sum (map list_sum (push h xs)) = list_sum (map list_sum h) + list_sum xs.
  Proof.
    revert xs; induction h as [|l h IH]; intros [|x xs] H; simpl in *; try discriminate; [reflexivity|].
    unfold push in IH. rewrite IH by lia. rewrite list_sum_app. simpl. lia.
  Qed.

  Lemma repeat_snoc0 {X} (x : X) n : repeat x n ++ [x] = repeat x (S n).
  Proof. induction n; simpl; [reflexivity|]. f_equal. exact IHn. Qed.

  Lemma se_inv_next K all s arms' g2 rs cand' : se_inv K s -> 1 < length (b_cand s) ->
    pull_list ops w cfg all (delta_of cfg (b_arms s)) (b_cand s) (b_arms s) (b_g s) = ((arms', g2), None) ->
    collect ops arms' = Ok rs -> eliminate (b_cand s) rs = Ok cand' ->
    se_inv K (s_next cfg s arms' g2 rs cand').
  Proof.
    intros [H1 H2 H3 H4 H5 H6 H7 H8] Hc Hp Hco Hel.
    assert (Hal : length arms' = K) by (eapply pull_list_len'; [apply H1|exact Hp]).
    pose proof (collect_length ops _ _ Hco) as Hrl. rewrite Hal in Hrl.
    pose proof (sh_arms _ _ _ H1) as Ha. pose proof (sh_smp _ _ _ H1) as Hs. pose proof (sh_slen _ _ _ H1) as Hsl.
    assert (Hin : forall i, In i (b_cand s) -> i < length rs) by (intros i Hi; rewrite Hrl; auto).
    assert (Hcl : length (b_cum (s_next cfg s arms' g2 rs cand')) = S (length (b_cum s))).
    { simpl. rewrite app_length. simpl. lia. }
    constructor.
    - apply shape_s_next; assumption.
    - simpl. eapply eliminate_NoDup; eauto.
    - simpl. intros i Hi. apply H3. eapply eliminate_In; eauto.
    - intros j Hj. destruct (H4 j Hj) as (r & (Hr1 & Hr2 & Hr3 & Hr4) & Hr5).
      unfold arm_record. rewrite Hcl.
      assert (Hrec : forall t, recorded (s_next cfg s arms' g2 rs cand') j t =
                if t =? length (b_cum s) then nth_error rs j else recorded s j t).
      { intros t. apply (recorded_next s arms' g2 rs _ _ cand' K j t H1 Hrl Hj). }
      assert (Hsm : nth_error (b_smp (s_next cfg s arms' g2 rs cand')) j =
        Some ((repeat (c_units cfg) r ++ repeat 0 (length (b_cum s) - r)) ++
              [if existsb (Nat.eqb j) (b_cand s) then c_units cfg else 0])).
      { simpl. rewrite nth_push, Hr3, smp_of_nth, Ha. apply Nat.ltb_lt in Hj as ->. reflexivity. }
      rewrite Hsm. destruct (existsb (Nat.eqb j) (b_cand s)) eqn:Ein.
      + apply existsb_In in Ein. specialize (Hr5 Ein). subst r. exists (S (length (b_cum s))).
        split; [|reflexivity]. split; [lia|]. split; [lia|]. split; [|lia].
        rewrite !Nat.sub_diag. simpl repeat at 2 4. rewrite !app_nil_r. f_equal. apply repeat_snoc0.
      + assert (Hni : ~ In j (b_cand s)) by (rewrite <- existsb_In; congruence).
        assert (HR : 1 <= length (b_cum s)).
        { destruct (Nat.eq_dec (length (b_cum s)) 0) as [E|]; [|lia]. exfalso. auto. }
        exists r. split; [|intros Hi; exfalso; apply Hni; eapply eliminate_In; eauto].
        split; [lia|]. split; [intros _; auto|]. split.
        * rewrite <- app_assoc, repeat_snoc0. do 3 f_equal. lia.
        * intros t Ht. rewrite !Hrec.
          assert ((r - 1 =? length (b_cum s)) = false) as -> by (apply Nat.eqb_neq; lia).
          destruct (Nat.eqb_spec t (length (b_cum s))) as [->|Hne]; [|apply Hr4; lia].
          destruct (sh_last _ _ _ H1) as [E|(rs0 & Hc0 & Hlast)]; [rewrite E in HR; simpl in HR; lia|].
          assert (Hsame : nth_error arms' j = nth_error (b_arms s) j).
          { pose proof (pull_list_other all (delta_of cfg (b_arms s)) (b_cand s) (b_arms s) (b_g s) j Hni) as E. rewrite Hp in E. exact E. }
          destruct (nth_error (b_arms s) j) as [a|] eqn:Eaj; [|apply nth_error_None in Eaj; lia].
          destruct (mapM_nth _ _ _ _ _ Hco Hsame) as (r1 & Er1 & Erd1).
          destruct (mapM_nth _ _ _ _ _ Hc0 Eaj) as (r2 & Er2 & Erd2).
          assert (nth_error rs j = recorded_last s j) as -> by (rewrite Hlast; congruence).
          unfold recorded_last. destruct (Nat.eq_dec r (length (b_cum s))) as [->|]; [reflexivity|]. apply Hr4. lia.
    - intros t Ht. rewrite Hcl in Ht. unfold samples_upto, s_next.
      cbn [b_cum b_smp record_round set_arms]. rewrite nth_error_snoc.
      rewrite (sums_push _ _ (length (b_cum s))) by (try assumption; rewrite smp_of_length; lia).
      rewrite smp_of_sum by (rewrite ?Ha; auto).
      destruct (Nat.eqb_spec t (length (b_cum s))) as [->|Hne].
      + rewrite Nat.leb_refl. f_equal. f_equal. rewrite H6. f_equal. apply map_ext_in. intros l Hl.
        rewrite Forall_forall in Hsl. rewrite <- (Hsl l Hl). symmetry. rewrite firstn_all2; [reflexivity|lia].
      + assert ((length (b_cum s) <=? t) = false) as -> by (apply Nat.leb_gt; lia). rewrite H5 by lia. f_equal. unfold samples_upto. lia.
    - simpl. rewrite sum_push by (rewrite smp_of_length; lia). rewrite smp_of_sum by (rewrite ?Ha; auto). lia.
    - rewrite Hcl. simpl b_total. nia.
    - rewrite Hcl. discriminate.
  Qed.
End P.
