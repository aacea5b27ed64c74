(** Proofs about the covariates the arms get: which arms block every path. *)
From Coq Require Import List Arith ZArith Bool String Reals Lra Lia.
From Verif Require Import PyBase DataModel ScmModel ScmProofs ScmProps PaperModel PaperSpec PaperProofs PaperProofs3
  ScmSpec LawSpec LawProofs LawProofs2 LawProofs3 LawProofs4 LawProofs5.
Import ListNotations.
Open Scope nat_scope.
Open Scope list_scope.

(** ** which arms block every path *)

(** position b of the layout after Z0 is read by arm k *)
Definition reads (m k b : nat) : bool := if b <? m then negb (Nat.testbit k b) else Nat.testbit k (b - m).

Lemma block_var_even b : block_var (2 * b) = Vn (b + 1).
Proof.
  unfold block_var. rewrite Nat.even_mul. cbn [Nat.even orb]. rewrite (Nat.mul_comm 2 b), Nat.div_mul by lia. reflexivity.
Qed.
Lemma block_var_odd b : block_var (2 * b + 1) = Zn (b + 1).
Proof.
  unfold block_var. rewrite Nat.even_add, Nat.even_mul. cbn [Nat.even orb Bool.eqb].
  rewrite (Nat.mul_comm 2 b), Nat.div_add_l by lia. now rewrite Nat.add_0_r.
Qed.
Lemma block_var_inj a b : block_var a = block_var b -> a = b.
Proof.
  destruct (Nat.Even_or_Odd a) as [(x & ->)|(x & ->)], (Nat.Even_or_Odd b) as [(y & ->)|(y & ->)];
    rewrite ?block_var_even, ?block_var_odd; intro E; try discriminate E; [apply Vn_inj in E|apply Zn_inj in E]; lia.
Qed.
Lemma read_iff m k b : b < 2 * m -> (In (block_var b) (map (read_var m k) (seq 1 m)) <-> reads m k b = true).
Proof.
  intro Hb. rewrite in_map_iff. unfold reads, read_var, observes_v. split.
  - intros (i & E & Hi). apply in_seq in Hi. apply block_var_inj in E. destruct (Nat.testbit k (i - 1)) eqn:Et.
    + destruct (Nat.ltb_spec b m); [lia|]. replace (b - m) with (i - 1) by lia. exact Et.
    + destruct (Nat.ltb_spec b m); [|lia]. replace b with (i - 1) by lia. now rewrite Et.
  - destruct (Nat.ltb_spec b m) as [Hl|Hl]; intro H.
    + exists (b + 1). replace (b + 1 - 1) with b by lia. apply negb_true_iff in H. rewrite H. split; [reflexivity|].
      apply in_seq. lia.
    + exists (b - m + 1). replace (b - m + 1 - 1) with (b - m) by lia. rewrite H. split; [f_equal; lia|]. apply in_seq. lia.
Qed.
Lemma blocks_iff m k : blocks m (map (read_var m k) (seq 1 m)) <->
  forall p, p < m -> reads m k (2 * p) = true \/ reads m k (2 * p + 1) = true.
Proof.
  unfold blocks. split.
  - intros H p Hp. destruct (H (p + 1) ltac:(lia)) as [Hi|Hi].
    + left. apply read_iff; [lia|]. now rewrite block_var_even.
    + right. apply read_iff; [lia|]. now rewrite block_var_odd.
  - intros H i Hi. replace i with (i - 1 + 1) by lia. rewrite <- block_var_even, <- block_var_odd.
    destruct (H (i - 1) ltac:(lia)) as [Hr|Hr]; [left|right]; apply read_iff; trivial; lia.
Qed.

Lemma blocks_even h k : blocks (2 * h) (map (read_var (2 * h) k) (seq 1 (2 * h))) <->
  forall t, t < h -> Nat.testbit k (2 * t) <> Nat.testbit k (2 * t + 1).
Proof.
  rewrite blocks_iff. unfold reads. split.
  - intros H t Ht. pose proof (H t ltac:(lia)) as H1. pose proof (H (h + t) ltac:(lia)) as H2.
    destruct (Nat.ltb_spec (2 * t) (2 * h)); [|lia]. destruct (Nat.ltb_spec (2 * t + 1) (2 * h)); [|lia].
    destruct (Nat.ltb_spec (2 * (h + t)) (2 * h)); [lia|]. destruct (Nat.ltb_spec (2 * (h + t) + 1) (2 * h)); [lia|].
    replace (2 * (h + t) - 2 * h) with (2 * t) in H2 by lia. replace (2 * (h + t) + 1 - 2 * h) with (2 * t + 1) in H2 by lia.
    destruct (Nat.testbit k (2 * t)), (Nat.testbit k (2 * t + 1)); cbn in *; intuition discriminate.
  - intros H p Hp. destruct (lt_dec p h) as [Hl|Hl].
    + specialize (H p Hl). destruct (Nat.ltb_spec (2 * p) (2 * h)); [|lia]. destruct (Nat.ltb_spec (2 * p + 1) (2 * h)); [|lia].
      destruct (Nat.testbit k (2 * p)), (Nat.testbit k (2 * p + 1)); cbn in *; auto; congruence.
    + specialize (H (p - h) ltac:(lia)). destruct (Nat.ltb_spec (2 * p) (2 * h)); [lia|]. destruct (Nat.ltb_spec (2 * p + 1) (2 * h)); [lia|].
      replace (2 * p - 2 * h) with (2 * (p - h)) by lia. replace (2 * p + 1 - 2 * h) with (2 * (p - h) + 1) by lia.
      destruct (Nat.testbit k (2 * (p - h))), (Nat.testbit k (2 * (p - h) + 1)); cbn in *; auto; congruence.
Qed.

Lemma blocks_odd h k : let m := 2 * h + 1 in blocks m (map (read_var m k) (seq 1 m)) <->
  (forall i, i < m -> Nat.testbit k i = Nat.even i) \/ (forall i, i < m -> Nat.testbit k i = Nat.odd i).
Proof.
  intro m. rewrite blocks_iff. unfold reads.
  assert (Ev : forall t, Nat.even (2 * t) = true) by (intro; apply Nat.even_spec; eexists; reflexivity).
  assert (Od : forall t, Nat.even (2 * t + 1) = false) by (intro t; rewrite Nat.even_add, Ev; reflexivity).
  split.
  - intro H. pose proof (H h ltac:(unfold m; lia)) as Hh.
    destruct (Nat.ltb_spec (2 * h) m); [|unfold m in *; lia]. destruct (Nat.ltb_spec (2 * h + 1) m); [unfold m in *; lia|].
    replace (2 * h + 1 - m) with 0 in Hh by (unfold m; lia).
    (** within a path below h not both bits are set, above h not both are clear *)
    assert (Hlow : forall t, t < h -> Nat.testbit k (2 * t) = false \/ Nat.testbit k (2 * t + 1) = false).
    { intros t Ht. pose proof (H t ltac:(unfold m; lia)) as HX.
      destruct (Nat.ltb_spec (2 * t) m); [|unfold m in *; lia]. destruct (Nat.ltb_spec (2 * t + 1) m); [|unfold m in *; lia].
      now rewrite !negb_true_iff in HX. }
    assert (Hhigh : forall t, t < h -> Nat.testbit k (2 * t + 1) = true \/ Nat.testbit k (2 * (t + 1)) = true).
    { intros t Ht. pose proof (H (h + 1 + t) ltac:(unfold m; lia)) as HX.
      destruct (Nat.ltb_spec (2 * (h + 1 + t)) m); [unfold m in *; lia|]. destruct (Nat.ltb_spec (2 * (h + 1 + t) + 1) m); [unfold m in *; lia|].
      replace (2 * (h + 1 + t) - m) with (2 * t + 1) in HX by (unfold m; lia).
      replace (2 * (h + 1 + t) + 1 - m) with (2 * (t + 1)) in HX by (unfold m; lia). exact HX. }
    destruct Hh as [Hh|Hh].
    + right. apply negb_true_iff in Hh.
      assert (Hb : forall t, t <= h -> Nat.testbit k (2 * (h - t)) = false).
      { induction t as [|t IH]; intro Ht; [now rewrite Nat.sub_0_r|]. specialize (IH ltac:(lia)).
        destruct (Hhigh (h - S t) ltac:(lia)) as [E|E]; [|replace (h - S t + 1) with (h - t) in E by lia; congruence].
        destruct (Hlow (h - S t) ltac:(lia)); [assumption|congruence]. }
      intros i Hi. destruct (Nat.Even_or_Odd i) as [(t & ->)|(t & ->)]; unfold Nat.odd.
      * rewrite Ev. cbn [negb]. replace t with (h - (h - t)) by (unfold m in Hi; lia). apply Hb. lia.
      * rewrite Od. cbn [negb]. destruct (Hhigh t ltac:(unfold m in Hi; lia)) as [E|E]; [exact E|].
        rewrite <- (Hb (h - (t + 1)) ltac:(lia)) in *. replace (h - (h - (t + 1))) with (t + 1) in * by (unfold m in Hi; lia).
        pose proof (Hb (h - (t + 1)) ltac:(lia)) as E'. replace (h - (h - (t + 1))) with (t + 1) in E' by (unfold m in Hi; lia). congruence.
    + left.
      assert (Hb : forall t, t <= h -> Nat.testbit k (2 * t) = true).
      { induction t as [|t IH]; intro Ht; [exact Hh|]. specialize (IH ltac:(lia)).
        destruct (Hlow t ltac:(lia)) as [E|E]; [congruence|]. replace (S t) with (t + 1) by lia.
        destruct (Hhigh t ltac:(lia)); [congruence|assumption]. }
      intros i Hi. destruct (Nat.Even_or_Odd i) as [(t & ->)|(t & ->)].
      * rewrite Ev. apply Hb. unfold m in Hi; lia.
      * rewrite Od. pose proof (Hb t ltac:(unfold m in Hi; lia)). destruct (Hlow t ltac:(unfold m in Hi; lia)); congruence.
  - intros Hk p Hp. destruct (lt_eq_lt_dec p h) as [[Hl | ->] | Hl].
    + destruct (Nat.ltb_spec (2 * p) m); [|unfold m in *; lia]. destruct (Nat.ltb_spec (2 * p + 1) m); [|unfold m in *; lia].
      destruct Hk as [Hk|Hk]; [right|left]; rewrite Hk by assumption; unfold Nat.odd; rewrite ?Ev, ?Od; reflexivity.
    + destruct (Nat.ltb_spec (2 * h) m); [|unfold m in *; lia]. destruct (Nat.ltb_spec (2 * h + 1) m); [unfold m in *; lia|].
      replace (2 * h + 1 - m) with 0 by (unfold m; lia).
      destruct Hk as [Hk|Hk]; [right; rewrite Hk by (unfold m; lia); reflexivity|left; rewrite Hk by assumption; unfold Nat.odd; now rewrite Ev].
    + destruct (Nat.ltb_spec (2 * p) m); [unfold m in *; lia|]. destruct (Nat.ltb_spec (2 * p + 1) m); [unfold m in *; lia|].
      replace (2 * p - m) with (2 * (p - h - 1) + 1) by (unfold m; lia). replace (2 * p + 1 - m) with (2 * (p - h)) by (unfold m; lia).
      destruct Hk as [Hk|Hk]; [right|left]; rewrite Hk by (unfold m in *; lia); unfold Nat.odd; rewrite ?Ev, ?Od; reflexivity.
Qed.


(** ** equal dimensions: an arm gets whole variables *)
Lemma nth_error_blocks {X} (f : nat -> list X) d : (forall b, List.length (f b) = d) ->
  forall l b c, b < List.length l -> c < d -> nth_error (flat_map f l) (b * d + c) = nth_error (f (nth b l 0)) c.
Proof.
  intro Hf. induction l as [|x l IH]; intros b c Hb Hc; cbn [List.length] in Hb; [lia|]. cbn [flat_map].
  destruct b as [|b]; cbn [nth Nat.mul].
  - rewrite nth_error_app1 by (rewrite Hf; exact Hc). reflexivity.
  - rewrite nth_error_app2; rewrite Hf; [|lia]. replace (d + b * d + c - d) with (b * d + c) by lia. apply IH; [lia|exact Hc].
Qed.
Lemma nth_error_map_seq {X} (f : nat -> X) d c : c < d -> nth_error (map f (seq 0 d)) c = Some (f c).
Proof.
  intro H. rewrite nth_error_map, (nth_error_nth' (seq 0 d) 0) by now rewrite seq_length. rewrite seq_nth by exact H. reflexivity.
Qed.
Lemma labels_block zd vd m d b c : equal_dims zd vd m d -> b < 2 * m -> c < d ->
  nth_error (labels zd vd m) (nth 0 zd 0 + (b * d + c)) = Some (block_var b, c).
Proof.
  intros (_ & _ & _ & Hd) Hb Hc. unfold labels.
  rewrite nth_error_app2; rewrite map_length, seq_length; [|lia].
  replace (nth 0 zd 0 + (b * d + c) - nth 0 zd 0) with (b * d + c) by lia.
  set (f := fun i => map (pair (Vn i)) (seq 0 d) ++ map (pair (Zn i)) (seq 0 d)).
  assert (Ef : flat_map (fun i => map (pair (Vn i)) (seq 0 (nth i vd 0)) ++ map (pair (Zn i)) (seq 0 (nth i zd 0))) (seq 1 m) = flat_map f (seq 1 m)).
  { rewrite !flat_map_concat_map. f_equal. apply map_ext_in. intros i Hi. apply in_seq in Hi. destruct (Hd i ltac:(lia)) as (-> & ->). reflexivity. }
  rewrite Ef.
  assert (Hf : forall i, List.length (f i) = 2 * d) by (intro i; unfold f; rewrite app_length, !map_length, !seq_length; lia).
  destruct (Nat.Even_or_Odd b) as [(q & ->)|(q & ->)]; rewrite ?block_var_even, ?block_var_odd.
  - replace (2 * q * d + c) with (q * (2 * d) + c) by lia.
    rewrite (nth_error_blocks f (2 * d) Hf) by (rewrite ?seq_length; lia). rewrite seq_nth by lia. unfold f.
    rewrite nth_error_app1 by (rewrite map_length, seq_length; exact Hc). rewrite nth_error_map_seq by exact Hc. do 3 f_equal. lia.
  - replace ((2 * q + 1) * d + c) with (q * (2 * d) + (d + c)) by lia.
    rewrite (nth_error_blocks f (2 * d) Hf) by (rewrite ?seq_length; lia). rewrite seq_nth by lia. unfold f.
    rewrite nth_error_app2; rewrite map_length, seq_length; [|lia]. replace (d + c - d) with c by lia.
    rewrite nth_error_map_seq by exact Hc. do 3 f_equal. lia.
Qed.
Lemma gets_equal zd vd m d j v c : equal_dims zd vd m d ->
  (gets zd vd m (arm_columns zd vd m j) v c <-> c < d /\ In v (map (read_var m j) (seq 1 m))).
Proof.
  intro Hd. unfold gets. rewrite arm_columns_alt. split.
  - intros (p & Hp & E). apply in_concat in Hp as (l & Hl & Hp). apply in_map_iff in Hl as (i & <- & Hi).
    pose proof Hi as Hi'. apply in_seq in Hi'. rewrite (equal_dims_block zd vd m d i _ Hd) in Hp by lia. apply in_seq in Hp.
    set (b := if observes_v j i then m + i - 1 else i - 1) in *.
    assert (Hb : b < 2 * m) by (unfold b; destruct (observes_v j i); lia).
    replace p with (nth 0 zd 0 + (b * d + (p - (nth 0 zd 0 + b * d)))) in E by lia.
    rewrite (labels_block zd vd m d b _ Hd Hb) in E by lia. injection E as <- <-. split; [lia|].
    apply in_map_iff. exists i. split; [reflexivity|exact Hi].
  - intros (Hc & Hin). apply in_map_iff in Hin as (i & <- & Hi). pose proof Hi as Hi'. apply in_seq in Hi'. unfold read_var.
    set (b := if observes_v j i then m + i - 1 else i - 1) in *.
    assert (Hb : b < 2 * m) by (unfold b; destruct (observes_v j i); lia).
    exists (nth 0 zd 0 + (b * d + c)). split; [|now apply labels_block].
    apply in_concat. eexists. split; [apply in_map_iff; exists i; split; [reflexivity|exact Hi]|].
    rewrite (equal_dims_block zd vd m d i _ Hd) by lia. fold b. apply in_seq. lia.
Qed.
Lemma covers_blocks zd vd m d j : equal_dims zd vd m d -> 1 <= d ->
  (covers zd vd m (arm_columns zd vd m j) <-> blocks m (map (read_var m j) (seq 1 m))).
Proof.
  intros Hd Hpos. pose proof Hd as (_ & _ & _ & Hw). split.
  - intros H i Hi. destruct (Hw i Hi) as (Ez & Ev). specialize (H i Hi). rewrite Ez, Ev in H.
    destruct H as [H|H]; [left|right]; apply (proj1 (gets_equal zd vd m d j _ 0 Hd)), H; lia.
  - intros H i Hi. destruct (Hw i Hi) as (Ez & Ev). rewrite Ez, Ev.
    destruct (H i Hi); [left|right]; intros c Hc; apply (gets_equal zd vd m d j _ c Hd); now split.
Qed.

(** ** the notebook's dimensions: 3 for every Z_i, 2 for every V_i *)
Lemma nth_cons_repeat x d m i : 1 <= i <= m -> nth i (x :: repeat d m) 0 = d.
Proof.
  intro H. destruct i as [|i]; [lia|]. cbn [nth]. rewrite (nth_indep _ 0 d) by (rewrite repeat_length; lia). apply nth_repeat.
Qed.
Lemma sum_repeat d m : list_sum (repeat d m) = m * d.
Proof. induction m as [|m IH]; [reflexivity|]. cbn [repeat Nat.mul]. change (list_sum (d :: repeat d m)) with (d + list_sum (repeat d m)). lia. Qed.
Lemma firstn_repeat_le {X} (d : X) m i : i <= m -> firstn i (repeat d m) = repeat d i.
Proof. revert i. induction m as [|m IH]; intros [|i] H; cbn; trivial; try lia. now rewrite IH by lia. Qed.
Lemma sum_firstn_cons x d m i : 1 <= i <= S m -> list_sum (firstn i (x :: repeat d m)) = x + (i - 1) * d.
Proof.
  intro H. destruct i as [|i]; [lia|]. cbn [firstn]. rewrite firstn_repeat_le by lia.
  change (list_sum (x :: repeat d i)) with (x + list_sum (repeat d i)). rewrite sum_repeat. f_equal. f_equal. lia.
Qed.

Section Notebook.
  Context (z0 m j : nat).
  Notation zd := (z0 :: repeat 3 m).
  Notation vd := (0 :: repeat 2 m).
  Notation cols := (arm_columns zd vd m j).
  Notation I x := (In (z0 + x) cols).
  Notation obs q := (observes_v j (q + 1)).

  Lemma in_cols p : In p cols -> exists q, q < m /\
    ((obs q = false /\ z0 + 3 * q <= p < z0 + 3 * q + 3) \/ (obs q = true /\ z0 + 3 * m + 2 * q <= p < z0 + 3 * m + 2 * q + 2)).
  Proof.
    unfold arm_columns. intro H. apply in_flat_map in H as (i & Hi & H). apply in_seq in Hi. exists (i - 1). split; [lia|].
    replace (i - 1 + 1) with i by lia. unfold v_block, z_block in H. destruct (observes_v j i); [right|left]; (split; [reflexivity|]);
      rewrite nth_cons_repeat, sum_firstn_cons in H by lia; apply in_seq in H.
    - change (list_sum zd) with (z0 + list_sum (repeat 3 m)) in H. rewrite sum_repeat in H. lia.
    - lia.
  Qed.
  Lemma z_in q x : I x -> q < m -> 3 * q <= x <= 3 * q + 2 -> obs q = false.
  Proof.
    intros H Hq Hx. apply in_cols in H as (q' & Hq' & [(E & Hb)|(_ & Hb)]); [|lia]. now replace q with q' by lia.
  Qed.
  Lemma v_in q x : I x -> q < m -> 3 * m + 2 * q <= x <= 3 * m + 2 * q + 1 -> obs q = true.
  Proof.
    intros H Hq Hx. apply in_cols in H as (q' & Hq' & [(_ & Hb)|(E & Hb)]); [lia|]. now replace q with q' by lia.
  Qed.

  Lemma label_at p c : p < m -> c < 5 -> nth_error (labels zd vd m) (z0 + (p * 5 + c)) =
    Some (if c <? 2 then (Vn (p + 1), c) else (Zn (p + 1), c - 2)).
  Proof.
    intros Hp Hc. unfold labels. rewrite nth_error_app2; rewrite map_length, seq_length; change (nth 0 zd 0) with z0; [|lia].
    replace (z0 + (p * 5 + c) - z0) with (p * 5 + c) by lia.
    set (f := fun i => map (pair (Vn i)) (seq 0 2) ++ map (pair (Zn i)) (seq 0 3)).
    assert (Ef : flat_map (fun i => map (pair (Vn i)) (seq 0 (nth i vd 0)) ++ map (pair (Zn i)) (seq 0 (nth i zd 0))) (seq 1 m) = flat_map f (seq 1 m)).
    { rewrite !flat_map_concat_map. f_equal. apply map_ext_in. intros i Hi. apply in_seq in Hi. now rewrite !nth_cons_repeat by lia. }
    rewrite Ef, (nth_error_blocks f 5) by (try reflexivity; rewrite ?seq_length; lia). rewrite seq_nth by exact Hp.
    rewrite (Nat.add_comm 1 p). do 5 (destruct c as [|c]; [reflexivity|]). lia.
  Qed.
  Lemma gets_at p c v e : p < m -> c < 5 -> (if c <? 2 then (Vn (p + 1), c) else (Zn (p + 1), c - 2)) = (v, e) ->
    gets zd vd m cols v e -> I (5 * p + c).
  Proof.
    intros Hp Hc E (x & Hx & Ex). pose proof Hx as Hx'. apply in_cols in Hx' as (q & Hq & Hb).
    assert (Hlow : z0 <= x < z0 + m * 5) by lia.
    assert (Hdm : x - z0 = ((x - z0) / 5) * 5 + (x - z0) mod 5) by (rewrite (Nat.mul_comm _ 5); apply Nat.div_mod; lia).
    pose proof (Nat.mod_upper_bound (x - z0) 5 ltac:(lia)) as Hm.
    set (p' := (x - z0) / 5) in *. set (c' := (x - z0) mod 5) in *. clearbody p' c'.
    replace x with (z0 + (p' * 5 + c')) in Ex by lia. rewrite label_at in Ex by lia. rewrite <- E in Ex.
    assert (Hpc : p' = p /\ c' = c).
    { destruct (Nat.ltb_spec c' 2), (Nat.ltb_spec c 2).
      - assert (p' + 1 = p + 1) by (apply Vn_inj; congruence). assert (c' = c) by congruence. lia.
      - discriminate Ex.
      - discriminate Ex.
      - assert (p' + 1 = p + 1) by (apply Zn_inj; congruence). assert (c' - 2 = c - 2) by congruence. lia. }
    destruct Hpc as (-> & ->). replace (z0 + (5 * p + c)) with x by lia. exact Hx.
  Qed.

  Lemma notebook_paths : covers zd vd m cols -> forall p, p < m ->
    (I (5 * p) /\ I (5 * p + 1)) \/ (I (5 * p + 2) /\ I (5 * p + 3) /\ I (5 * p + 4)).
  Proof.
    intros H p Hp. specialize (H (p + 1) ltac:(lia)). rewrite !nth_cons_repeat in H by lia. destruct H as [H|H]; [left|right].
    - split; [rewrite <- (Nat.add_0_r (5 * p)); refine (gets_at p 0 _ _ Hp _ eq_refl (H 0 _))|refine (gets_at p 1 _ _ Hp _ eq_refl (H 1 _))]; lia.
    - split; [|split]; [refine (gets_at p 2 _ _ Hp _ eq_refl (H 0 _))|refine (gets_at p 3 _ _ Hp _ eq_refl (H 1 _))|refine (gets_at p 4 _ _ Hp _ eq_refl (H 2 _))]; lia.
  Qed.

  Lemma notebook_open : 2 <= m -> ~ covers zd vd m cols.
  Proof.
    intros Hm Hc. pose proof (notebook_paths Hc) as P. clear Hc.
    (** the last path forces V on the last path but one, the path p forces Z around column 5p *)
    assert (HV : obs (m - 2) = true).
    { destruct (P (m - 1) ltac:(lia)) as [(_ & H)|(H & _)]; eapply v_in; try exact H; lia. }
    assert (Z1 : forall u, 3 * u < m -> 5 * u < m -> obs (5 * u) = false).
    { intros u H1 H2. destruct (P (3 * u) H1) as [(H & _)|(H & _)]; eapply z_in; try exact H; lia. }
    assert (Z3 : forall u, 5 * u + 2 < m -> obs (5 * u + 2) = false).
    { intros u H2. destruct (P (3 * u + 1) ltac:(lia)) as [(_ & H)|(H & _)]; eapply z_in; try exact H; lia. }
    assert (Hmod : exists u, m = 5 * u \/ m = 5 * u + 1 \/ m = 5 * u + 2 \/ m = 5 * u + 3 \/ m = 5 * u + 4).
    { exists (m / 5). pose proof (Nat.div_mod m 5 ltac:(lia)). pose proof (Nat.mod_upper_bound m 5 ltac:(lia)). lia. }
    destruct Hmod as (u & [E|[E|[E|[E|E]]]]).
    - (* 5u *) destruct (P (m - 2) ltac:(lia)) as [(H & _)|(_ & _ & H)].
      + assert (A : obs (5 * (u - 1)) = true) by (eapply v_in; [exact H|lia|lia]). rewrite Z1 in A by lia. discriminate.
      + assert (A : obs (5 * (u - 1) + 2) = true) by (eapply v_in; [exact H|lia|lia]). rewrite Z3 in A by lia. discriminate.
    - (* 5u + 1 *)
      assert (A : obs (5 * (u - 1) + 1) = true).
      { destruct (P (m - 2) ltac:(lia)) as [(H & _)|(H & H' & _)]; [eapply v_in; [exact H|lia|lia]|].
        assert (B : obs (5 * (u - 1) + 2) = true) by (eapply v_in; [exact H|lia|lia] || (eapply v_in; [exact H'|lia|lia])).
        rewrite Z3 in B by lia. discriminate. }
      assert (B : obs (5 * (u - 1) + 3) = false).
      { destruct (P (3 * (u - 1) + 1) ltac:(lia)) as [(H & _)|(_ & _ & H)].
        - assert (obs (5 * (u - 1) + 1) = false) by (eapply z_in; [exact H|lia|lia]). congruence.
        - eapply z_in; [exact H|lia|lia]. }
      destruct (P (m - 1) ltac:(lia)) as [(H & _)|(_ & H & _)].
      + assert (D : obs (5 * (u - 1) + 3) = true) by (eapply v_in; [exact H|lia|lia]). congruence.
      + assert (D : obs (5 * u) = true) by (eapply v_in; [exact H|lia|lia]). rewrite Z1 in D by lia. discriminate.
    - (* 5u + 2 *) replace (m - 2) with (5 * u) in HV by lia. rewrite Z1 in HV by lia. discriminate.
    - (* 5u + 3 *) destruct (P (3 * u + 1) ltac:(lia)) as [(H & _)|(_ & _ & H)].
      + assert (A : obs (5 * u + 1) = false) by (eapply z_in; [exact H|lia|lia]). replace (m - 2) with (5 * u + 1) in HV by lia. congruence.
      + assert (A : obs 0 = true) by (eapply v_in; [exact H|lia|lia]). pose proof (Z1 0 ltac:(lia) ltac:(lia)) as B. change (obs 0 = false) in B. congruence.
    - (* 5u + 4 *) replace (m - 2) with (5 * u + 2) in HV by lia. rewrite Z3 in HV by lia. discriminate.
  Qed.
End Notebook.
