(** Property theorems C114-C116 (rounds and samples in terms of the gaps between the arms). *)
From Coq Require Import List Arith ZArith Lia Bool Reals Lra Classical_Prop.
From Flocq Require Import Core BinarySingleNaN.
From Verif Require Import PyBase PyLemmas Num NumLemmas NumOps FloatOps BanditModel BanditSpec BanditProofs1 BanditProofs2 BanditProofs3 BanditProofs4
  BanditProofs5 BanditProps PacSpec PacProofs GapSpec GapProofs GapProofs2.
Import ListNotations.
Open Scope nat_scope.

Section Statements.
Context {A D G : Type}.
Implicit Types (ops : arm_ops A D G) (w : world D G).

(** ** C114: successive elimination *)
Theorem C114_arm : forall ops w cfg fuel all arms g s v W j b N,
  0 < c_units cfg -> settled (run SE ops w cfg fuel all arms g) s -> accurate v W s ->
  j < length arms -> b < length arms -> 1 <= N -> far (length arms) v W b j N ->
  arm_samples s j <= N * c_units cfg.
Proof.
  intros ops w cfg fuel all arms g s v W j b N Hu Hset Hacc Hj Hb HN Hfar.
  pose proof (run_se_gap ops w cfg fuel all arms g v W Hu) as H.
  assert (H' : se_inv ops cfg (length arms) s /\ (accurate v W s -> se_gap (length arms) v W s /\ se_short (length arms) v W s))
    by (destruct Hset as [E|(r & E)]; rewrite E in H; exact H).
  destruct H' as [Hi Hg]. destruct (Hg Hacc) as [[_ Hp] _]. rewrite (se_samples ops cfg (length arms) s j Hi Hu Hj).
  destruct (Hp j b N Hj Hb HN Hfar) as [H1 _]. nia.
Qed.

Theorem C114_rounds : forall ops w cfg fuel all arms g s v W b N M,
  0 < c_units cfg -> settled (run SE ops w cfg fuel all arms g) s -> accurate v W s -> b < length arms ->
  (forall j, j < length arms -> j <> b -> 1 <= N j <= M /\ far (length arms) v W b j (N j)) ->
  length (b_cum s) <= M /\ b_total s <= (others (length arms) b N + M) * c_units cfg.
Proof.
  intros ops w cfg fuel all arms g s v W b N M Hu Hset Hacc Hb HN. set (K := length arms) in *.
  pose proof (run_se_gap ops w cfg fuel all arms g v W Hu) as H.
  assert (H' : se_inv ops cfg K s /\ (accurate v W s -> se_gap K v W s /\ se_short K v W s))
    by (destruct Hset as [E|(r & E)]; rewrite E in H; exact H).
  destruct H' as [Hi Hg]. destruct (Hg Hacc) as [[_ Hp] Hshort].
  assert (HM : length (b_cum s) <= M) by (apply (Hshort b M Hb); intros j Hj Hjb; exists (N j); apply HN; assumption).
  split; [exact HM|]. rewrite (se_tot _ _ _ _ Hi). rewrite (sum_by_arm s K (sh_smp _ _ _ (se_shp _ _ _ _ Hi))).
  assert (Hall : forall j, j < K -> arm_samples s j <= (if j =? b then M else N j) * c_units cfg).
  { intros j Hj. rewrite (se_samples ops cfg K s j Hi Hu Hj). destruct (Nat.eqb_spec j b) as [->|Hjb].
    - assert (pulled s b <= length (b_cum s)) by (unfold pulled; pose proof (filter_short (sampled s b) (seq 0 (length (b_cum s)))) as F0; rewrite seq_length in F0; exact F0). nia.
    - destruct (HN j Hj Hjb) as [H1 H2]. destruct (Hp j b (N j) Hj Hb (proj1 H1) H2) as [H3 _]. nia. }
  apply Nat.le_trans with (list_sum (map (fun j => (if j =? b then M else N j) * c_units cfg) (seq 0 K))).
  { apply list_sum_le. intros j Hj. apply in_seq in Hj. apply Hall. lia. }
  unfold others. clear -Hb.
  assert (E : forall k n, list_sum (map (fun j => (if j =? b then M else N j) * c_units cfg) (seq k n)) =
    (list_sum (map (fun j => if j =? b then 0 else N j) (seq k n)) + (if (k <=? b) && (b <? k + n) then M else 0)) * c_units cfg).
  { intros k n. revert k; induction n as [|n IH]; intros k; simpl.
    - destruct (Nat.leb_spec k b), (Nat.ltb_spec b (k + 0)); simpl; lia.
    - unfold list_sum in *. simpl. rewrite (IH (S k)).
      destruct (Nat.eqb_spec k b) as [->|Hkb].
      + destruct (Nat.leb_spec (S b) b); [lia|]. destruct (Nat.leb_spec b b); [|lia]. destruct (Nat.ltb_spec b (b + S n)); [|lia]. simpl. lia.
      + destruct (Nat.leb_spec (S k) b), (Nat.leb_spec k b); try lia; simpl; [|lia].
        replace (k + S n) with (S k + n) by lia. simpl. destruct (b <? S (k + n)); lia. }
  rewrite (E 0 K). simpl. destruct (Nat.ltb_spec b K); simpl; lia.
Qed.

Theorem C114_terminates : forall ops w cfg fuel all arms g v W b M,
  0 < c_units cfg -> accurate v W (final_state (run SE ops w cfg fuel all arms g)) -> b < length arms ->
  (forall j, j < length arms -> j <> b -> exists N, 1 <= N <= M /\ far (length arms) v W b j N) ->
  M < fuel -> terminated (run SE ops w cfg fuel all arms g).
Proof.
  intros ops w cfg fuel all arms g v W b M Hu Hacc Hb HM Hf.
  destruct (run SE ops w cfg fuel all arms g) as [|e s0|s] eqn:E; [exact I|exact I|]. simpl in Hacc.
  pose proof (run_se_gap ops w cfg fuel all arms g v W Hu) as H. rewrite E in H. destruct H as [_ H]. destruct (H Hacc) as [_ Hs].
  specialize (Hs b M Hb HM). apply run_fuel in E. simpl in E. lia.
Qed.

Theorem C114_answer : forall ops w cfg fuel all arms g best s v W b,
  run SE ops w cfg fuel all arms g = Returned best s -> accurate v W s -> not_negative (c_error_tol cfg) -> unique_best (length arms) v b ->
  exceeds (b_total s) (c_limit cfg) \/ best = [b].
Proof.
  intros ops w cfg fuel all arms g best s v W b Hr Hacc Ht [Hb Hv]. destruct (classic (exceeds (b_total s) (c_limit cfg))) as [|Hx]; [left; assumption|right].
  destruct (right_answer ops w cfg SE fuel all arms g best s v) as (i & -> & Hi & Hm); auto.
  - intros ->. simpl in Hb. lia.
  - intros j Hj (t & r & Hrec & Hc). apply Hc. apply tight_in_interval with (wd := W j (pulls s j t)). apply Hacc, Hrec.
  - f_equal. destruct (Nat.eq_dec i b) as [|Hne]; [assumption|exfalso]. specialize (Hv i Hi Hne). specialize (Hm b Hb ltac:(congruence)). simpl in Hm. lra.
Qed.

(** ** C115: uniform sampling *)
Theorem C115_rounds : forall ops w cfg fuel all arms g s v W b N,
  0 < c_units cfg -> tol_ok cfg -> settled (run Uniform ops w cfg fuel all arms g) s -> accurate v W s ->
  b < length arms -> 1 <= N -> (forall j, j < length arms -> j <> b -> apart cfg v W b j N) ->
  length (b_cum s) <= N /\ b_total s <= length arms * c_units cfg * N.
Proof.
  intros ops w cfg fuel all arms g s v W b N Hu Ht Hset Hacc Hb HN Hap.
  pose proof (run_uniform_gap ops w cfg fuel all arms g v W b N Hu Ht Hb HN Hap) as H.
  assert (H' : uni_inv ops cfg (length arms) s /\ (accurate v W s -> length (b_cum s) <= N)).
  { destruct Hset as [E|(r & E)]; rewrite E in H; [|exact H]. destruct H as [H1 H2]. split; [exact H1|]. intros Ha. specialize (H2 Ha). lia. }
  destruct H' as ((_ & _ & Htot) & HL). specialize (HL Hacc). split; [exact HL|]. rewrite Htot. nia.
Qed.

Theorem C115_terminates : forall ops w cfg fuel all arms g v W b N,
  0 < c_units cfg -> tol_ok cfg -> accurate v W (final_state (run Uniform ops w cfg fuel all arms g)) ->
  b < length arms -> 1 <= N -> (forall j, j < length arms -> j <> b -> apart cfg v W b j N) ->
  N <= fuel -> terminated (run Uniform ops w cfg fuel all arms g).
Proof.
  intros ops w cfg fuel all arms g v W b N Hu Ht Hacc Hb HN Hap Hf.
  pose proof (run_uniform_gap ops w cfg fuel all arms g v W b N Hu Ht Hb HN Hap) as H.
  destruct (run Uniform ops w cfg fuel all arms g) as [|e s0|s] eqn:E; [exact I|exact I|]. simpl in Hacc.
  destruct H as [_ H]. specialize (H Hacc). apply run_fuel in E. simpl in E. lia.
Qed.

(** ** C116: LUCB *)
Theorem C116_rounds : forall ops w cfg fuel all arms g s v W b N,
  0 < c_units cfg -> tol_ok cfg -> fair_choice w -> settled (run LUCB ops w cfg fuel all arms g) s -> accurate v W s -> untied s ->
  b < length arms -> (forall x n, x < length arms -> N x <= n -> narrow cfg (length arms) v b x (W x n)) ->
  let B := total_of (length arms) (fun x => N x - 1) in
  length (b_cum s) <= B + 2 /\ b_total s <= (length arms + 2 * (B + 1)) * c_units cfg.
Proof.
  intros ops w cfg fuel all arms g s v W b N Hu Ht Hf Hset Hacc Hun Hb Hnar B.
  pose proof (run_lucb_gap ops w cfg fuel all arms g v W b N Hu Ht Hf Hb Hnar) as H.
  assert (H' : lucb_inv ops cfg (length arms) s /\ (accurate v W s -> untied s -> length (b_cum s) <= B + 2)).
  { destruct Hset as [E|(r & E)]; rewrite E in H; [|exact H]. destruct H as [H1 H2]. split; [exact H1|].
    intros Ha Hn. destruct (H2 Ha Hn) as (_ & H3 & _). fold B in H3. lia. }
  destruct H' as ((_ & _ & Htot) & HL). specialize (HL Hacc Hun). split; [exact HL|]. rewrite Htot. nia.
Qed.

Theorem C116_terminates : forall ops w cfg fuel all arms g v W b N,
  0 < c_units cfg -> tol_ok cfg -> fair_choice w ->
  accurate v W (final_state (run LUCB ops w cfg fuel all arms g)) -> untied (final_state (run LUCB ops w cfg fuel all arms g)) ->
  b < length arms -> (forall x n, x < length arms -> N x <= n -> narrow cfg (length arms) v b x (W x n)) ->
  total_of (length arms) (fun x => N x - 1) + 2 <= fuel -> terminated (run LUCB ops w cfg fuel all arms g).
Proof.
  intros ops w cfg fuel all arms g v W b N Hu Ht Hf Hacc Hun Hb Hnar Hfu.
  pose proof (run_lucb_gap ops w cfg fuel all arms g v W b N Hu Ht Hf Hb Hnar) as H.
  destruct (run LUCB ops w cfg fuel all arms g) as [|e s0|s] eqn:E; [exact I|exact I|]. simpl in Hacc, Hun.
  destruct H as [_ H]. destruct (H Hacc Hun) as (_ & H3 & _). apply run_fuel in E. simpl in E. lia.
Qed.
End Statements.

Print Assumptions C114_arm.
Print Assumptions C114_rounds.
Print Assumptions C114_terminates.
Print Assumptions C114_answer.
Print Assumptions C115_rounds.
Print Assumptions C115_terminates.
Print Assumptions C116_rounds.
Print Assumptions C116_terminates.

(** ** examples meeting the hypotheses *)
Definition sf3 (r : reading) := (B2SF (r_lcb r), B2SF (r_ucb r), B2SF (r_var r)).
Definition z3 (x : Z * Z * Z) := let '(l, u, e) := x in (B2SF (f_of_Z l), B2SF (f_of_Z u), B2SF (f_of_Z e)).
Definition small (z : Z) : bool := (Z.abs z <=? 1000)%Z.
Definition tight_z (x wd : Z) (p : Z * Z * Z) : bool :=
  let '(l, u, e) := p in
  (small l && small u && small e && (l <? u) && (l <=? x) && (x <=? u) && (l <=? e) && (e <=? u) && (u - l <=? wd))%Z.
Lemma tight_of_z x wd p r : sf3 r = z3 p -> tight_z x wd p = true -> tight (IZR x) (IZR wd) r.
Proof.
  destruct p as [[l u] e]. unfold sf3, z3, tight_z, small. intros H Hz. injection H as Hl Hu He. apply B2SF_inj in Hl, Hu, He.
  rewrite !andb_true_iff, !Z.leb_le, Z.ltb_lt in Hz. destruct Hz as ((((((((H1 & H2) & H3) & H4) & H5) & H6) & H7) & H8) & H9).
  assert (Hs : forall z, (Z.abs z <= 1000)%Z -> is_finite (f_of_Z z) = true /\ B2R (f_of_Z z) = IZR z) by (intros z Hz; apply of_Z_exact; lia).
  destruct (Hs l H1) as [F1 R1]. destruct (Hs u H2) as [F2 R2]. destruct (Hs e H3) as [F3 R3].
  unfold tight. rewrite Hl, Hu, He, R1, R2, R3. do 3 (split; [assumption|]). split; [apply IZR_lt; lia|].
  split; [split; apply IZR_le; lia|]. split; [split; apply IZR_le; lia|]. rewrite <- minus_IZR. apply IZR_le. lia.
Qed.
Definition accurate_z {A G} (s : bstate (A := A) (G := G)) (hz : list (list (Z * Z * Z))) (vz : nat -> Z) (wz : nat -> nat -> Z) : bool :=
  forallb (fun j => forallb (fun t => tight_z (vz j) (wz j (pulls s j t)) (nth t (nth j hz []) (0, 0, 0)%Z)) (seq 0 (length (nth j hz [])))) (seq 0 (length hz)).
Lemma accurate_of_z {A G} (s : bstate (A := A) (G := G)) hz vz wz : map (map sf3) (b_hist s) = map (map z3) hz ->
  accurate_z s hz vz wz = true -> accurate (fun j => IZR (vz j)) (fun j n => IZR (wz j n)) s.
Proof.
  intros Hh Hz j t r Hr. unfold recorded in Hr. destruct (nth_error (b_hist s) j) as [h|] eqn:Ej; [|discriminate].
  assert (E1 : nth_error (map (map sf3) (b_hist s)) j = Some (map sf3 h)) by (rewrite nth_error_map, Ej; reflexivity).
  rewrite Hh, nth_error_map in E1. destruct (nth_error hz j) as [h'|] eqn:Ej'; [|discriminate]. injection E1 as E1.
  assert (E2 : nth_error (map sf3 h) t = Some (sf3 r)) by (rewrite nth_error_map, Hr; reflexivity).
  rewrite <- E1, nth_error_map in E2. destruct (nth_error h' t) as [p|] eqn:Et; [|discriminate]. injection E2 as E2.
  apply (tight_of_z _ _ p); [congruence|].
  unfold accurate_z in Hz. rewrite forallb_forall in Hz. specialize (Hz j). rewrite (nth_error_nth _ _ [] Ej') in Hz.
  assert (Hj : j < length hz) by (apply nth_error_Some; congruence). assert (Ht : t < length h') by (apply nth_error_Some; congruence).
  specialize (Hz ltac:(apply in_seq; lia)). rewrite forallb_forall in Hz. specialize (Hz t ltac:(apply in_seq; lia)). rewrite (nth_error_nth _ _ (0, 0, 0)%Z Et) in Hz. exact Hz.
Qed.
Definition untied_z (hz : list (list (Z * Z * Z))) : bool :=
  forallb (fun j => forallb (fun k => (j =? k) || forallb (fun t =>
     let '(l, u, e) := nth t (nth j hz []) (0, 0, 0)%Z in let '(l', u', e') := nth t (nth k hz []) (0, 0, 0)%Z in
     (small l && small u && small e && small l' && small u' && small e' && negb (l =? l') && negb (u =? u') && negb (e =? e'))%Z)
     (seq 0 (length (nth j hz [])))) (seq 0 (length hz))) (seq 0 (length hz)).
Lemma untied_of_z {A G} (s : bstate (A := A) (G := G)) hz : map (map sf3) (b_hist s) = map (map z3) hz -> untied_z hz = true -> untied s.
Proof.
  intros Hh Hz t j k rj rk Hjk Hj Hk.
  assert (Hp : forall i r, recorded s i t = Some r -> exists h p, nth_error hz i = Some h /\ nth_error h t = Some p /\ sf3 r = z3 p).
  { intros i r Hr. unfold recorded in Hr. destruct (nth_error (b_hist s) i) as [h|] eqn:Ej; [|discriminate].
    assert (E1 : nth_error (map (map sf3) (b_hist s)) i = Some (map sf3 h)) by (rewrite nth_error_map, Ej; reflexivity).
    rewrite Hh, nth_error_map in E1. destruct (nth_error hz i) as [h'|] eqn:Ej'; [|discriminate]. injection E1 as E1.
    assert (E2 : nth_error (map sf3 h) t = Some (sf3 r)) by (rewrite nth_error_map, Hr; reflexivity).
    rewrite <- E1, nth_error_map in E2. destruct (nth_error h' t) as [p|] eqn:Et; [|discriminate]. injection E2 as E2. exists h', p. auto. }
  destruct (Hp j rj Hj) as (h & p & Ej & Et & Er). destruct (Hp k rk Hk) as (h' & p' & Ek & Et' & Er').
  unfold untied_z in Hz. rewrite forallb_forall in Hz. assert (Hjl : j < length hz) by (apply nth_error_Some; congruence). assert (Hkl : k < length hz) by (apply nth_error_Some; congruence).
  specialize (Hz j ltac:(apply in_seq; lia)). rewrite forallb_forall in Hz. specialize (Hz k ltac:(apply in_seq; lia)).
  apply orb_true_iff in Hz as [Hz|Hz]; [apply Nat.eqb_eq in Hz; contradiction|].
  rewrite (nth_error_nth _ _ [] Ej), (nth_error_nth _ _ [] Ek) in Hz. rewrite forallb_forall in Hz.
  assert (Htl : t < length h) by (apply nth_error_Some; congruence). specialize (Hz t ltac:(apply in_seq; lia)).
  rewrite (nth_error_nth _ _ (0, 0, 0)%Z Et), (nth_error_nth _ _ (0, 0, 0)%Z Et') in Hz.
  destruct p as [[l u] e]. destruct p' as [[l' u'] e']. unfold small in Hz.
  rewrite !andb_true_iff, !Z.leb_le, !negb_true_iff, !Z.eqb_neq in Hz. destruct Hz as ((((((((H1 & H2) & H3) & H4) & H5) & H6) & H7) & H8) & H9).
  assert (Hs : forall z, (Z.abs z <= 1000)%Z -> B2R (f_of_Z z) = IZR z) by (intros z Hz; apply of_Z_exact; lia).
  unfold sf3, z3 in *. injection Er as Ea Eb Ec. injection Er' as Ea' Eb' Ec'. apply B2SF_inj in Ea, Eb, Ec, Ea', Eb', Ec'.
  rewrite Ea, Eb, Ec, Ea', Eb', Ec', !Hs by assumption. repeat split; apply IZR_neq; assumption.
Qed.

(** three arms with values 20, 1 and 8; no sample limit *)
Definition free (u : nat) : config := mkConfig (flit 5 100) f0 (Some (flit 5 100)) LInf u.
Definition gap_arms : list script :=
  [arm_of [ft 19 22 20]; arm_of [ft 0 4 1; ft 1 2 1]; arm_of [ft 3 9 5; ft 7 10 8]].
Definition gap_v (j : nat) : Z := nth j [20; 1; 8]%Z 0%Z.
Definition gap_w (j n : nat) : Z := if n <=? 1 then 6%Z else 3%Z.
Definition gap_w2 (j n : nat) : Z := if n <=? 1 then 6%Z else match j with 1 => 1%Z | _ => 3%Z end.
Example C114_case : let o := run SE script_ops toy_world (free 5) 3 None gap_arms 7 in
  summary o = Some ([1], [15; 25], [[5; 0]; [5; 5]; [5; 5]]) /\
  accurate (fun j => IZR (gap_v j)) (fun j n => IZR (gap_w j n)) (final_state o) /\ unique_best 3 (fun j => IZR (gap_v j)) 1 /\
  far 3 (fun j => IZR (gap_v j)) (fun j n => IZR (gap_w j n)) 1 0 1.
Proof.
  intros o. split; [vm_compute; reflexivity|]. split.
  - apply (accurate_of_z _ [[(19, 22, 20); (19, 22, 20)]; [(0, 4, 1); (1, 2, 1)]; [(3, 9, 5); (7, 10, 8)]]%Z); vm_compute; reflexivity.
  - split; [split; [lia|]|].
    + intros [|[|[|j]]] Hj Hne; try lia; unfold gap_v; simpl; lra.
    + intros k k' _ _. unfold gap_v, gap_w. simpl. lra.
Qed.
(** arm 2 needs narrower intervals: 3 * 2 <= 7 *)
Definition gap_arms2 : list script :=
  [arm_of [ft 19 22 20]; arm_of [ft 0 4 1; ft 1 2 1]; arm_of [ft 3 9 5; ft 7 9 8]].
Definition gap_w3 (j n : nat) : Z := if n <=? 1 then 6%Z else 2%Z.
Example C114_case_rounds : let o := run SE script_ops toy_world (free 5) 3 None gap_arms2 7 in
  settled o (final_state o) /\ accurate (fun j => IZR (gap_v j)) (fun j n => IZR (gap_w3 j n)) (final_state o) /\
  (forall j, j < 3 -> j <> 1 -> 1 <= (match j with 0 => 1 | _ => 2 end) <= 2 /\
     far 3 (fun j => IZR (gap_v j)) (fun j n => IZR (gap_w3 j n)) 1 j (match j with 0 => 1 | _ => 2 end)) /\
  b_total (final_state o) = 25 /\ (others 3 1 (fun j => match j with 0 => 1 | _ => 2 end) + 2) * 5 = 25.
Proof.
  intros o. split; [right; exists [1]; apply returned_final; vm_compute; reflexivity|]. split.
  - apply (accurate_of_z _ [[(19, 22, 20); (19, 22, 20)]; [(0, 4, 1); (1, 2, 1)]; [(3, 9, 5); (7, 9, 8)]]%Z); vm_compute; reflexivity.
  - split; [|split; vm_compute; reflexivity].
    intros [|[|[|j]]] Hj Hne; try lia; (split; [lia|]); intros [|[|[|k]]] [|[|[|k']]] Hk Hk'; try lia; unfold gap_v, gap_w3; simpl; lra.
Qed.
Example C115_case : let o := run Uniform script_ops toy_world (free 5) 2 None gap_arms 7 in
  summary o = Some ([1], [15; 30], [[5; 5]; [5; 5]; [5; 5]]) /\ tol_ok (free 5) /\
  accurate (fun j => IZR (gap_v j)) (fun j n => IZR (gap_w2 j n)) (final_state o) /\
  (forall j, j < 3 -> j <> 1 -> apart (free 5) (fun j => IZR (gap_v j)) (fun j n => IZR (gap_w2 j n)) 1 j 2).
Proof.
  intros o. split; [vm_compute; reflexivity|]. split; [split; [reflexivity|simpl; lra]|]. split.
  - apply (accurate_of_z _ [[(19, 22, 20); (19, 22, 20)]; [(0, 4, 1); (1, 2, 1)]; [(3, 9, 5); (7, 10, 8)]]%Z); vm_compute; reflexivity.
  - intros [|[|[|j]]] Hj Hne; try lia; unfold apart, gap_v, gap_w2; simpl; lra.
Qed.
Definition gap_n (j : nat) : nat := match j with 0 => 1 | _ => 2 end.
Example C116_case : let o := run LUCB script_ops toy_world (free 5) 4 None gap_arms 7 in
  summary o = Some ([1], [15; 25], [[5; 0]; [5; 5]; [5; 5]]) /\
  accurate (fun j => IZR (gap_v j)) (fun j n => IZR (gap_w j n)) (final_state o) /\ untied (final_state o) /\
  (forall x n, x < 3 -> gap_n x <= n -> narrow (free 5) 3 (fun j => IZR (gap_v j)) 1 x (IZR (gap_w x n))) /\
  total_of 3 (fun x => gap_n x - 1) + 2 = 4.
Proof.
  intros o. split; [vm_compute; reflexivity|].
  assert (Hh : map (map sf3) (b_hist (final_state o)) = map (map z3) [[(19, 22, 20); (19, 22, 20)]; [(0, 4, 1); (1, 2, 1)]; [(3, 9, 5); (7, 10, 8)]]%Z) by (vm_compute; reflexivity).
  split; [apply (accurate_of_z _ _ _ _ Hh); vm_compute; reflexivity|]. split; [apply (untied_of_z _ _ Hh); vm_compute; reflexivity|]. split; [|reflexivity].
  intros [|[|[|x]]] n Hx Hn j Hj Hne Hxj; try lia; unfold gap_n in Hn; unfold gap_w; simpl c_error_tol; simpl B2R.
  - destruct Hxj as [Hxj|<-]; [lia|]. destruct (n <=? 1); unfold gap_v; simpl; lra.
  - destruct (Nat.leb_spec n 1); [lia|]. destruct j as [|[|[|j]]]; try lia; unfold gap_v; simpl; lra.
  - destruct Hxj as [Hxj|<-]; [lia|]. destruct (Nat.leb_spec n 1); [lia|]. unfold gap_v; simpl; lra.
Qed.

(** C114: two widths are not enough. An arm whose lower bound has reached the upper bound of the best
    arm stays, because only the upper bound of the arm with the smallest estimate counts. *)
Theorem C114_two_widths_refuted : exists A D G (ops : arm_ops A D G) w cfg fuel arms g s v W j b N,
  0 < c_units cfg /\ settled (run SE ops w cfg fuel None arms g) s /\ accurate v W s /\ j < length arms /\ b < length arms /\ 1 <= N /\
  (forall k, k < length arms -> (W j N + W k N <= v j - v b)%R) /\ N * c_units cfg < arm_samples s j.
Proof.
  exists script, (list nat), nat, script_ops, toy_world, (free 5), 2, [arm_of [ft 0 4 4]; arm_of [ft 3 7 3]; arm_of [ft 4 8 8]], 7.
  set (o := run SE _ _ _ _ _ _ _). exists (final_state o), (fun j => IZR (nth j [0; 3; 8]%Z 0%Z)), (fun _ _ => IZR 4), 2, 0, 1.
  split; [simpl; lia|]. split; [left; unfold o; destruct (run SE script_ops toy_world (free 5) 2 None [arm_of [ft 0 4 4]; arm_of [ft 3 7 3]; arm_of [ft 4 8 8]] 7) eqn:E; [|  |reflexivity]; exfalso|].
  - apply (f_equal returned) in E. vm_compute in E. discriminate.
  - apply (f_equal raised) in E. vm_compute in E. discriminate.
  - split; [apply (accurate_of_z _ [[(0, 4, 4); (0, 4, 4)]; [(3, 7, 3); (3, 7, 3)]; [(4, 8, 8); (4, 8, 8)]]%Z (fun j => nth j [0; 3; 8]%Z 0%Z) (fun _ _ => 4%Z)); vm_compute; reflexivity|].
    split; [simpl; lia|]. split; [simpl; lia|]. split; [lia|]. split; [intros k _; simpl; lra|]. vm_compute. lia.
Qed.
Print Assumptions C114_two_widths_refuted.

(** C116: with ties the choice of the arm may be unlucky for ever. Arm 1 has the same upper bound as
    arm 0, which never gets the samples it needs. *)
Definition last_world : world (list nat) nat :=
  mkWorld (list nat) nat (fun g n => (Ok (repeat g n), S g)) (fun d a b => Ok (firstn (b - a) (skipn a d))) (fun g l => (last l 0, g)) (fun g n => ((0, 1), g)).
Lemma last_fair : fair_choice last_world.
Proof.
  split; [|intros g n Hn; simpl; lia]. intros g l Hl. simpl. destruct (exists_last Hl) as (l' & x & ->). rewrite last_last. apply in_or_app. simpl. auto.
Qed.
Definition tie0 : reading := mkReading (fmul (f_of_Z 1) (f_of_Z 0)) (fmul (f_of_Z 1) (f_of_Z 10)) (fmul (f_of_Z 1) (f_of_Z 1)).
Definition tie1 : reading := mkReading (fmul (f_of_Z 1) (f_of_Z 8)) (fmul (f_of_Z 1) (f_of_Z 10)) (fmul (f_of_Z 1) (f_of_Z 9)).
Definition tie_arms : list script := [arm_of [ft 0 10 1; ft 1 2 1]; arm_of [ft 8 10 9]].
Definition tie_state (n c g : nat) (cum : list nat) (tot : nat) : bstate (A := script) (G := nat) :=
  mkB [mkScript [ft 1 2 1] (Some (ft 0 10 1)) 1; mkScript [] (Some (ft 8 10 9)) c] g
      [repeat tie0 (S n); repeat tie1 (S n)] [1 :: repeat 0 n; repeat 1 (S n)] cum tot [0; 1].
Lemma tie_select c c' g : select_arms script_ops last_world [mkScript [ft 1 2 1] (Some (ft 0 10 1)) c; mkScript [] (Some (ft 8 10 9)) c'] g = (Ok [1; 1], g).
Proof. vm_compute. reflexivity. Qed.
Lemma tie_step n c g cum tot : length cum = S n ->
  lucb_step script_ops last_world (free 1) None (tie_state n c g cum tot) = Continue (tie_state (S n) (c + 1 + 1) (S (S g)) (cum ++ [tot + 2]) (tot + 2)).
Proof.
  intros Hc. unfold lucb_step. cbn [over_limit c_limit free b_arms tie_state]. rewrite tie_select.
  assert (Hp : forall delta, pull_list script_ops last_world (free 1) None delta [1; 1] [mkScript [ft 1 2 1] (Some (ft 0 10 1)) 1; mkScript [] (Some (ft 8 10 9)) c] g =
    ([mkScript [ft 1 2 1] (Some (ft 0 10 1)) 1; mkScript [] (Some (ft 8 10 9)) (c + 1 + 1)], S (S g), None)) by reflexivity.
  cbn [b_g]. rewrite Hp.
  assert (Hco : forall x y, collect script_ops [mkScript [ft 1 2 1] (Some (ft 0 10 1)) x; mkScript [] (Some (ft 8 10 9)) y] = Ok [tie0; tie1]) by reflexivity.
  rewrite Hco.
  assert (Hce : exists b, check_end (free 1) [tie0; tie1] = Ok (false, b)) by (eexists; vm_compute; reflexivity).
  destruct Hce as (b & ->). f_equal. unfold record_round, tie_state. cbn [b_arms b_g b_hist b_smp b_cum b_total b_cand set_arms]. f_equal.
  - cbn [push map2]. rewrite !repeat_snoc0. reflexivity.
  - change (push [1 :: repeat 0 n; repeat 1 (S n)] [0; 1] = [1 :: repeat 0 (S n); repeat 1 (S (S n))]). cbn [push map2].
    change ((1 :: repeat 0 n) ++ [0]) with (1 :: (repeat 0 n ++ [0])). rewrite !repeat_snoc0. reflexivity.
Qed.
Lemma tie_run fuel : exists n c g cum tot, length cum = S n /\ run LUCB script_ops last_world (free 1) fuel None tie_arms 0 = OutOfFuel (tie_state n c g cum tot).
Proof.
  destruct (loop_forever (lucb_step script_ops last_world (free 1) None) (fun s => exists n c g cum tot, length cum = S n /\ s = tie_state n c g cum tot)) with (fuel := fuel) (s := tie_state 0 1 1 [2] 2) as (s' & Hr & n & c & g & cum & tot & Hc & ->).
  - intros s (n & c & g & cum & tot & Hc & ->). rewrite tie_step by exact Hc. eexists. split; [reflexivity|].
    exists (S n). do 4 eexists. split; [|reflexivity]. rewrite app_length. simpl. lia.
  - exists 0, 1, 1, [2], 2. split; reflexivity.
  - exists n, c, g, cum, tot. split; [exact Hc|]. unfold run, run_lucb.
    assert (E : lucb_start script_ops last_world (free 1) None tie_arms 0 = Continue (tie_state 0 1 1 [2] 2)) by reflexivity.
    rewrite E. exact Hr.
Qed.
Lemma filter_nil_all {X} (f : X -> bool) l : (forall x, In x l -> f x = false) -> filter f l = [].
Proof. induction l as [|x l IH]; simpl; intros H; [reflexivity|]. rewrite (H x) by auto. auto. Qed.
Theorem C116_ties_refuted : exists A D G (ops : arm_ops A D G) w cfg arms g v W b N,
  0 < c_units cfg /\ tol_ok cfg /\ fair_choice w /\ b < length arms /\
  (forall x n, x < length arms -> N x <= n -> narrow cfg (length arms) v b x (W x n)) /\
  forall fuel, accurate v W (final_state (run LUCB ops w cfg fuel None arms g)) /\ ~ terminated (run LUCB ops w cfg fuel None arms g).
Proof.
  exists script, (list nat), nat, script_ops, last_world, (free 1), tie_arms, 0, (fun j => match j with 0 => 1%R | _ => 9%R end),
    (fun j n => match j, n with 0, 1 => 10%R | _, _ => 2%R end), 0, (fun j => match j with 0 => 2 | _ => 1 end).
  split; [simpl; lia|]. split; [split; [reflexivity|simpl; lra]|]. split; [exact last_fair|]. split; [simpl; lia|]. split.
  - intros x n Hx Hn j Hj Hne Hxj. simpl length in *. simpl c_error_tol. simpl B2R. destruct j as [|[|j]]; [lia| |lia].
    destruct x as [|[|x]]; [|simpl; lra|lia]. destruct n as [|[|n]]; try lia. simpl. lra.
  - intros fuel. destruct (tie_run fuel) as (n & c & g & cum & tot & Hc & ->). split; [|exact (fun H => H)]. simpl final_state.
    intros j t r Hr. unfold recorded, tie_state in Hr. cbn [b_hist] in Hr.
    assert (H0 : forall z, (Z.abs z <= 100)%Z -> is_finite (fmul (f_of_Z 1) (f_of_Z z)) = true /\ B2R (fmul (f_of_Z 1) (f_of_Z z)) = IZR z).
    { intros z Hz. destruct (of_Z_exact z ltac:(lia)) as [F1 R1]. destruct f1_real as [F0 R0].
      pose proof (Bmult_correct 53 1024 _ _ mode_NE (f_of_Z 1) (f_of_Z z)) as Hm. rewrite R0, R1, Rmult_1_l in Hm.
      rewrite round_generic in Hm by (auto with typeclass_instances; rewrite <- R1; apply generic_format_B2R).
      rewrite Rlt_bool_true in Hm. 2:{ rewrite <- R1. apply abs_B2R_lt_emax. }
      destruct Hm as (Hm1 & Hm2 & _). unfold fmul. rewrite Hm1, Hm2, F0, F1. auto. }
    assert (Hpulls : pulls (tie_state n c g cum tot) 0 t = 1).
    { unfold pulls. simpl seq. simpl filter. change (sampled (tie_state n c g cum tot) 0 0) with true. cbn [length]. f_equal.
      apply length_zero_iff_nil. apply filter_nil_all. intros x Hx. apply in_seq in Hx. unfold sampled, recorded_samples, tie_state. cbn [b_smp nth_error].
      destruct x as [|x]; [lia|]. cbn [nth_error]. destruct (nth_error (repeat 0 n) x) as [y|] eqn:E; [|reflexivity].
      apply nth_error_In, repeat_spec in E. subst y. reflexivity. }
    destruct j as [|[|j]]; [| |destruct j; discriminate]; cbn [nth_error] in Hr; apply nth_error_In in Hr;
      (apply (repeat_spec (S n)) in Hr; subst r).
    + rewrite Hpulls. unfold tight, tie0. cbn [r_lcb r_ucb r_var].
      destruct (H0 0%Z ltac:(lia)) as [F0 R0]. destruct (H0 1%Z ltac:(lia)) as [F1 R1]. destruct (H0 10%Z ltac:(lia)) as [F2 R2]. rewrite R0, R1, R2. repeat (split; [assumption || lra|]). lra.
    + unfold tight, tie1. cbn [r_lcb r_ucb r_var].
      destruct (H0 8%Z ltac:(lia)) as [F0 R0]. destruct (H0 9%Z ltac:(lia)) as [F1 R1]. destruct (H0 10%Z ltac:(lia)) as [F2 R2]. rewrite R0, R1, R2. repeat (split; [assumption || lra|]). lra.
Qed.
Print Assumptions C116_ties_refuted.
