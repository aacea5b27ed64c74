(** An instance with independent units for C127: one path; V1 is a fair coin, Z1 copies it, X copies it with probability
    3/4, Z0 copies X with probability 3/4, and Y = Z0 + Z1. Z0 has
    1 + q columns, all equal. *)
From Coq Require Import List Arith ZArith Bool String Reals Lra Lia Permutation.
From Verif Require Import PyBase Num NumOps DataModel ScmModel ScmProofs TabModel TabSpec TabReal BanditModel ArmModel ParamModel ParamProofs ParamProofs2 ParamProofs3 ParamProofs7 ParamProps ParamProps2 ParamProps3
  PaperModel PaperSpec PaperProofs PaperProofs2 PaperProofs3 ScmSpec LawSpec LawProofs LawProofs2 LawProofs3 LawProofs5 LawExample ParamSpec ScoreSpec ScoreProofs ScoreExample SplitExample
  FrontSpec FrontProofs FrontProofs2 FrontProofs3.
Import ListNotations.
Open Scope nat_scope.
Open Scope list_scope.

Lemma map_repeat {A B} (f : A -> B) a n : map f (repeat a n) = repeat (f a) n.
Proof. induction n as [|n IH]; [reflexivity|]. cbn [repeat map]. now rewrite IH. Qed.

Section Front.
Context (q : nat).

Definition rowF (v : string) (rows : list (list X)) (w : nat) : list X :=
  if String.eqb v "V1" then [Fin (b2r (Nat.odd w))]
  else if String.eqb v "Z1" then [Fin (cell_of rows 0 0)]
  else if String.eqb v "Y" then [Fin (cell_of rows 0 0 + cell_of rows 1 0)%R]
  else let r := Fin (if w =? 3 then 1 - cell_of rows 0 0 else cell_of rows 0 0)%R in
    if String.eqb v "Z0" then r :: repeat r q else [r].
Definition tailF (v : string) : list nat := if String.eqb v "Z0" then [S q] else tailU v.
Definition cpdF (v : string) : cpd X (list (list nat)) := fun n args g =>
  match g with
  | ws :: g' => (Ok (mkArr (tailF v) (map (fun u => rowF v (map (fun a => nth u (arows a) []) args) (nth u ws 0)) (seq 0 n))), g')
  | [] => (Err OracleError, [])
  end.
Definition cpdsF : sdict (cpd X (list (list nat))) := map (fun v => (v, cpdF v)) ["V1"; "Z1"; "X"; "Z0"; "Y"]%string.
Definition scmF : scm X (list (list nat)) := match paper_scm 1 cpdsF with Ok s => s | Err _ => mkScm "" [] [] [] [] "" "" end.
Lemma scmF_ok : paper_scm 1 cpdsF = Ok scmF.
Proof. reflexivity. Qed.
Lemma cpdsF_unitwise v f : entry cpdsF v f -> unitwise 0 f.
Proof.
  intro H. apply entry_sget in H. unfold cpdsF in H. cbn [map sget] in H.
  repeat match type of H with (if String.eqb v ?u then _ else _) = _ =>
    destruct (String.eqb_spec v u) as [->|]; [injection H as <-; eexists _, _; intros; reflexivity|] end. discriminate H.
Qed.

(** V1, X, Z0 and Y of a unit *)
Definition flip3 (b : bool) (w : nat) : bool := if w =? 3 then negb b else b.
Definition vF (g : list (list nat)) : bool := Nat.odd (w_of g 0).
Definition xF (g : list (list nat)) : bool := flip3 (vF g) (w_of g 2).
Definition mF (g : list (list nat)) : bool := flip3 (xF g) (w_of g 3).
Definition cs (c : bool) : list R := b2r c :: repeat (b2r c) q.
Definition zF (g : list (list nat)) : list R := cs (mF g).
Definition yF (g : list (list nat)) : R := (b2r (mF g) + b2r (vF g))%R.

Lemma flip3_r b w : (if w =? 3 then 1 - b2r b else b2r b)%R = b2r (flip3 b w).
Proof. unfold flip3. destruct (w =? 3), b; cbn; lra. Qed.
Lemma F_mediated : mediated TO scmF xF zF yF.
Proof.
  intros g p Hin. destruct (TO_tape g p Hin) as (a & b & c & d & e & ->).
  unfold xF, yF, zF, cs, mF, xF, vF, w_of. cbn [nth]. rewrite <- !flip3_r. split; [|split].
  - transitivity (Some (vec [Fin (if c =? 3 then 1 - b2r (Nat.odd a) else b2r (Nat.odd a))%R])); [reflexivity|].
    now rewrite bit_x, flip3_r.
  - reflexivity.
  - cbn [List.length map]. rewrite repeat_length, map_repeat. reflexivity.
Qed.
Lemma F_regular : regular TO scmF 1 1 [S q; 1] [0; 1].
Proof.
  intros g p Hin. destruct (TO_tape g p Hin) as (a & b & c & d & e & ->).
  split; [split; [|split]|].
  - intros t Ht. injection Ht as <-. split; [reflexivity|]. constructor; [cbn; now rewrite repeat_length|constructor].
  - intros i t Hi Ht. assert (i = 1) as -> by lia. injection Ht as <-. split; [reflexivity|repeat constructor].
  - intros i t Hi Ht. assert (i = 1) as -> by lia. injection Ht as <-. split; [reflexivity|repeat constructor].
  - intros v t Hv Ht. destruct Hv; try (assert (i = 1) as -> by lia); injection Ht as <-; reflexivity.
Qed.

(** ** its probabilities *)
Definition cellF (b c v : bool) (g : list (list nat)) : bool := Bool.eqb (xF g) b && Bool.eqb (mF g) c && Bool.eqb (vF g) v.
Lemma F_prob b c v : prob TO (cellF b c v) = ((if Bool.eqb b c then 3 else 1) * (if Bool.eqb b v then 3 else 1) / 32)%R.
Proof.
  rewrite TO_words, prob_count, INR_IZR_INZ.
  assert (E : Z.of_nat (List.length (filter (cellF b c v) (words [[0]; [1]; [2]; [3]] 5))) = ((if Bool.eqb b c then 3 else 1) * (if Bool.eqb b v then 3 else 1) * 32)%Z)
    by (destruct b, c, v; vm_compute; reflexivity).
  rewrite E, !mult_IZR. destruct b, c, v; cbn [Bool.eqb]; field.
Qed.
Notation popF := (units_of TO xF zF yF).
Lemma F_like g g' : like zF g g' = Bool.eqb (mF g') (mF g).
Proof.
  unfold like, zF. destruct (z_eq (cs (mF g')) (cs (mF g))) as [E|E].
  - injection E as E _. apply b2r_inj in E. rewrite E. now destruct (mF g).
  - destruct (mF g'), (mF g); try reflexivity; now destruct E.
Qed.
(** a unit with each value of Z0 *)
Definition gF (c : bool) : list (list nat) := if c then [[1]; [0]; [0]; [0]; [0]] else [[0]; [0]; [0]; [0]; [0]].
Lemma gF_z c : zF (gF c) = (cs c).
Proof. destruct c; reflexivity. Qed.
Lemma gF_in c : exists p, In (gF c, p) TO.
Proof.
  exists (1/4 * 1 * (1/4 * 1 * (1/4 * 1 * (1/4 * 1 * (1/4 * 1 * 1)))))%R. unfold unit_tapes.
  assert (H : forall w, In w [[0]; [1]] -> In (w, (1/4 * 1)%R) (tapes four 1)) by (intros w [<-|[<-|[]]]; cbn; auto).
  assert (Hc : forall w t r k, In w [[0]; [1]] -> In (t, r) (tapes (tapes four 1) k) -> In (w :: t, (1/4 * 1 * r)%R) (tapes (tapes four 1) (S k))).
  { intros w t r k Hw Ht. cbn [tapes] in *. apply in_flat_map. exists (w, (1/4 * 1)%R). split; [now apply H|]. apply in_map_iff. exists (t, r). now split. }
  destruct c; repeat (apply Hc; [cbn; auto|]); now left.
Qed.
Lemma F_xz b c : p_xz popF b (cs c) = (if Bool.eqb b c then 3/8 else 1/8)%R.
Proof.
  rewrite <- gF_z, units_xz. transitivity (prob TO (cellF b c true) + prob TO (cellF b c false))%R.
  - unfold prob. rewrite <- mean_plus. apply mean_ext. intro g. unfold arm_of, cellF. rewrite F_like.
    replace (mF (gF c)) with c by now destruct c. destruct (Bool.eqb (xF g) b), (Bool.eqb (mF g) c), (vF g); cbn [andb Bool.eqb]; lra.
  - rewrite !F_prob. destruct b, c; cbn [Bool.eqb]; lra.
Qed.
Lemma F_x b : p_x popF b = (1/2)%R.
Proof.
  rewrite units_x. transitivity (p_xz popF b (cs true) + p_xz popF b (cs false))%R.
  - rewrite <- !gF_z, !units_xz. unfold prob. rewrite <- mean_plus. apply mean_ext. intro g. unfold arm_of. rewrite !F_like.
    change (mF (gF true)) with true. change (mF (gF false)) with false. destruct (Bool.eqb (xF g) b), (mF g); cbn [andb Bool.eqb]; lra.
  - rewrite !F_xz. destruct b; cbn [Bool.eqb]; lra.
Qed.
Lemma F_given b c : p_z_given popF b (cs c) = (if Bool.eqb b c then 3/4 else 1/4)%R.
Proof. unfold p_z_given. rewrite F_xz, F_x. destruct (Bool.eqb b c); field. Qed.
Lemma F_y b c : e_y popF b (cs c) = (b2r c + (if b then 3/4 else 1/4))%R.
Proof.
  rewrite <- gF_z, units_y. unfold mean_given. rewrite <- units_xz with (y := yF), gF_z, F_xz.
  transitivity (((b2r c + 1) * prob TO (cellF b c true) + b2r c * prob TO (cellF b c false)) / (if Bool.eqb b c then 3/8 else 1/8))%R.
  - f_equal. unfold prob. rewrite <- !mean_scal, <- mean_plus. apply mean_ext. intro g. unfold arm_of, cellF, yF. rewrite F_like.
    replace (mF (gF c)) with c by now destruct c. destruct (Bool.eqb (xF g) b), (mF g), c, (vF g); cbn [andb Bool.eqb b2r]; lra.
  - rewrite !F_prob. destruct b, c; cbn [Bool.eqb b2r]; field.
Qed.
Lemma F_values : Permutation (z_values popF) [cs true; cs false].
Proof.
  apply NoDup_Permutation.
  - apply NoDup_nodup.
  - constructor; [|constructor; [intros []|constructor]]. intros [E|[]]. injection E as E _. lra.
  - intro zz. split.
    + intro H. apply nodup_In in H. unfold units_of in H. rewrite map_map in H. apply in_map_iff in H as ((g, p) & <- & _). cbn [fst a_z].
      unfold zF. destruct (mF g); cbn; auto.
    + intros [<-|[<-|[]]].
      * rewrite <- gF_z. destruct (gF_in true) as (p & Hp). now apply units_z with p.
      * rewrite <- gF_z. destruct (gF_in false) as (p & Hp). now apply units_z with p.
Qed.
Lemma F_value zz : In zz (z_values popF) -> exists c, zz = (cs c).
Proof. intro H. apply (Permutation_in _ F_values) in H as [<-|[<-|[]]]; [exists true|exists false]; reflexivity. Qed.
Lemma F_population : population popF.
Proof.
  split; [|split].
  - intros a Ha. unfold units_of in Ha. apply in_map_iff in Ha as ((g, p) & <- & Hin). exact (proj1 TO_law g p Hin).
  - transitivity (mean TO (fun _ => 1%R)); [|apply TO_law]. rewrite <- (units_mean TO xF zF yF (fun _ _ _ => 1%R)). f_equal. apply map_ext. intro; lra.
  - intros zz b H. destruct (F_value zz H) as (c & ->). rewrite F_xz. destruct (Bool.eqb b c); lra.
Qed.

(** ** the bias *)
Lemma F_sum (f : list R -> R) : rsum (map f (z_values popF)) = (f (cs true) + f (cs false))%R.
Proof. rewrite (rsum_perm _ _ (Permutation_map f F_values)). cbn [map rsum]. lra. Qed.
Lemma F_f3 c : f3_of popF (cs c) = (if c then 9/8 else 7/8)%R.
Proof. unfold f3_of. rewrite F_sum, !F_y, !F_x, !F_given. destruct c; cbn [Bool.eqb b2r]; lra. Qed.

(** ** the effect *)
Definition cpdsDoF (b : bool) : sdict (cpd X (list (list nat))) :=
  map (fun v => (v, if String.eqb v "X" then cpdDo b else cpdF v)) ["V1"; "Z1"; "X"; "Z0"; "Y"]%string.
Definition scmDoF (b : bool) : scm X (list (list nat)) := match paper_scm 1 (cpdsDoF b) with Ok s => s | Err _ => scmF end.
Lemma scmDoF_sets b : sets_treatment scmF (scmDoF b) b.
Proof.
  exists (cpdDo b). split; [reflexivity|]. do 5 (split; [reflexivity|]). split; [apply entry_sget; reflexivity|].
  intros u h Hu. rewrite !entry_sget. apply String.eqb_neq in Hu.
  change (s_cpds (scmDoF b)) with (cpdsDoF b). change (s_cpds scmF) with cpdsF. unfold cpdsDoF, cpdsF. cbn [map sget String.eqb Ascii.eqb Bool.eqb].
  rewrite Hu. reflexivity.
Qed.
Lemma F_effect : effect TO (scmDoF true) (scmDoF false) = (1/2)%R.
Proof.
  unfold effect.
  assert (E : forall t, mean TO (fun g => entry_real (drawn (scmDoF t) 1 g "Y")) =
    (mean TO (fun g => b2r (vF g)) + b2r t + (1 - 2 * b2r t) * prob TO (fun g => w_of g 2 =? 3))%R).
  { intro t. transitivity (mean TO (fun g => (b2r (vF g) + b2r t * 1 + (1 - 2 * b2r t) * (if w_of g 2 =? 3 then 1 else 0))%R)).
    - apply mean_ext_in. intros g p Hin. destruct (TO_tape g p Hin) as (a & b & c & d & e & ->).
      transitivity ((if c =? 3 then 1 - real_of (bit xreal t) else real_of (bit xreal t)) + b2r (Nat.odd a))%R; [reflexivity|].
      rewrite bit_x. unfold vF, w_of. cbn [nth real_of]. destruct (c =? 3); lra.
    - rewrite !mean_plus, !mean_scal. unfold prob. rewrite (proj2 TO_law). lra. }
  assert (P : prob TO (fun g => w_of g 2 =? 3) = (1/4)%R).
  { rewrite TO_words, prob_count, INR_IZR_INZ.
    assert (Ec : Z.of_nat (List.length (filter (fun g => w_of g 2 =? 3) (words [[0]; [1]; [2]; [3]] 5))) = 256%Z) by (vm_compute; reflexivity).
    rewrite Ec. field. }
  rewrite !E, P. cbn [b2r]. lra.
Qed.
End Front.

(** ** the right parameter for one column *)
Definition muF (r : list R) : R := (nth 1 r 0 + 1/4 + hd 0 r / 2)%R.
Lemma F_right : right_front (funpred muF) codeE 1 fdE (units_of TO xF (zF 0) yF).
Proof.
  split; [reflexivity|]. split.
  { exists muF. split; [apply funpred_evaluates|]. intros zz b H. destruct (F_value 0 zz H) as (c & ->). rewrite F_y. unfold muF, cs. cbn [nth hd repeat]. destruct b; cbn [b2r]; lra. }
  split; [now rewrite F_x|]. split; [exact (proj1 (proj2 (proj2 (proj2 fdE_truth))))|]. split.
  { intros b zz H. destruct (F_value 0 zz H) as (c & ->). rewrite F_given. unfold cs. cbn [map repeat codeE kz ki]. destruct c; cbn [b2r]; rewrite ?is_one_1, ?is_one_0; destruct b; reflexivity. }
  exists [[1%R]; [0%R]]. split; [reflexivity|]. symmetry. exact (F_values 0).
Qed.

(** ** the right parameter for two columns: the first fit on sixteen units with the distribution of the instance *)
Definition fc2 : fd_conf X := mkFC 2 5 (Fin (1/4)) (Fin 10).
Definition u16 (b c : bool) : atom := mkAtom (/ 16) (cs 1 c) b (b2r c + if b then 3/4 else 1/4)%R.
Definition us16 : list atom :=
  repeat (u16 true true) 6 ++ repeat (u16 true false) 2 ++ repeat (u16 false true) 2 ++ repeat (u16 false false) 6.
Definition d16 : expdata X := mkED (Some (mkArr [2] (map (fun a => map Fin (a_z a)) us16))) (Some (vec (bits xreal (map a_x us16))))
  (Some (vec (map (fun a => Fin (a_y a)) us16))) 16 2.
Lemma cs_has c c' : (if z_eq (cs 1 c) (cs 1 c') then true else false) = Bool.eqb c c'.
Proof.
  destruct (z_eq (cs 1 c) (cs 1 c')) as [E|E].
  - injection E as E. apply b2r_inj in E. rewrite E. now destruct c'.
  - destruct c, c'; try reflexivity; now destruct E.
Qed.
Lemma rsum_repeat {A} (f : A -> R) a n l : rsum (map f (repeat a n ++ l)) = (INR n * f a + rsum (map f l))%R.
Proof. induction n as [|n IH]; [cbn; lra|]. cbn [repeat app map rsum]. rewrite IH, S_INR. lra. Qed.
Lemma us16_sum (f : atom -> R) : rsum (map f us16) = (6 * f (u16 true true) + 2 * f (u16 true false) + 2 * f (u16 false true) + 6 * f (u16 false false))%R.
Proof. unfold us16. rewrite <- (app_nil_r (repeat (u16 false false) 6)), !rsum_repeat. cbn [map rsum]. rewrite !INR_IZR_INZ. cbn [Z.of_nat Pos.of_succ_nat Pos.succ]. lra. Qed.
Lemma us16_mass ev : mass us16 ev = ((6 * (if ev (u16 true true) then 1 else 0) + 2 * (if ev (u16 true false) then 1 else 0)
  + 2 * (if ev (u16 false true) then 1 else 0) + 6 * (if ev (u16 false false) then 1 else 0)) / 16)%R.
Proof.
  unfold mass. rewrite rsum_filter, us16_sum. unfold u16. cbn [a_w].
  destruct (ev (mkAtom _ _ true (b2r true + _))), (ev (mkAtom _ _ true (b2r false + _))), (ev (mkAtom _ _ false (b2r true + _))), (ev (mkAtom _ _ false (b2r false + _))); lra.
Qed.
Lemma us16_x b : p_x us16 b = (1/2)%R.
Proof. unfold p_x. rewrite us16_mass. unfold has_x, u16. cbn [a_x]. destruct b; cbn [Bool.eqb]; lra. Qed.
Lemma us16_xz b c : p_xz us16 b (cs 1 c) = (if Bool.eqb b c then 3/8 else 1/8)%R.
Proof.
  unfold p_xz. rewrite us16_mass. unfold has_x, has_z, u16. cbn [a_x a_z]. rewrite !cs_has. destruct b, c; cbn [Bool.eqb andb]; lra.
Qed.
Lemma us16_y b c : e_y us16 b (cs 1 c) = (b2r c + (if b then 3/4 else 1/4))%R.
Proof.
  unfold e_y. rewrite us16_xz. unfold integral. rewrite rsum_filter, us16_sum. unfold has_x, has_z, u16. cbn [a_x a_z a_w a_y]. rewrite !cs_has.
  destruct b, c; cbn [Bool.eqb andb b2r]; field.
Qed.
Lemma us16_in a : In a us16 -> exists b c, a = u16 b c.
Proof. unfold us16. rewrite !in_app_iff. intros [H|[H|[H|H]]]; apply repeat_spec in H; subst; do 2 eexists; reflexivity. Qed.
Lemma us16_values : Permutation (z_values us16) [cs 1 true; cs 1 false].
Proof.
  apply NoDup_Permutation.
  - apply NoDup_nodup.
  - constructor; [|constructor; [intros []|constructor]]. intros [E|[]]. injection E as E. lra.
  - intro zz. unfold z_values. rewrite nodup_In, in_map_iff. split.
    + intros (a & <- & Ha). destruct (us16_in a Ha) as (b & c & ->). destruct c; cbn; auto.
    + intros [<-|[<-|[]]]; [exists (u16 true true)|exists (u16 true false)]; (split; [reflexivity|]); unfold us16; cbn; tauto.
Qed.
Lemma us16_value zz : In zz (z_values us16) -> exists c, zz = cs 1 c.
Proof. intro H. apply (Permutation_in _ us16_values) in H as [<-|[<-|[]]]; [exists true|exists false]; reflexivity. Qed.
Lemma us16_given b c : p_z_given us16 b (cs 1 c) = (if Bool.eqb b c then 3/4 else 1/4)%R.
Proof. unfold p_z_given. rewrite us16_xz, us16_x. destruct (Bool.eqb b c); field. Qed.

Lemma F_right2 : exists st, fd_reached xreal (funpred muF) codeE tt fc2 st /\ right_front (funpred muF) codeE 2 st (units_of TO xF (zF 1) yF).
Proof.
  assert (Hd : of_population us16 2 d16) by (repeat split; repeat constructor).
  destruct (fd_first_fit (funpred muF) codeE fc2 tt d16 (map (fun a => map Fin (a_z a)) us16) (map a_x us16) (map (fun a => Fin (a_y a)) us16) 10) as (st & E & _ & Hy & _ & _);
    try reflexivity; try lra; try discriminate; try exact Hd.
  { split; cbn; lia. }
  exists st. split.
  { change st with (fst (st, @None exn)). rewrite <- E. eapply fr_fit; [apply fr_new|exact Hd]. }
  apply right_front_same with us16.
  - apply Permutation_trans with [cs 1 true; cs 1 false]; [exact us16_values|]. symmetry. exact (F_values 1).
  - now rewrite us16_x, F_x.
  - intros b zz Hz. destruct (us16_value zz Hz) as (c & ->). now rewrite us16_y, us16_given, F_y, F_given.
  - apply (sample_right (funpred muF) codeE tt fc2 (1/4) 10 d16 us16 st muF); try reflexivity; try lra; try assumption.
    + split; [|split].
      * intros a Ha. destruct (us16_in a Ha) as (b & c & ->). cbn. lra.
      * rewrite us16_sum. cbn [a_w u16]. lra.
      * intros zz b Hz. destruct (us16_value zz Hz) as (c & ->). rewrite us16_xz. destruct (Bool.eqb b c); lra.
    + apply Forall_forall. intros a Ha. destruct (us16_in a Ha) as (b & c & ->). cbn [a_w u16]. f_equal.
      change (List.length us16) with 16. rewrite INR_IZR_INZ. reflexivity.
    + split; [|split].
      * unfold bit. rewrite !nint_x. cbn [codeE kx]. rewrite is_one_1, is_one_0. discriminate.
      * intros zz zz' Hz Hz'. destruct (us16_value zz Hz) as (c & ->), (us16_value zz' Hz') as (c' & ->). unfold cs.
        cbn [map repeat codeE kz]. destruct c, c'; cbn [b2r]; rewrite ?is_one_1, ?is_one_0; congruence.
      * intros zz Hz. destruct (us16_value zz Hz) as (c & ->). unfold cs. cbn [map repeat codeE kz zk]. destruct c; cbn [b2r]; rewrite ?is_one_1, ?is_one_0; reflexivity.
    + intros b. rewrite bit_x. destruct b; cbn [codeE kx ki b2r]; [now rewrite is_one_1|now rewrite is_one_0].
    + split; cbn; lia.
    + rewrite Hy. apply funpred_evaluates.
    + intros zz b Hz. destruct (us16_value zz Hz) as (c & ->). rewrite us16_y. unfold muF, cs. cbn [nth hd repeat]. destruct b; cbn [b2r]; lra.
    + rewrite us16_x. lra.
    + intros m b zz Hz. destruct (us16_value zz Hz) as (c & ->). rewrite us16_given. subst m.
      rewrite (Permutation_length us16_values). cbn [List.length INR]. unfold Rmax. destruct (Rle_dec _ _); destruct (Bool.eqb _ _); lra.
Qed.
