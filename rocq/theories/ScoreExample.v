(** A small instance with independent units, for C121 and C122: one path, V1 is 1 with probability
    1/3; Z1, X and Z0 flip V1, V1 and X with probability 1/3; Y is Z0 + Z1, plus 2 with probability 1/3. *)
From Coq Require Import List Arith ZArith Bool String Reals Lra Lia.
From Verif Require Import PyBase Num NumOps DataModel ScmModel ScmProofs TabModel TabSpec BanditModel ArmModel ParamModel ParamProofs ParamProofs2
  PaperModel PaperSpec PaperProofs PaperProofs2 PaperProofs3 ScmSpec LawSpec LawProofs LawProofs2 LawProofs3 LawExample ParamSpec ScoreSpec ScoreProofs.
Import ListNotations.
Open Scope nat_scope.
Open Scope list_scope.

(** ** probabilities of events of equally likely tapes *)
Lemma prob_count {W} (ws : list W) (c : R) b : forall k,
  prob (tapes (map (fun w => (w, c)) ws) k) b = (INR (List.length (filter b (words ws k))) * c ^ k)%R.
Proof.
  intro k. revert b. induction k as [|k IH]; intro b.
  - unfold prob. cbn [tapes mean words filter pow]. destruct (b []); cbn; lra.
  - unfold prob. rewrite mean_tapes_S. cbn [words].
    transitivity (mean (map (fun w => (w, c)) ws) (fun w => (INR (List.length (filter (fun g => b (w :: g)) (words ws k))) * c ^ k)%R)).
    { apply mean_ext. intro w. exact (IH (fun g => b (w :: g))). }
    rewrite mean_scal_r. clear IH. cbn [pow].
    enough (E : mean (map (fun w => (w, c)) ws) (fun w => INR (List.length (filter (fun g => b (w :: g)) (words ws k)))) =
      (INR (List.length (filter b (flat_map (fun w => map (cons w) (words ws k)) ws))) * c)%R) by (rewrite E; ring).
    generalize (words ws k). intro l. induction ws as [|w ws IHw]; cbn [map mean flat_map]; [cbn; ring|].
    rewrite IHw, filter_app, app_length, plus_INR, Rmult_plus_distr_r. f_equal. rewrite Rmult_comm. f_equal. f_equal.
    clear. induction l as [|g l IH]; [reflexivity|]. cbn [map filter]. destruct (b (w :: g)); cbn [List.length]; now rewrite IH.
Qed.

(** ** the CPDs *)
Definition flipr (r : R) (w : nat) : R := if w =? 2 then (1 - r)%R else r.
Definition flipb (b : bool) (w : nat) : bool := if w =? 2 then negb b else b.
Definition arg (rows : list (list X)) (i : nat) : R := real_of (hd (Fin 0) (nth i rows [])).
Definition rowU (v : string) (rows : list (list X)) (w : nat) : list X :=
  [Fin (if String.eqb v "V1" then flipr 0 w
        else if String.eqb v "Y" then (arg rows 0 + arg rows 1 + (if w =? 2 then 2 else 0))%R
        else flipr (arg rows 0) w)].
Definition tailU (v : string) : list nat := if String.eqb v "X" || String.eqb v "Y" then [] else [1].
Definition cpdU (v : string) : cpd X (list (list nat)) := fun n args g =>
  match g with
  | ws :: g' => (Ok (mkArr (tailU v) (map (fun u => rowU v (map (fun a => nth u (arows a) []) args) (nth u ws 0)) (seq 0 n))), g')
  | [] => (Err OracleError, [])
  end.
Definition cpdsU : sdict (cpd X (list (list nat))) := map (fun v => (v, cpdU v)) ["V1"; "Z1"; "X"; "Z0"; "Y"]%string.
Definition scmU : scm X (list (list nat)) := match paper_scm 1 cpdsU with Ok s => s | Err _ => mkScm "" [] [] [] [] "" "" end.
Lemma scmU_ok : paper_scm 1 cpdsU = Ok scmU.
Proof. reflexivity. Qed.
Lemma cpdsU_unitwise v f : entry cpdsU v f -> unitwise 0 f.
Proof.
  intro H. apply entry_sget in H. unfold cpdsU in H. cbn [map sget] in H.
  repeat match type of H with (if String.eqb v ?u then _ else _) = _ =>
    destruct (String.eqb_spec v u) as [->|]; [injection H as <-; eexists _, _; intros; reflexivity|] end. discriminate H.
Qed.

Notation TU := (unit_tapes law3 1 5).
Definition w_of (g : list (list nat)) (i : nat) : nat := nth 0 (nth i g []) 0.
(** V1, X and Y of a unit *)
Definition vU (g : list (list nat)) : bool := flipb false (w_of g 0).
Definition xU (g : list (list nat)) : bool := flipb (vU g) (w_of g 2).
Definition yU (g : list (list nat)) : R :=
  (flipr (b2r (xU g)) (w_of g 3) + flipr (b2r (vU g)) (w_of g 1) + (if w_of g 4 =? 2 then 2 else 0))%R.
Definition zU (g : list (list nat)) : list R := [b2r (vU g)].

Lemma TU_words : TU = tapes (map (fun w => (w, (1/3 * 1)%R)) [[0]; [1]; [2]]) 5.
Proof. reflexivity. Qed.
Lemma TU_tape g p : In (g, p) TU -> exists a b c d e, g = [[a]; [b]; [c]; [d]; [e]].
Proof.
  rewrite TU_words. intro H. apply tapes_words in H. cbn [words] in H.
  repeat (apply in_flat_map in H as (? & Hw & H); apply in_map_iff in H as (? & <- & H);
    destruct Hw as [<-|[<-|[<-|[]]]]).
  all: destruct H as [<-|[]]; do 5 eexists; reflexivity.
Qed.
Lemma flipr_b b w : flipr (b2r b) w = b2r (flipb b w).
Proof. unfold flipr, flipb, b2r. destruct (w =? 2), b; cbn; lra. Qed.
Lemma flipr_0 w : flipr 0 w = b2r (flipb false w).
Proof. exact (flipr_b false w). Qed.

Lemma U_one : one_unit TU scmU (arm_mask [1; 1] [0; 1] 1 0) xU zU yU.
Proof.
  intros g p Hin. destruct (TU_tape g p Hin) as (a & b & c & d & e & ->).
  unfold xU, yU, zU, vU, w_of. cbn [nth].
  split; [|split].
  - transitivity (Some (vec [Fin (flipr (flipr 0 a) c)])); [reflexivity|]. now rewrite bit_x, flipr_0, flipr_b.
  - transitivity (Some (vec [Fin (flipr (flipr (flipr 0 a) c) d + flipr (flipr 0 a) b + (if e =? 2 then 2 else 0))%R])); [reflexivity|].
    now rewrite flipr_0, (flipr_b _ c).
  - transitivity (Some (mkArr [1] [[Fin (flipr 0 a)]])); [reflexivity|]. now rewrite flipr_0.
Qed.

(** ** its probabilities *)
Lemma b2r_inj a b : b2r a = b2r b -> a = b.
Proof. destruct a, b; cbn; trivial; intro; lra. Qed.
Lemma U_like g g' : like zU g g' = Bool.eqb (vU g') (vU g).
Proof.
  unfold like, zU. destruct (z_eq [b2r (vU g')] [b2r (vU g)]) as [E|E].
  - injection E as E. apply b2r_inj in E. rewrite E. now destruct (vU g).
  - destruct (vU g'), (vU g); try reflexivity; now destruct E.
Qed.
Definition cellU (b v : bool) (g : list (list nat)) : bool := Bool.eqb (xU g) b && Bool.eqb (vU g) v.
Lemma U_prob b v : prob TU (cellU b v) = (if v then if b then 2/9 else 1/9 else if b then 2/9 else 4/9)%R.
Proof.
  rewrite TU_words, prob_count.
  assert (E : List.length (filter (cellU b v) (words [[0]; [1]; [2]] 5)) = if v then if b then 54 else 27 else if b then 54 else 108)
    by (destruct b, v; vm_compute; reflexivity).
  rewrite E. destruct b, v; rewrite INR_IZR_INZ; cbn [Z.of_nat Pos.of_succ_nat Pos.succ]; field.
Qed.
Lemma U_arm b g : prob TU (arm_of xU zU b g) = prob TU (cellU b (vU g)).
Proof. apply mean_ext. intro g'. unfold arm_of, cellU. now rewrite U_like. Qed.
Lemma U_positive : positive TU xU zU.
Proof. intros g p b _ _. rewrite U_arm, U_prob. destruct b, (vU g); lra. Qed.
(** P(X = 1 | V1) is 1/3 or 2/3 *)
Definition eU (zz : list R) : R := ((1 + hd 0 zz) / 3)%R.
Lemma U_propensity : right_propensity TU xU zU (1/4) eU.
Proof.
  intros g p _ _. rewrite (prob_split TU xU zU g), !U_arm, !U_prob. unfold eU, zU. cbn [hd].
  destruct (vU g); cbn [b2r]; split; try lra; field.
Qed.

Lemma U_regular : regular TU scmU 1 1 [1; 1] [0; 1].
Proof.
  intros g p Hin. destruct (TU_tape g p Hin) as (a & b & c & d & e & ->).
  split; [split; [|split]|].
  - intros t Ht. injection Ht as <-. split; [reflexivity|repeat constructor].
  - intros i t Hi Ht. assert (i = 1) as -> by lia. injection Ht as <-. split; [reflexivity|repeat constructor].
  - intros i t Hi Ht. assert (i = 1) as -> by lia. injection Ht as <-. split; [reflexivity|repeat constructor].
  - intros v t Hv Ht. destruct Hv; try (assert (i = 1) as -> by lia); injection Ht as <-; reflexivity.
Qed.

(** ** the effect of the treatment *)
Definition cpdDo (b : bool) : cpd X (list (list nat)) := fun _ _ g => (Ok (vec [bit xreal b]), g).
Definition cpdsDo (b : bool) : sdict (cpd X (list (list nat))) :=
  map (fun v => (v, if String.eqb v "X" then cpdDo b else cpdU v)) ["V1"; "Z1"; "X"; "Z0"; "Y"]%string.
Definition scmDo (b : bool) : scm X (list (list nat)) := match paper_scm 1 (cpdsDo b) with Ok s => s | Err _ => scmU end.
Lemma scmDo_sets b : sets_treatment scmU (scmDo b) b.
Proof.
  exists (cpdDo b). split; [reflexivity|]. do 5 (split; [reflexivity|]). split; [apply entry_sget; reflexivity|].
  intros u h Hu. rewrite !entry_sget. apply String.eqb_neq in Hu.
  change (s_cpds (scmDo b)) with (cpdsDo b). change (s_cpds scmU) with cpdsU. unfold cpdsDo, cpdsU. cbn [map sget String.eqb Ascii.eqb Bool.eqb].
  rewrite Hu. reflexivity.
Qed.
Lemma U_effect : effect TU (scmDo true) (scmDo false) = (1/3)%R.
Proof.
  unfold effect.
  assert (E : mean TU (fun g => entry_real (drawn (scmDo true) 1 g "Y")) =
    (mean TU (fun g => entry_real (drawn (scmDo false) 1 g "Y")) + (mean TU (fun _ => 1%R) + mean TU (fun g => (if w_of g 2 =? 2 then 1 else 0)%R) * (-2)))%R).
  { rewrite <- mean_scal_r, <- !mean_plus. apply mean_ext_in. intros g p Hin. destruct (TU_tape g p Hin) as (a & b & c & d & e & ->).
    assert (HD : forall t, entry_real (drawn (scmDo t) 1 [[a]; [b]; [c]; [d]; [e]] "Y") =
      (flipr (real_of (bit xreal t)) c + flipr (flipr 0 a) b + (if d =? 2 then 2 else 0))%R) by reflexivity.
    rewrite !HD, !bit_x. cbn [real_of b2r w_of nth].
    unfold flipr. destruct (c =? 2); lra. }
  rewrite E. assert (H1 : mean TU (fun _ => 1%R) = 1%R) by exact (proj2 (tapes_law _ 5 (tapes_law _ 1 law3_law))).
  assert (H2 : mean TU (fun g => (if w_of g 2 =? 2 then 1 else 0)%R) = (1/3)%R).
  { change (prob TU (fun g => w_of g 2 =? 2) = (1/3)%R). rewrite TU_words, prob_count.
    assert (Ec : List.length (filter (fun g => w_of g 2 =? 2) (words [[0]; [1]; [2]] 5)) = 81) by (vm_compute; reflexivity).
    rewrite Ec, INR_IZR_INZ. cbn [Z.of_nat Pos.of_succ_nat Pos.succ]. field. }
  rewrite H1, H2. lra.
Qed.
