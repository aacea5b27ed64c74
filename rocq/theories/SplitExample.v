(** An instance with independent units in which an arm misses the confounder, for C126: one path; the first column of V1 is
    0 and the second a fair coin; Z1 and Y copy the coin, X copies it with probability 3/4, Z0 copies X. The arm named Z_1
    gets the first column of V1. *)
From Coq Require Import List Arith ZArith Bool String Reals Lra Lia.
From Verif Require Import PyBase Num NumOps DataModel ScmModel ScmProofs TabModel TabSpec BanditModel ArmModel ParamModel ParamProofs ParamProofs2
  PaperModel PaperSpec PaperProofs PaperProofs2 PaperProofs3 ScmSpec LawSpec LawProofs LawProofs2 LawProofs3 LawProofs5 LawExample ParamSpec ScoreSpec ScoreProofs ScoreExample SplitSpec.
Import ListNotations.
Open Scope nat_scope.
Open Scope list_scope.

Definition cell_of (rows : list (list X)) (i c : nat) : R := real_of (nth c (nth i rows []) (Fin 0)).
Definition rowO (v : string) (rows : list (list X)) (w : nat) : list X :=
  if String.eqb v "V1" then [Fin 0; Fin (b2r (Nat.odd w))]
  else if String.eqb v "Z1" then [Fin (cell_of rows 0 1)]
  else if String.eqb v "X" then [Fin (if w =? 3 then 1 - cell_of rows 0 1 else cell_of rows 0 1)%R]
  else if String.eqb v "Z0" then [Fin (cell_of rows 0 0)]
  else [Fin (cell_of rows 1 0)].
Definition tailO (v : string) : list nat := if String.eqb v "X" || String.eqb v "Y" then [] else if String.eqb v "V1" then [2] else [1].
Definition cpdO (v : string) : cpd X (list (list nat)) := fun n args g =>
  match g with
  | ws :: g' => (Ok (mkArr (tailO v) (map (fun u => rowO v (map (fun a => nth u (arows a) []) args) (nth u ws 0)) (seq 0 n))), g')
  | [] => (Err OracleError, [])
  end.
Definition cpdsO : sdict (cpd X (list (list nat))) := map (fun v => (v, cpdO v)) ["V1"; "Z1"; "X"; "Z0"; "Y"]%string.
Definition scmO : scm X (list (list nat)) := match paper_scm 1 cpdsO with Ok s => s | Err _ => mkScm "" [] [] [] [] "" "" end.
Lemma scmO_ok : paper_scm 1 cpdsO = Ok scmO.
Proof. reflexivity. Qed.
Lemma cpdsO_unitwise v f : entry cpdsO v f -> unitwise 0 f.
Proof.
  intro H. apply entry_sget in H. unfold cpdsO in H. cbn [map sget] in H.
  repeat match type of H with (if String.eqb v ?u then _ else _) = _ =>
    destruct (String.eqb_spec v u) as [->|]; [injection H as <-; eexists _, _; intros; reflexivity|] end. discriminate H.
Qed.

Notation TO := (unit_tapes four 1 5).
(** the coin, X, Y and the column of the arm *)
Definition coinO (g : list (list nat)) : bool := Nat.odd (w_of g 0).
Definition xO (g : list (list nat)) : bool := if w_of g 2 =? 3 then negb (coinO g) else coinO g.
Definition yO (g : list (list nat)) : R := b2r (coinO g).
Definition zO (g : list (list nat)) : list R := [0%R].

Lemma TO_words : TO = tapes (map (fun w => (w, (1/4 * 1)%R)) [[0]; [1]; [2]; [3]]) 5.
Proof. reflexivity. Qed.
Lemma TO_tape g p : In (g, p) TO -> exists a b c d e, g = [[a]; [b]; [c]; [d]; [e]].
Proof.
  intro H. pose proof (tapes_length _ _ _ _ H) as Hl.
  assert (HF : Forall (fun ws => exists a, ws = [a]) g).
  { clear Hl. revert g p H. generalize 5. induction n as [|n IH]; intros g p H; unfold unit_tapes in *; cbn [tapes] in H.
    - destruct H as [[= <- _]|[]]. constructor.
    - apply in_flat_map in H as ((ws, q) & Hw & H). apply in_map_iff in H as ((t, r) & [= <- _] & H). constructor; [|exact (IH t r H)].
      cbn in Hw. repeat (destruct Hw as [[= <- _]|Hw]; [eauto|]). destruct Hw. }
  destruct g as [|g1 [|g2 [|g3 [|g4 [|g5 [|]]]]]]; try discriminate Hl.
  repeat match goal with H : Forall _ (_ :: _) |- _ => inversion H as [|? ? (? & ->) ?]; clear H; subst end.
  do 5 eexists. reflexivity.
Qed.

Lemma O_one : one_unit TO scmO (arm_mask [1; 1] [0; 2] 1 0) xO zO yO.
Proof.
  intros g p Hin. destruct (TO_tape g p Hin) as (a & b & c & d & e & ->).
  unfold xO, yO, zO, coinO, w_of. cbn [nth].
  split; [|split].
  - transitivity (Some (vec [Fin (if c =? 3 then 1 - b2r (Nat.odd a) else b2r (Nat.odd a))%R])); [reflexivity|].
    rewrite bit_x. destruct (c =? 3), (Nat.odd a); cbn [negb b2r]; do 4 f_equal; lra.
  - reflexivity.
  - reflexivity.
Qed.
Lemma O_regular : regular TO scmO 1 1 [1; 1] [0; 2].
Proof.
  intros g p Hin. destruct (TO_tape g p Hin) as (a & b & c & d & e & ->).
  split; [split; [|split]|].
  - intros t Ht. injection Ht as <-. split; [reflexivity|repeat constructor].
  - intros i t Hi Ht. assert (i = 1) as -> by lia. injection Ht as <-. split; [reflexivity|repeat constructor].
  - intros i t Hi Ht. assert (i = 1) as -> by lia. injection Ht as <-. split; [reflexivity|repeat constructor].
  - intros v t Hv Ht. destruct Hv; try (assert (i = 1) as -> by lia); injection Ht as <-; reflexivity.
Qed.

(** ** its probabilities *)
Definition cellO (b v : bool) (g : list (list nat)) : bool := Bool.eqb (xO g) b && Bool.eqb (coinO g) v.
Lemma O_prob b v : prob TO (cellO b v) = (if Bool.eqb b v then 3/8 else 1/8)%R.
Proof.
  rewrite TO_words, prob_count, INR_IZR_INZ.
  assert (E : Z.of_nat (List.length (filter (cellO b v) (words [[0]; [1]; [2]; [3]] 5))) = (if Bool.eqb b v then 384 else 128)%Z)
    by (destruct b, v; vm_compute; reflexivity).
  rewrite E. destruct b, v; cbn [Bool.eqb]; field.
Qed.
Lemma O_arm b g : prob TO (arm_of xO zO b g) = (1/2)%R.
Proof.
  transitivity (prob TO (cellO b true) + prob TO (cellO b false))%R.
  - unfold prob. rewrite <- mean_plus. apply mean_ext. intro g'. unfold arm_of, cellO, like, zO.
    destruct (z_eq [0%R] [0%R]) as [_|C]; [|now destruct C]. destruct (Bool.eqb (xO g') b), (coinO g'); cbn [andb Bool.eqb]; lra.
  - rewrite !O_prob. destruct b; cbn [Bool.eqb]; lra.
Qed.
Lemma O_positive : positive TO xO zO.
Proof. intros g p b _ _. rewrite O_arm. lra. Qed.
Lemma O_propensity : right_propensity TO xO zO (1/4) (fun _ => (1/2)%R).
Proof. intros g p _ _. rewrite (prob_split TO xO zO g), !O_arm. split; [field|lra]. Qed.
Lemma O_given b g : mean_given TO (arm_of xO zO b g) yO = (if b then 3/4 else 1/4)%R.
Proof.
  unfold mean_given. rewrite O_arm.
  transitivity (prob TO (cellO b true) / (1/2))%R.
  - f_equal. apply mean_ext. intro g'. unfold arm_of, cellO, like, zO, yO.
    destruct (z_eq [0%R] [0%R]) as [_|C]; [|now destruct C]. destruct (Bool.eqb (xO g') b), (coinO g'); cbn [andb Bool.eqb b2r]; lra.
  - rewrite O_prob. destruct b; cbn [Bool.eqb]; field.
Qed.
Lemma TO_law : is_law TO.
Proof. apply tapes_law, tapes_law, four_law. Qed.
Lemma O_contrast : contrast TO xO zO yO = (1/2)%R.
Proof.
  unfold contrast. rewrite (mean_ext TO _ (fun _ => (3/4)%R) (O_given true)), (mean_ext TO _ (fun _ => (1/4)%R) (O_given false)).
  rewrite !mean_const by apply TO_law. lra.
Qed.

(** ** the effect of the treatment *)
Definition cpdsDoO (b : bool) : sdict (cpd X (list (list nat))) :=
  map (fun v => (v, if String.eqb v "X" then cpdDo b else cpdO v)) ["V1"; "Z1"; "X"; "Z0"; "Y"]%string.
Definition scmDoO (b : bool) : scm X (list (list nat)) := match paper_scm 1 (cpdsDoO b) with Ok s => s | Err _ => scmO end.
Lemma scmDoO_sets b : sets_treatment scmO (scmDoO b) b.
Proof.
  exists (cpdDo b). split; [reflexivity|]. do 5 (split; [reflexivity|]). split; [apply entry_sget; reflexivity|].
  intros u h Hu. rewrite !entry_sget. apply String.eqb_neq in Hu.
  change (s_cpds (scmDoO b)) with (cpdsDoO b). change (s_cpds scmO) with cpdsO. unfold cpdsDoO, cpdsO. cbn [map sget String.eqb Ascii.eqb Bool.eqb].
  rewrite Hu. reflexivity.
Qed.
Lemma O_effect : effect TO (scmDoO true) (scmDoO false) = 0%R.
Proof.
  unfold effect. apply Rminus_diag_eq. apply mean_ext_in. intros g p Hin. destruct (TO_tape g p Hin) as (a & b & c & d & e & ->).
  transitivity (b2r (Nat.odd a)); [|symmetry]; reflexivity.
Qed.
Lemma O_open : ~ covers [1; 1] [0; 2] 1 (arm_columns [1; 1] [0; 2] 1 0).
Proof.
  intro H. destruct (H 1 ltac:(lia)) as [Hv|Hz].
  - destruct (Hv 1 ltac:(cbn; lia)) as (c & [<-|[]] & E). discriminate E.
  - destruct (Hz 0 ltac:(cbn; lia)) as (c & [<-|[]] & E). discriminate E.
Qed.
