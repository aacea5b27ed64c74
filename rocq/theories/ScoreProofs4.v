(** The scores of an arm on a batch: one score per unit, each a function of the unit's own tape. *)
From Coq Require Import List Arith ZArith Bool String Reals Lra Lia.
From Verif Require Import PyBase Num NumOps DataModel ScmModel ScmProofs ScmProps TabModel TabSpec BanditModel ArmModel ParamModel ParamSpec ParamProofs ParamProofs2
  PaperModel PaperSpec PaperProofs PaperProofs2 PaperProofs3 ScmSpec LawSpec LawProofs LawProofs2 LawProofs3 LawProofs4 ScoreSpec ScoreProofs ScoreProofs2 ScoreProofs3.
Import ListNotations.
Open Scope nat_scope.
Open Scope list_scope.

Section Batch.
  Context {W : Type} (w0 : W) (seeds : law W) (m k : nat).
  Hypothesis Hk : 2 * m + 3 <= k.
  Context (cpds : sdict (cpd X (list (list W)))) (s : scm X (list (list W))).
  Hypothesis Hs : paper_scm m cpds = Ok s.
  Hypothesis Hu : forall v f, paper_var m v -> entry cpds v f -> unitwise w0 f.
  Context (zd vd : list nat).
  Notation TU := (unit_tapes seeds).
  Notation tape_of := (of_unit w0).

  (** the law of one call *)
  Definition KU (n : nat) (v : string) (args : list (arr X)) : law (arr X) :=
    map (fun wp => (match sget cpds v with
                    | Some f => match fst (f n args [fst wp]) with Ok a => a | Err _ => mkArr [] [] end
                    | None => mkArr [] [] end, snd wp)) (tapes seeds n).
  Lemma unit_draws n v f : paper_var m v -> entry cpds v f -> draws (tapes seeds n) n f (KU n v).
  Proof.
    intros Hv Hf. destruct (Hu v f Hv Hf) as (t & phi & H). left. eexists. split; [intros args w g; apply H|].
    intro args. unfold KU. apply entry_sget in Hf. rewrite Hf. apply map_ext. intros (ws, q). cbn [fst snd]. now rewrite H.
  Qed.

  Lemma unit_drawn n g p v : 1 <= n -> In (g, p) (TU n k) -> paper_var m v -> exists b, drawn s n g v = Some b /\ List.length (arows b) = n /\
    forall u, u < n -> drawn s 1 (tape_of u g) v = Some (unit_row u b).
  Proof.
    intros Hn Hin Hv. destruct (E_some (tapes seeds n) n m k Hk cpds s (KU n) Hs (unit_draws n) g p v Hin Hv) as (b & Eb).
    exists b. split; [exact Eb|].
    destruct (paper_scm_like m cpds s Hs) as ((Ev & Ht & E0 & EX & EY & EV & EZ) & Ec & _).
    assert (Hf0 : forall v, In v (s_vars s) -> fits (tapes seeds n) s n (KU n) (pa_of s) v).
    { intros u Hu'. rewrite Ev in Hu'. apply paper_vars_in in Hu'. split; [|exact (Hdraws (tapes seeds n) n m cpds s (KU n) Hs (unit_draws n) u Hu')].
      unfold pa_of. destruct Hu'; rewrite ?E0, ?EX, ?EY, ?EV, ?EZ by assumption; reflexivity. }
    assert (Hlen : List.length (s_vars s) <= List.length g).
    { unfold unit_tapes in Hin. rewrite (tapes_length (tapes seeds n) k g p Hin), Ev, (paper_vars_length m k Hk). exact Hk. }
    destruct (gen_runs (tapes seeds n) s n (KU n) (pa_of s) (s_vars s) [] g Hf0) as (r & Er).
    { intros pre u post p' E1 Hp. right. apply (Ht pre u post p' E1). exists (pa_of s u). split; [|exact Hp].
      apply entry_sget. apply Hf0. rewrite E1. apply in_elt. }
    { exact Hlen. }
    rewrite (drawn_loop s n g r Er) in Eb.
    assert (Huw : forall v f, In v (s_vars s) -> sget (s_cpds s) v = Some f -> unitwise w0 f).
    { intros v' f Hv' Hf. rewrite Ev in Hv'. apply paper_vars_in in Hv'. rewrite Ec in Hf. apply entry_sget in Hf. exact (Hu v' f Hv' Hf). }
    split.
    - destruct (gen_unit w0 s n 0 ltac:(lia) (s_vars s) [] [] g r Huw Hlen) as (_ & _ & _ & Hrows); trivial; [discriminate|]. exact (Hrows v b Eb).
    - intros u Hu'. destruct (gen_unit w0 s n u Hu' (s_vars s) [] [] g r Huw Hlen) as (r1 & Er1 & Hr1 & _); trivial; [discriminate|].
      rewrite (drawn_loop s 1 _ r1 Er1), Hr1, Eb. reflexivity.
  Qed.

  (** *** shapes *)
  Hypothesis Hreg : regular (TU 1 k) s 1 m zd vd.

  Lemma unit_shaped n d (b : arr X) : 1 <= n -> List.length (arows b) = n -> (forall u, u < n -> shaped d (unit_row u b)) -> shaped d b.
  Proof.
    intros Hn Hl H. split.
    - destruct (H 0 ltac:(lia)) as (Ht & _). exact Ht.
    - apply Forall_forall. intros r Hr. apply (In_nth _ _ []) in Hr as (u & Hu' & <-). destruct (H u ltac:(lia)) as (_ & HF).
      cbn [unit_row arows] in HF. now inversion HF.
  Qed.
  Lemma unit_regular n : 1 <= n -> regular (TU n k) s n m zd vd.
  Proof.
    intros Hn g p Hin.
    assert (Hsh : forall v b d, paper_var m v -> drawn s n g v = Some b ->
      (forall u a, u < n -> drawn s 1 (tape_of u g) v = Some a -> shaped d a) -> shaped d b).
    { intros v b d Hv Eb H. destruct (unit_drawn n g p v Hn Hin Hv) as (b' & Eb' & Hl & Hun). rewrite Eb in Eb'. injection Eb' as <-.
      apply (unit_shaped n); trivial. intros u Hu'. apply (H u); [exact Hu'|]. now apply Hun. }
    assert (Hreg' : forall u, u < n -> has_dims zd vd m (fun v b => drawn s 1 (tape_of u g) v = Some b)).
    { intros u Hu'. destruct (in_unit w0 seeds n k u g p Hu' Hin) as (q & Hq). exact (proj1 (Hreg _ q Hq)). }
    split; [split; [|split]|].
    - intros a Ha. apply (Hsh "Z0"%string a); [constructor|exact Ha|]. intros u c Hu' Hc. destruct (Hreg' u Hu') as (H0 & _). now apply H0.
    - intros i a Hi Ha. apply (Hsh (Zn i) a); [now constructor|exact Ha|]. intros u c Hu' Hc. destruct (Hreg' u Hu') as (_ & HZ & _). now apply (HZ i).
    - intros i a Hi Ha. apply (Hsh (Vn i) a); [now constructor|exact Ha|]. intros u c Hu' Hc. destruct (Hreg' u Hu') as (_ & _ & HV). now apply (HV i).
    - intros v b Hv Hb. destruct (unit_drawn n g p v Hn Hin Hv) as (b' & Eb' & Hl & _). congruence.
  Qed.

  Context (j : nat).
  Hypothesis Hfit : dims_fit zd vd m.

  Lemma unit_seen n g p : 1 <= n -> In (g, p) (TU n k) -> exists c, seen s n (arm_mask zd vd m j) g = Some c /\
    atail c = [arm_dim zd vd m j] /\ List.length (arows c) = n /\
    forall u, u < n -> seen s 1 (arm_mask zd vd m j) (tape_of u g) = Some (unit_row u c).
  Proof.
    intros Hn Hin.
    destruct (arm_data (tapes seeds n) n m k Hk cpds s (KU n) Hs (unit_draws n) zd vd (unit_regular n Hn) j Hfit g p Hin)
      as (d & r & c & x & _ & _ & Ec & _ & _ & _ & _ & _ & Tc & Lc & Rc).
    exists c. repeat split; trivial. intros u Hu'. destruct (in_unit w0 seeds n k u g p Hu' Hin) as (q & Hq).
    destruct (arm_data (tapes seeds 1) 1 m k Hk cpds s (KU 1) Hs (unit_draws 1) zd vd Hreg j Hfit (tape_of u g) q Hq)
      as (d1 & r1 & c1 & x1 & _ & _ & Ec1 & _ & _ & _ & _ & _ & Tc1 & Lc1 & Rc1).
    rewrite Ec1. f_equal. destruct (Rc u Hu') as (R & F). destruct (Rc1 0 ltac:(lia)) as (R1 & F1).
    assert (E : row x u = row x1 0).
    { refine (Forall2_fun (fun vc y => cell_at 1 s (tape_of u g) (fst vc) 0 (snd vc) = Some y) (labels zd vd m) _ _ _ _ F1); [congruence|].
      revert F. apply Forall2_impl_in. intros (v, cc) y Hlab Hy. cbn [fst snd] in *. unfold cell_at in *.
      assert (Hv : paper_var m v).
      { unfold labels in Hlab. apply in_app_or in Hlab as [H|H].
        - apply in_map_iff in H as (? & [= <- _] & _). constructor.
        - apply in_flat_map in H as (i & Hi & H). apply in_seq in Hi. apply in_app_or in H as [H|H];
            apply in_map_iff in H as (? & [= <- _] & _); constructor; lia. }
      destruct (unit_drawn n g p v Hn Hin Hv) as (b & Eb & _ & Hun). rewrite (Hun u Hu'). rewrite Eb in Hy. exact Hy. }
    apply arr_ext; [rewrite Tc1; exact (eq_sym Tc)|rewrite Lc1; reflexivity|]. rewrite Lc1. intros [|i] Hi; [|lia].
    rewrite R1, <- E, <- R. reflexivity.
  Qed.

  (** *** scores *)
  Context {M P : Type} (pr : predictor X M) (pp : predictor X P) (cf : aipw_conf X) (lo : R) (st : aipw X M P) (mu e : list R -> R).
  Hypothesis Hlo : ac_overlap cf = Fin lo.
  Hypothesis Hl1 : (1 / 10 ^ 15 <= lo)%R.
  Hypothesis Hl2 : (lo <= 1 / 2)%R.
  Hypothesis Hdim : ac_dim cf = arm_dim zd vd m j.
  Hypothesis Hf : ap_fit st = true.
  Hypothesis Hmu : evaluates pr (ap_resp st) (S (ac_dim cf)) mu.
  Hypothesis He : evaluates pp (ap_prop st) (ac_dim cf) e.
  Context (x : list (list W) -> bool) (z : list (list W) -> list R) (y : list (list W) -> R).
  Hypothesis Hone : one_unit (TU 1 k) s (arm_mask zd vd m j) x z y.

  Definition unit_score (g : list (list W)) : R := score_of lo mu e (x g) (z g) (y g).

  Lemma vec_units (f : nat -> X) n (a : arr X) : 1 <= n -> List.length (arows a) = n ->
    (forall u, u < n -> unit_row u a = vec [f u]) -> a = vec (map f (seq 0 n)).
  Proof.
    intros Hn Hl H. apply arr_ext.
    - exact (f_equal atail (H 0 ltac:(lia))).
    - unfold vec. cbn [arows]. now rewrite !map_length, seq_length.
    - intros u Hu'. rewrite Hl in Hu'. pose proof (f_equal arows (H u Hu')) as E. cbn [unit_row arows vec map] in E. injection E as E.
      unfold row. rewrite E. unfold vec. cbn [arows]. rewrite map_map.
      rewrite (nth_indep _ [] [f 0]) by now rewrite map_length, seq_length.
      rewrite (map_nth (fun u => [f u])), seq_nth by exact Hu'. reflexivity.
  Qed.

  Lemma batch_scores n g p : 1 <= n -> In (g, p) (TU n k) ->
    arm_scores pr pp cf st s n (arm_mask zd vd m j) g = Ok (map Fin (map (fun u => unit_score (tape_of u g)) (seq 0 n))).
  Proof.
    intros Hn Hin. set (us := map (fun u => tape_of u g) (seq 0 n)).
    assert (HO : forall u, u < n -> drawn s 1 (tape_of u g) "X" = Some (vec [bit xreal (x (tape_of u g))]) /\
      drawn s 1 (tape_of u g) "Y" = Some (vec [Fin (y (tape_of u g))]) /\
      seen s 1 (arm_mask zd vd m j) (tape_of u g) = Some (mkArr [List.length (z (tape_of u g))] [map Fin (z (tape_of u g))])).
    { intros u Hu'. destruct (in_unit w0 seeds n k u g p Hu' Hin) as (q & Hq). exact (Hone _ q Hq). }
    destruct (unit_seen n g p Hn Hin) as (c & Ec & Tc & Lc & Rc).
    rewrite (units_scores (tapes seeds n) n m k Hk cpds s (KU n) Hs (unit_draws n) zd vd (unit_regular n Hn) j Hfit
      pr pp cf lo st mu e Hlo Hl1 Hl2 Hdim Hf Hmu He us x z y g p Hin).
    - unfold us. rewrite !map_map. reflexivity.
    - unfold us. now rewrite map_length, seq_length.
    - intros t Ht. apply in_map_iff in Ht as (u & <- & Hu'). apply in_seq in Hu'.
      destruct (HO u ltac:(lia)) as (_ & _ & Es). rewrite (Rc u ltac:(lia)) in Es. injection Es as E _. rewrite Tc in E. now injection E.
    - destruct (unit_drawn n g p "X" Hn Hin ltac:(constructor)) as (b & -> & Hl & Hun). f_equal.
      unfold us, bits. rewrite !map_map. apply vec_units; trivial. intros u Hu'.
      destruct (HO u Hu') as (E & _). rewrite (Hun u Hu') in E. congruence.
    - destruct (unit_drawn n g p "Y" Hn Hin ltac:(constructor)) as (b & -> & Hl & Hun). f_equal.
      unfold us. rewrite !map_map. apply (vec_units (fun u => Fin (y (tape_of u g)))); trivial. intros u Hu'.
      destruct (HO u Hu') as (_ & E & _). rewrite (Hun u Hu') in E. congruence.
    - rewrite Ec. f_equal. apply arr_ext; [exact Tc|unfold us; cbn [arows]; now rewrite !map_length, seq_length|].
      intros u Hu'. rewrite Lc in Hu'. destruct (HO u Hu') as (_ & _ & Es). rewrite (Rc u Hu') in Es. injection Es as _ E.
      unfold row. rewrite E. unfold us. cbn [arows]. rewrite map_map.
      rewrite (nth_indep _ [] (map Fin (z (tape_of 0 g)))) by now rewrite map_length, seq_length.
      rewrite (map_nth (fun u => map Fin (z (tape_of u g)))), seq_nth by exact Hu'. reflexivity.
  Qed.
End Batch.

Lemma batch_mean {W} (w0 : W) (seeds : law W) k (F : list (list W) -> R) n : is_law seeds -> 1 <= n ->
  mean (unit_tapes seeds n k) (fun g => average (map (fun u => F (of_unit w0 u g)) (seq 0 n))) = mean (unit_tapes seeds 1 k) F.
Proof.
  intros Hl Hn. unfold average, Rdiv.
  rewrite (mean_ext _ _ (fun g => (rsum (map (fun u => F (of_unit w0 u g)) (seq 0 n)) * / INR n)%R)) by (intro; now rewrite map_length, seq_length).
  rewrite mean_scal_r, (mean_rsum (unit_tapes seeds n k) (fun u g => F (of_unit w0 u g))).
  rewrite (map_ext_in _ (fun _ => mean (unit_tapes seeds 1 k) F)).
  - rewrite rsum_const, seq_length. field. apply not_0_INR. lia.
  - intros u Hu. apply in_seq in Hu. apply (mean_unit w0 seeds n k u F Hl). lia.
Qed.
