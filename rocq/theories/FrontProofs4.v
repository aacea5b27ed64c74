(** The front-door scores of a batch of independent units. *)
From Coq Require Import List Arith ZArith Bool String Reals Permutation Lra Lia.
From Verif Require Import PyBase Num NumOps DataModel ScmModel ScmProofs ScmProps TabModel TabSpec TabReal BanditModel ArmModel ParamModel ParamProofs ParamProofs2 ParamProofs3 ParamProps
  PaperModel PaperSpec PaperProofs PaperProofs2 PaperProofs3 PaperProps ScmSpec LawSpec LawProofs LawProofs2 LawProofs3 LawProofs4 LawProofs5 LawProps
  ParamSpec ScoreSpec ScoreProofs ScoreProofs2 ScoreProofs3 ScoreProofs4 ScoreProofs6 FrontSpec FrontProofs FrontProofs2.
Import ListNotations.
Open Scope nat_scope.
Open Scope list_scope.

Lemma units_vec (f : nat -> X) n (a : arr X) : 1 <= n -> List.length (arows a) = n ->
  (forall u, u < n -> unit_row u a = vec [f u]) -> a = vec (map f (seq 0 n)).
Proof.
  intros Hn Hl H. apply arr_ext.
  - exact (f_equal atail (H 0 ltac:(lia))).
  - unfold vec. cbn [arows]. now rewrite !map_length, seq_length.
  - intros u Hu'. rewrite Hl in Hu'. pose proof (f_equal arows (H u Hu')) as E. cbn [unit_row arows vec map] in E. injection E as E.
    unfold row. rewrite E. unfold vec. cbn [arows]. rewrite map_map.
    rewrite (nth_indep _ [] [f 0]) by now rewrite map_length, seq_length.
    rewrite (map_nth (fun u => [f u])), seq_nth by exact Hu'. reflexivity.
Qed.

Section Batch.
  Context {W : Type} (w0 : W) (seeds : law W) (m k : nat).
  Hypothesis Hk : 2 * m + 3 <= k.
  Context (cpds : sdict (cpd X (list (list W)))) (s : scm X (list (list W))).
  Hypothesis Hs : paper_scm m cpds = Ok s.
  Hypothesis Hu : forall v f, paper_var m v -> entry cpds v f -> unitwise w0 f.
  Context (zd vd : list nat).
  Notation TU := (unit_tapes seeds).
  Notation tape_of := (of_unit w0).
  Hypothesis Hreg : regular (TU 1 k) s 1 m zd vd.
  Context (x : list (list W) -> bool) (z : list (list W) -> list R) (y : list (list W) -> R).
  Hypothesis Hmed : mediated (TU 1 k) s x z y.

  Definition batch_units (n : nat) (g : list (list W)) : list atom :=
    map (fun u => mkAtom 1 (z (tape_of u g)) (x (tape_of u g)) (y (tape_of u g))) (seq 0 n).

  Lemma front_batch n g p : 1 <= n -> In (g, p) (TU n k) -> exists d r,
    fst (generate s n g) = Ok d /\ select_fn (MList (seq 0 (nth 0 zd 0))) d = Ok r /\ of_population (batch_units n g) (nth 0 zd 0) r.
  Proof.
    intros Hn Hin. pose proof (unit_regular w0 seeds m k Hk cpds s Hs Hu zd vd Hreg n Hn) as Hregn.
    destruct (run_ok (tapes seeds n) n m k Hk cpds s (KU seeds cpds n) Hs (unit_draws w0 seeds m cpds Hu n) zd vd Hregn g p Hin) as (d & g' & log & Hg & Hnm).
    pose proof (latest_drawn n s g d g' log Hg) as Hl. destruct (Hregn g p Hin) as (Hdm & _).
    assert (Hd0 : has_dims zd vd m (latest log)).
    { destruct Hdm as (H0 & HZ & HV). split; [|split].
      - intros b H. apply H0. now apply Hl.
      - intros i b Hi H. apply (HZ i b Hi). now apply Hl.
      - intros i b Hi H. apply (HV i b Hi). now apply Hl. }
    destruct (z0_read m cpds s n g d g' log zd vd Hs Hg Hd0) as (r & c & a & Er & Ec & Ha & -> & Ee & Ey).
    apply Hl in Ha.
    assert (HO : forall u, u < n -> drawn s 1 (tape_of u g) "X" = Some (vec [bit xreal (x (tape_of u g))]) /\
      drawn s 1 (tape_of u g) "Y" = Some (vec [Fin (y (tape_of u g))]) /\
      drawn s 1 (tape_of u g) "Z0" = Some (mkArr [List.length (z (tape_of u g))] [map Fin (z (tape_of u g))])).
    { intros u Hu'. destruct (in_unit w0 seeds n k u g p Hu' Hin) as (q & Hq). exact (Hmed _ q Hq). }
    assert (HX : drawn s n g "X" = Some (vec (bits xreal (map a_x (batch_units n g))))).
    { destruct (unit_drawn w0 seeds m k Hk cpds s Hs Hu n g p "X" Hn Hin ltac:(constructor)) as (b & -> & Hlen & Hun). f_equal.
      unfold batch_units, bits. rewrite !map_map. apply units_vec; trivial. intros u Hu'.
      destruct (HO u Hu') as (E & _). rewrite (Hun u Hu') in E. cbn [a_x]. congruence. }
    assert (HY : drawn s n g "Y" = Some (vec (map (fun a => Fin (a_y a)) (batch_units n g)))).
    { destruct (unit_drawn w0 seeds m k Hk cpds s Hs Hu n g p "Y" Hn Hin ltac:(constructor)) as (b & -> & Hlen & Hun). f_equal.
      unfold batch_units. rewrite !map_map. apply (units_vec (fun u => Fin (y (tape_of u g)))); trivial. intros u Hu'.
      destruct (HO u Hu') as (_ & E & _). rewrite (Hun u Hu') in E. congruence. }
    assert (HZ0 : drawn s n g "Z0" = Some (mkArr [nth 0 zd 0] (map (fun a => map Fin (a_z a)) (batch_units n g))) /\
      forall u, u < n -> List.length (z (tape_of u g)) = nth 0 zd 0).
    { destruct (unit_drawn w0 seeds m k Hk cpds s Hs Hu n g p "Z0" Hn Hin ltac:(constructor)) as (b & Eb & Hlen & Hun).
      destruct Hdm as (H0 & _). destruct (H0 _ Eb) as (Ht & _).
      assert (Hz : forall u, u < n -> List.length (z (tape_of u g)) = nth 0 zd 0).
      { intros u Hu'. destruct (HO u Hu') as (_ & _ & E). rewrite (Hun u Hu') in E. injection E as E _. rewrite Ht in E. now injection E. }
      split; [|exact Hz]. rewrite Eb. f_equal. apply arr_ext; [exact Ht|unfold batch_units; cbn [arows]; now rewrite !map_length, seq_length|].
      intros u Hu'. rewrite Hlen in Hu'. destruct (HO u Hu') as (_ & _ & E). rewrite (Hun u Hu') in E. injection E as _ E.
      unfold row. rewrite E. unfold batch_units. cbn [arows]. rewrite map_map. cbn [a_z].
      rewrite (nth_indep _ [] (map Fin (z (tape_of 0 g)))) by now rewrite map_length, seq_length.
      rewrite (map_nth (fun u => map Fin (z (tape_of u g)))), seq_nth by exact Hu'. reflexivity. }
    destruct HZ0 as (HZ & Hlz). rewrite HZ in Ha. injection Ha as <-.
    assert (Eg : fst (generate s n g) = Ok d).
    { destruct (C21_calls s n g) as (log' & E & _). rewrite Hg in E. now injection E as <- _ _. }
    destruct (generate s n g) as (rr, g2) eqn:Hg2. cbn [fst] in Eg. subst rr.
    destruct (C21_result s n g d g2 Hg2) as (log2 & Hlog & _ & _ & cols & x' & t & yy & _ & _ & Ht2 & Hy2 & _ & Et & Ey' & _).
    destruct (paper_scm_ok m cpds (proj1 (paper_scm_inv _ _ _ Hs))) as (s1 & E1 & _ & _ & _ & Htrt & Hrsp & _).
    rewrite Hs in E1. injection E1 as <-. rewrite Htrt in Ht2. rewrite Hrsp in Hy2.
    apply (latest_drawn n s g d g2 log2 Hlog) in Ht2. apply (latest_drawn n s g d g2 log2 Hlog) in Hy2.
    rewrite HX in Ht2. injection Ht2 as <-. rewrite HY in Hy2. injection Hy2 as <-.
    exists d, r. split; [reflexivity|]. split; [exact Er|].
    unfold of_population, dataset. rewrite Ec, Ee, Ey, Et, Ey'.
    assert (Hr : n_units r = List.length (batch_units n g) /\ n_features r = nth 0 zd 0).
    { destruct (labelled (tapes seeds n) n m k Hk cpds s (KU seeds cpds n) Hs (unit_draws w0 seeds m cpds Hu n) zd vd Hregn g p Hin) as (d' & g3 & xx & Hg3 & Hx & Hat & _).
      rewrite Hg2 in Hg3. injection Hg3 as <- _.
      rewrite (select_fn_list (MList (z_block zd 0)) d xx _ Hx Hat) in Er.
      - injection Er as <-. cbn [ed_init dcov] in Ec. injection Ec as E2 E3.
        cbn [ed_init n_units n_features]. rewrite E3. split; [unfold alen; cbn [arows]; now rewrite map_length|].
        unfold afeatures, z_block. cbn [atail]. now rewrite seq_length.
      - discriminate.
      - apply Forall_forall. intros q Hq. unfold z_block, dims_layout in *. cbn [mask_list firstn list_sum fold_right] in *. apply in_seq in Hq. cbn in *. lia. }
    destruct Hr as (-> & ->). unfold bits. rewrite !map_length. repeat (split; [reflexivity|]).
    apply Forall_forall. intros q Hq. apply in_map_iff in Hq as (a & <- & Ha). rewrite map_length. unfold batch_units in Ha.
    apply in_map_iff in Ha as (u & <- & Hu'). apply in_seq in Hu'. cbn [a_z]. apply Hlz. lia.
  Qed.

  Notation pop := (units_of (TU 1 k) x z y).
  Hypothesis Hpop : population pop.
  Context {M : Type} (pr : predictor X M) (cd : coding X) (cf : fd_conf X) (st : fdoor X M).
  Hypothesis Hlo : fc_overlap cf = Fin (1/4).
  Hypothesis Hdim : fc_dim cf = nth 0 zd 0.
  Hypothesis Hright : right_front pr cd (nth 0 zd 0) st pop.
  Hypothesis Hclip : forall b zz, In zz (z_values pop) -> (1/4 <= p_z_given pop b zz <= 3/4)%R.
  Hypothesis Hbit : forall b, kx cd (bit xreal b) = ki cd b.

  Lemma batch_one n g p : nth 0 zd 0 = 1 -> 1 <= n -> In (g, p) (TU n k) ->
    front_scores pr cd cf st s n (MList (seq 0 (nth 0 zd 0))) g =
    Ok (map Fin (map (fun u => true_score (TU 1 k) x z y (true_f1 (TU 1 k) x z y) (tape_of u g)) (seq 0 n))).
  Proof.
    intros H1 Hn Hin. pose proof Hright as (Hf & (mu & Hmu & Hey) & Hpx & Hfin & Htab & (zs & Hzs & Hperm)).
    pose proof (p_x_pos pop Hpop true) as P1. pose proof (p_x_pos pop Hpop false) as P0.
    assert (P01 : (p_x pop true + p_x pop false = 1)%R) by (rewrite <- total_x; apply Hpop).
    destruct (front_batch n g p Hn Hin) as (d & r & Eg & Er & Hof).
    unfold front_scores. rewrite Eg. cbn [bind]. rewrite Er. cbn [bind].
    set (tb := fun x z => real_of (entry_of (fd_tab st) x z)).
    assert (Ht : forall x z, entry_of (fd_tab st) x z = Fin (tb x z)). { intros a b. unfold tb. destruct (Hfin a b) as [v ->]. reflexivity. }
    assert (Htb : forall b zz, In zz (z_values pop) -> tb (ki cd b) (kz cd (map Fin zz)) = p_z_given pop b zz). { intros b zz Hz. unfold tb. now rewrite Htab. }
    assert (Hin2 : forall zz, In zz zs -> In zz (z_values pop)) by (intros zz Hz; eapply Permutation_in; eassumption).
    rewrite (C44_one_column pr cd cf (1/4) (p_x pop true) st r _ mu tb zs Hlo ltac:(lra) (eq_trans Hdim H1) ltac:(rewrite H1 in Hof; exact Hof) Hf Hpx ltac:(lra)
      ltac:(rewrite H1 in Hmu; exact Hmu) Ht Hzs).
    - f_equal. unfold batch_units. rewrite !map_map. apply map_ext_in. intros u Hu'. apply in_seq in Hu'. cbn [a_y a_x a_z]. cbv zeta. f_equal.
      destruct (in_unit w0 seeds n k u g p ltac:(lia) Hin) as (q & Hq).
      rewrite (parts (tapes seeds 1) k x z y Hpop cd Hclip Hbit mu _ tb zs _ _ q Hq eq_refl (fun zz b => Hey zz b) Htb Hperm).
      unfold true_score. f_equal. unfold f1_spec, true_f1.
      rewrite <- (rsum_perm _ _ (Permutation_map (fun zz => (e_y pop (x (tape_of u g)) zz * (p_z_given pop true zz - p_z_given pop false zz))%R) Hperm)).
      apply rsum_ext. intros zz Hz. rewrite !Htb, Hey by auto. reflexivity.
    - apply Forall_forall. intros zz Hz. rewrite <- H1.
      exact (z_lengths (tapes seeds 1) m k Hk cpds s (KU seeds cpds 1) Hs (unit_draws w0 seeds m cpds Hu 1) zd vd Hreg x z y Hmed zz (Hin2 zz Hz)).
  Qed.

  Lemma batch_more ridge ratio w n g p : 2 <= nth 0 zd 0 -> fc_ratio cf = Fin ratio -> (0 < w)%nat -> (forall r, List.length (kz cd r) = w * List.length r)%nat ->
    fd_reached xreal pr cd ridge cf st -> 1 <= n -> In (g, p) (TU n k) ->
    front_scores pr cd cf st s n (MList (seq 0 (nth 0 zd 0))) g =
    Ok (map Fin (map (fun u => true_score (TU 1 k) x z y (fun _ => 0%R) (tape_of u g)) (seq 0 n))).
  Proof.
    intros H1 Hratio Hw Hkz Hreach Hn Hin. pose proof Hright as (Hf & (mu & Hmu & Hey) & Hpx & Hfin & Htab & (zs & Hzs & Hperm)).
    pose proof (p_x_pos pop Hpop true) as P1. pose proof (p_x_pos pop Hpop false) as P0.
    assert (P01 : (p_x pop true + p_x pop false = 1)%R) by (rewrite <- total_x; apply Hpop).
    destruct (front_batch n g p Hn Hin) as (d & r & Eg & Er & Hof).
    unfold front_scores. rewrite Eg. cbn [bind]. rewrite Er. cbn [bind].
    set (tb := fun x z => real_of (entry_of (fd_tab st) x z)).
    assert (Htb : forall b zz, In zz (z_values pop) -> tb (ki cd b) (kz cd (map Fin zz)) = p_z_given pop b zz). { intros b zz Hz. unfold tb. now rewrite Htab. }
    assert (Hin2 : forall zz, In zz zs -> In zz (z_values pop)) by (intros zz Hz; eapply Permutation_in; eassumption).
    rewrite <- Hdim in Hof, H1, Hmu.
    rewrite (C44_two_or_more_columns pr cd ridge cf (1/4) (p_x pop true) ratio w st r _ mu zs Hlo ltac:(lra) Hratio H1 Hw Hkz Hreach Hof Hf Hpx ltac:(lra) Hmu Hzs).
    - f_equal. unfold batch_units. rewrite !map_map. apply map_ext_in. intros u Hu'. apply in_seq in Hu'. cbn [a_y a_x a_z]. cbv zeta. f_equal.
      destruct (in_unit w0 seeds n k u g p ltac:(lia) Hin) as (q & Hq).
      exact (parts (tapes seeds 1) k x z y Hpop cd Hclip Hbit mu _ tb zs 0 _ q Hq eq_refl (fun zz b => Hey zz b) Htb Hperm).
    - apply Forall_forall. intros zz Hz. rewrite Hdim.
      exact (z_lengths (tapes seeds 1) m k Hk cpds s (KU seeds cpds 1) Hs (unit_draws w0 seeds m cpds Hu 1) zd vd Hreg x z y Hmed zz (Hin2 zz Hz)).
  Qed.
End Batch.

(** ** averages of independent units with any mean *)
Section Limit.
  Context {W : Type} (w0 : W) (seeds : law W) (k : nat) (F : list (list W) -> R) (c : R).
  Hypothesis Hl : is_law seeds.
  Notation avg n g := (average (map (fun u => F (of_unit w0 u g)) (seq 0 n))).
  Notation TU := (unit_tapes seeds).
  Notation V := (mean (TU 1 k) (fun g => ((F g - c) ^ 2)%R)).
  Hypothesis Hc : mean (TU 1 k) F = c.

  Lemma limit_error n e : 1 <= n -> mean (TU n k) (fun g => ((avg n g - e) ^ 2)%R) = (V / INR n + (c - e) ^ 2)%R.
  Proof.
    intro Hn. pose proof (average_error w0 seeds Hl k F n Hn) as H1. rewrite Hc in H1. rewrite <- H1.
    pose proof (batch_mean w0 seeds k F n Hl Hn) as H2. rewrite Hc in H2.
    rewrite (mean_ext _ _ (fun g => ((avg n g - c) ^ 2 + (avg n g * (2 * (c - e)) + ((c - e) ^ 2 - 2 * (c - e) * c)))%R)) by (intro g; ring).
    rewrite !mean_plus, mean_scal_r, H2, mean_const; [ring|]. exact (proj2 (tapes_law _ k (tapes_law seeds n Hl))).
  Qed.
  Lemma limit_far eps delta : (0 < eps)%R -> (0 < delta)%R -> exists N, forall n, N <= n ->
    (prob (TU n k) (fun g => if Rle_dec eps (Rabs (avg n g - c)) then true else false) <= delta)%R.
  Proof.
    intros He' Hdl. assert (H2 : (0 < eps ^ 2)%R) by now apply pow_lt.
    destruct (nat_above (V / (eps ^ 2 * delta))) as (N & HN).
    exists (S N). intros n Hn. assert (Hn1 : 1 <= n) by (clear - Hn; lia).
    pose proof (chebyshev (TU n k) (fun g => (avg n g - c)%R) eps (proj1 (tapes_law _ k (tapes_law seeds n Hl))) He') as H.
    cbv beta in H. rewrite (limit_error n c Hn1) in H. eapply Rle_trans; [exact H|]. clear H.
    assert (Hin : (INR N <= INR n)%R) by (apply le_INR; clear - Hn; lia).
    assert (Hp : (0 < INR n)%R) by (apply lt_0_INR; clear - Hn1; lia).
    assert (Hpd : (0 < eps ^ 2 * delta)%R) by now apply Rmult_lt_0_compat.
    apply (Rmult_le_reg_r (INR n * eps ^ 2)); [now apply Rmult_lt_0_compat|].
    replace ((V / INR n + (c - c) ^ 2) / eps ^ 2 * (INR n * eps ^ 2))%R with V by (field; lra).
    replace (delta * (INR n * eps ^ 2))%R with (INR n * (eps ^ 2 * delta))%R by ring.
    apply Rle_trans with (V / (eps ^ 2 * delta) * (eps ^ 2 * delta))%R.
    - right. field. split; lra.
    - apply Rmult_le_compat_r; lra.
  Qed.
  Lemma limit_wrong e delta : c <> e -> (0 < delta)%R -> exists N, forall n, N <= n ->
    (prob (TU n k) (fun g => if Rlt_dec (Rabs (avg n g - e)) (Rabs (c - e) / 2) then true else false) <= delta)%R.
  Proof.
    intros Hne Hdl. assert (Hpos : (0 < Rabs (c - e))%R) by (apply Rabs_pos_lt; lra).
    destruct (limit_far (Rabs (c - e) / 2) delta ltac:(lra) Hdl) as (N & HN). exists N. intros n Hn.
    eapply Rle_trans; [|exact (HN n Hn)]. apply mean_le; [exact (proj1 (tapes_law _ k (tapes_law seeds n Hl)))|].
    intro g. destruct (Rlt_dec _ _) as [H|H]; [|destruct (Rle_dec _ _); lra].
    destruct (Rle_dec _ _) as [H'|H']; [lra|]. exfalso. apply H'.
    pose proof (Rabs_triang (avg n g - e) (c - avg n g)) as Ht. replace (avg n g - e + (c - avg n g))%R with (c - e)%R in Ht by ring.
    rewrite (Rabs_minus_sym (avg n g) c). lra.
  Qed.
End Limit.
