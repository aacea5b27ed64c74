(** Proofs about the graph and the selection masks of paper_utils.py. *)
From Coq Require Import List Arith ZArith Lia Bool String DecimalString DecimalNat.
From Verif Require Import PyBase Num NumOps DataModel ScmModel ScmSpec ScmProofs BanditModel ArmModel
  ParamModel PaperModel PaperSpec.
Import ListNotations.
Open Scope nat_scope.
Open Scope string_scope.

(** ** names *)
Lemma decimal_inj i j : decimal i = decimal j -> i = j.
Proof.
  unfold decimal. intro H. apply Unsigned.to_uint_inj.
  pose proof (NilEmpty.usu (Nat.to_uint i)) as A. pose proof (NilEmpty.usu (Nat.to_uint j)) as B.
  rewrite H in A. congruence.
Qed.
Lemma Vn_inj i j : Vn i = Vn j -> i = j.
Proof. intro H. injection H as H. apply decimal_inj, H. Qed.
Lemma Zn_inj i j : Zn i = Zn j -> i = j.
Proof. intro H. injection H as H. apply decimal_inj, H. Qed.
Lemma Z0_Zn : Zn 0 = "Z0".
Proof. reflexivity. Qed.
Lemma Zn_neq_Z0 i : 1 <= i -> Zn i <> "Z0".
Proof. intros H E. rewrite <- Z0_Zn in E. apply Zn_inj in E. lia. Qed.
Lemma VZ_neq i j : Vn i <> Zn j.
Proof. discriminate. Qed.

(** ** the graph *)
Lemma sget_same {A} (d : sdict A) k v : sget (sset d k v) k = Some v.
Proof. rewrite sget_sset. now rewrite String.eqb_refl. Qed.
Lemma sget_other {A} (d : sdict A) k v k' : k' <> k -> sget (sset d k v) k' = sget d k'.
Proof. intro H. rewrite sget_sset. destruct (String.eqb_spec k' k); [contradiction|reflexivity]. Qed.

Record graph_inv (a : nat) (gr : graph) : Prop := {
  gi_vars : g_vars gr = flat_map (fun i => [Vn i; Zn i]) (seq 1 a);
  gi_cov : g_cov gr = layout a;
  gi_Z0 : sget (g_parents gr) "Z0" = Some ["X"];
  gi_X : sget (g_parents gr) "X" = Some (map Vn (seq 1 a));
  gi_Y : sget (g_parents gr) "Y" = Some ("Z0" :: map Zn (seq 1 a));
  gi_V : forall i, 1 <= i <= a -> sget (g_parents gr) (Vn i) = Some [];
  gi_Z : forall i, 1 <= i <= a -> sget (g_parents gr) (Zn i) = Some [Vn i] }.

Lemma graph_inv_start : graph_inv 0 graph_start.
Proof. split; try reflexivity; intros; lia. Qed.

Lemma graph_step_inv a gr : graph_inv a gr ->
  exists gr', graph_step gr (S a) = Ok gr' /\ graph_inv (S a) gr'.
Proof.
  intros [Hv Hc H0 HX HY HV HZ]. unfold graph_step, dict_append, sfind.
  change ("V" ++ str (S a)) with (Vn (S a)). change ("Z" ++ str (S a)) with (Zn (S a)).
  assert (HnZ0 : Zn (S a) <> "Z0") by (apply Zn_neq_Z0; lia).
  assert (E1 : sget (sset (sset (g_parents gr) (Vn (S a)) []) (Zn (S a)) [Vn (S a)]) "Y"
               = Some ("Z0" :: map Zn (seq 1 a)))
    by (rewrite !sget_other by discriminate; exact HY).
  rewrite E1. cbn [bind].
  match goal with |- context [sget ?d "X"] => assert (E2 : sget d "X" = Some (map Vn (seq 1 a)))
    by (rewrite !sget_other by discriminate; exact HX) end.
  rewrite E2. cbn [bind]. eexists. split; [reflexivity|].
  split; cbn [g_vars g_cov g_parents].
  - rewrite Hv, seq_S, flat_map_app. reflexivity.
  - rewrite Hc. unfold layout. rewrite seq_S, flat_map_app. reflexivity.
  - rewrite !sget_other; try discriminate; try assumption. intro E. apply HnZ0. now symmetry.
  - rewrite sget_same. f_equal. rewrite seq_S, map_app. reflexivity.
  - rewrite sget_other by discriminate. rewrite sget_same. f_equal. rewrite seq_S, map_app. reflexivity.
  - intros i Hi. destruct (Nat.eq_dec i (S a)) as [->|Hn].
    + rewrite 3 sget_other by discriminate. apply sget_same.
    + rewrite 3 sget_other by discriminate.
      rewrite sget_other by (intro E; apply Vn_inj in E; contradiction). apply HV. lia.
  - intros i Hi. rewrite 2 sget_other by discriminate.
    destruct (Nat.eq_dec i (S a)) as [->|Hn]; [apply sget_same|].
    rewrite sget_other by (intro E; apply Zn_inj in E; contradiction).
    rewrite sget_other by discriminate. apply HZ. lia.
Qed.

Lemma graph_loop_inv k : forall a gr, graph_inv a gr ->
  exists gr', graph_loop (seq (S a) k) gr = Ok gr' /\ graph_inv (a + k) gr'.
Proof.
  induction k as [|k IH]; intros a gr H; cbn [seq graph_loop].
  - exists gr. split; [reflexivity|]. now rewrite Nat.add_0_r.
  - destruct (graph_step_inv a gr H) as (gr' & -> & H'). cbn [bind].
    destruct (IH (S a) gr' H') as (gr2 & -> & H2). exists gr2. split; [reflexivity|].
    now replace (a + S k) with (S a + k) by lia.
Qed.

Lemma paper_graph_spec m : exists gr, paper_graph m = Ok gr /\
  g_vars gr = (flat_map (fun i => [Vn i; Zn i]) (seq 1 m) ++ ["X"; "Z0"; "Y"])%list /\
  g_cov gr = layout m /\
  sget (g_parents gr) "Z0" = Some ["X"] /\
  sget (g_parents gr) "X" = Some (map Vn (seq 1 m)) /\
  sget (g_parents gr) "Y" = Some ("Z0" :: map Zn (seq 1 m)) /\
  (forall i, 1 <= i <= m -> sget (g_parents gr) (Vn i) = Some []) /\
  (forall i, 1 <= i <= m -> sget (g_parents gr) (Zn i) = Some [Vn i]).
Proof.
  unfold paper_graph. destruct (graph_loop_inv m 0 _ graph_inv_start) as (gr & E & []).
  rewrite E. cbn [bind]. eexists. split; [reflexivity|]. cbn [g_vars g_cov g_parents].
  rewrite gi_vars0. repeat split; assumption.
Qed.

Definition paper_vars (m : nat) : list string :=
  (flat_map (fun i => [Vn i; Zn i]) (seq 1 m) ++ ["X"; "Z0"; "Y"])%list.

Lemma paper_vars_in m v : In v (paper_vars m) <-> paper_var m v.
Proof.
  unfold paper_vars. rewrite in_app_iff, in_flat_map. split.
  - intros [(i & Hi & [<-|[<-|[]]])|[<-|[<-|[<-|[]]]]]; try (apply in_seq in Hi); constructor; lia.
  - intros []; try (right; cbn; tauto).
    + left. exists i. split; [apply in_seq; lia|now left].
    + left. exists i. split; [apply in_seq; lia|right; now left].
Qed.

Lemma paper_scm_ok {V G} m (cpds : sdict (cpd V G)) :
  (forall v, paper_var m v -> exists f, entry cpds v f) ->
  exists s, paper_scm m cpds = Ok s /\ constructed s /\ s_vars s = paper_vars m /\
    s_cov s = layout m /\ s_trt s = "X" /\ s_rsp s = "Y" /\ s_cpds s = cpds /\
    sget (s_parents s) "Z0" = Some ["X"] /\
    sget (s_parents s) "X" = Some (map Vn (seq 1 m)) /\
    sget (s_parents s) "Y" = Some ("Z0" :: map Zn (seq 1 m)) /\
    (forall i, 1 <= i <= m -> sget (s_parents s) (Vn i) = Some []) /\
    (forall i, 1 <= i <= m -> sget (s_parents s) (Zn i) = Some [Vn i]).
Proof.
  intro Hc. unfold paper_scm.
  destruct (paper_graph_spec m) as (gr & -> & Ev & Ecov & H0 & HX & HY & HV & HZ). cbn [bind].
  assert (Hok : scm_init "Section 5 SCM" (g_vars gr) (g_parents gr) cpds (g_cov gr) "X" "Y"
    = Ok (mkScm "Section 5 SCM" (g_vars gr) (g_parents gr) cpds (g_cov gr) "X" "Y")).
  { unfold scm_init.
    replace (forallb (shas (g_parents gr)) (g_vars gr)) with true.
    2: { symmetry. apply forallb_forall. intros v Hv. apply shas_sget.
         rewrite Ev in Hv. apply paper_vars_in in Hv. destruct Hv; rewrite ?H0, ?HX, ?HY, ?HV, ?HZ; trivial; discriminate. }
    replace (forallb (shas cpds) (g_vars gr)) with true.
    2: { symmetry. apply forallb_forall. intros v Hv. apply shas_true. apply Hc.
         rewrite Ev in Hv. now apply paper_vars_in. }
    replace (sin (g_vars gr) "X") with true by (symmetry; apply sin_true; rewrite Ev; apply paper_vars_in; constructor).
    replace (sin (g_vars gr) "Y") with true by (symmetry; apply sin_true; rewrite Ev; apply paper_vars_in; constructor).
    replace (forallb (sin (g_vars gr)) (g_cov gr)) with true; [reflexivity|].
    symmetry. apply forallb_forall. intros v Hv. apply sin_true. rewrite Ev. apply paper_vars_in.
    rewrite Ecov in Hv. destruct Hv as [<-|Hv]; [constructor|].
    apply in_flat_map in Hv as (i & Hi & [<-|[<-|[]]]); apply in_seq in Hi; constructor; lia. }
  rewrite Hok. eexists. split; [reflexivity|]. unfold constructed. cbn [s_name s_vars s_parents s_cpds s_cov s_trt s_rsp].
  split; [exact Hok|]. repeat split; try assumption.
Qed.

Lemma paper_scm_inv {V G} m (cpds : sdict (cpd V G)) s : paper_scm m cpds = Ok s ->
  (forall v, paper_var m v -> exists f, entry cpds v f) /\ s_cpds s = cpds.
Proof.
  unfold paper_scm. destruct (paper_graph_spec m) as (gr & -> & Ev & _). cbn [bind].
  unfold scm_init. destruct (forallb (shas (g_parents gr)) _); [|discriminate]. cbn [negb].
  destruct (forallb (shas cpds) (g_vars gr)) eqn:E; [|discriminate]. cbn [negb].
  repeat match goal with |- (if negb ?b then _ else _) = _ -> _ => destruct b; cbn [negb]; [|discriminate] end.
  intro H. split.
  - intros v Hv. apply shas_true. rewrite forallb_forall in E. apply E. rewrite Ev.
    fold (paper_vars m). now apply paper_vars_in.
  - inversion H. reflexivity.
Qed.

Lemma paper_scm_missing {V G} m (cpds : sdict (cpd V G)) v :
  paper_var m v -> ~ (exists f, entry cpds v f) -> paper_scm m cpds = Err ValueError.
Proof.
  intros Hv Hn. destruct (paper_scm m cpds) as [s|e] eqn:E.
  - exfalso. apply Hn. apply (proj1 (paper_scm_inv _ _ _ E)), Hv.
  - unfold paper_scm in E. destruct (paper_graph_spec m) as (gr & Eg & _). rewrite Eg in E. cbn [bind] in E.
    unfold scm_init in E.
    repeat match type of E with (if negb ?b then _ else _) = _ =>
      destruct b; cbn [negb] in E; [|congruence] end. discriminate.
Qed.

Lemma paper_parents {V G} m (cpds : sdict (cpd V G)) s : paper_scm m cpds = Ok s ->
  forall p v, paper_var m v -> (parent s p v <-> edge m p v).
Proof.
  intros E p v Hv. destruct (paper_scm_ok m cpds (proj1 (paper_scm_inv _ _ _ E)))
    as (s' & E' & _ & _ & _ & _ & _ & _ & H0 & HX & HY & HV & HZ).
  rewrite E in E'. injection E' as <-. unfold parent. split.
  - intros (ps & He & Hp). apply entry_sget in He. destruct Hv.
    + rewrite HX in He. injection He as <-. apply in_map_iff in Hp as (i & <- & Hi). apply in_seq in Hi.
      constructor; lia.
    + rewrite HY in He. injection He as <-. destruct Hp as [<-|Hp]; [constructor|].
      apply in_map_iff in Hp as (i & <- & Hi). apply in_seq in Hi. constructor; lia.
    + rewrite H0 in He. injection He as <-. destruct Hp as [<-|[]]. constructor.
    + rewrite (HV i H) in He. injection He as <-. destruct Hp.
    + rewrite (HZ i H) in He. injection He as <-. destruct Hp as [<-|[]]. now constructor.
  - intros He.
    inversion He; subst;
      match goal with
      | |- exists ps, entry _ "Z0" ps /\ _ => exists ["X"]; split; [now apply entry_sget|now left]
      | |- exists ps, entry _ "X" ps /\ _ => exists (map Vn (seq 1 m)); split; [now apply entry_sget|apply in_map, in_seq; lia]
      | |- exists ps, entry _ "Y" ps /\ In "Z0" _ => exists ("Z0" :: map Zn (seq 1 m)); split; [now apply entry_sget|now left]
      | |- exists ps, entry _ "Y" ps /\ _ => exists ("Z0" :: map Zn (seq 1 m)); split; [now apply entry_sget|right; apply in_map, in_seq; lia]
      | |- exists ps, entry _ (Zn ?i) ps /\ _ => exists [Vn i]; split; [apply entry_sget; auto|now left]
      end.
Qed.

Lemma NoDup_app_intro {A} (l1 l2 : list A) : NoDup l1 -> NoDup l2 ->
  (forall x, In x l1 -> ~ In x l2) -> NoDup (l1 ++ l2)%list.
Proof.
  intros H1 H2 Hd. induction H1 as [|x l1 Hx H1 IH]; cbn; trivial.
  constructor.
  - rewrite in_app_iff. intros [H|H]; [contradiction|]. exact (Hd x (or_introl eq_refl) H).
  - apply IH. intros y Hy. apply Hd. now right.
Qed.

Lemma NoDup_flat_map {A B} (f : A -> list B) (l : list A) : NoDup l ->
  (forall i, In i l -> NoDup (f i)) ->
  (forall i j x, In i l -> In j l -> In x (f i) -> In x (f j) -> i = j) -> NoDup (flat_map f l).
Proof.
  intros Hl Hf Hd. induction Hl as [|a l Ha Hl IH]; cbn; [constructor|].
  apply NoDup_app_intro.
  - apply Hf. now left.
  - apply IH; [intros; apply Hf; now right|]. intros i j x Hi Hj. apply Hd; now right.
  - intros x Hx Hx'. apply in_flat_map in Hx' as (j & Hj & Hxj).
    assert (a = j) by (apply (Hd a j x); [now left|now right|exact Hx|exact Hxj]). subst. contradiction.
Qed.

Lemma before_in {A} (pre post l1 l2 : list A) v p : NoDup (pre ++ v :: post) ->
  (pre ++ v :: post = l1 ++ p :: l2)%list -> In v l2 -> In p pre.
Proof.
  revert l1. induction pre as [|x pre IH]; intros [|y l1] Hnd E Hv; cbn in *.
  - inversion E; subst. inversion Hnd; subst. contradiction.
  - inversion E; subst. inversion Hnd; subst. exfalso. apply H1. apply in_or_app. right. now right.
  - inversion E; subst. now left.
  - inversion E; subst. inversion Hnd; subst. right. apply (IH l1); assumption.
Qed.

Lemma NoDup_paper_vars m : NoDup (paper_vars m).
Proof.
  unfold paper_vars. apply NoDup_app_intro.
  - apply NoDup_flat_map; [apply seq_NoDup| |].
    + intros i _. constructor; [intros [E|[]]; discriminate E|]. constructor; [intros []|constructor].
    + intros i j x _ _ [<-|[<-|[]]] [E|[E|[]]]; try discriminate E;
        [apply Vn_inj in E|apply Zn_inj in E]; now symmetry.
  - repeat constructor; cbn; intros H; repeat destruct H as [H|H]; try discriminate H; trivial.
  - intros x Hx. apply in_flat_map in Hx as (i & Hi & Hx). apply in_seq in Hi.
    intros [<-|[<-|[<-|[]]]]; destruct Hx as [E|[E|[]]]; try discriminate E.
    revert E. apply Zn_neq_Z0. lia.
Qed.

Lemma paper_order m p v : edge m p v -> exists l1 l2, paper_vars m = (l1 ++ p :: l2)%list /\ In v l2.
Proof.
  intro He. unfold paper_vars.
  assert (Hsplit : forall i, 1 <= i <= m -> exists a b,
    flat_map (fun i => [Vn i; Zn i]) (seq 1 m) = (a ++ Vn i :: Zn i :: b)%list).
  { intros i Hi. assert (Hin : In i (seq 1 m)) by (apply in_seq; lia).
    apply in_split in Hin as (a & b & ->). rewrite flat_map_app. cbn. eauto. }
  destruct He.
  - exists (flat_map (fun i => [Vn i; Zn i]) (seq 1 m)), ["Z0"; "Y"]. split; [reflexivity|now left].
  - exists (flat_map (fun i => [Vn i; Zn i]) (seq 1 m) ++ ["X"])%list, ["Y"]. split; [|now left].
    rewrite <- app_assoc. reflexivity.
  - destruct (Hsplit i H) as (a & b & ->). exists a. eexists. split; [rewrite <- app_assoc; reflexivity|].
    cbn. right. apply in_or_app. right. now left.
  - destruct (Hsplit i H) as (a & b & ->). exists a. eexists. split; [rewrite <- app_assoc; reflexivity|]. now left.
  - destruct (Hsplit i H) as (a & b & ->). exists (a ++ [Vn i])%list. eexists.
    split; [rewrite <- !app_assoc; reflexivity|]. cbn. apply in_or_app. right. cbn. tauto.
Qed.

Lemma paper_topological {V G} m (cpds : sdict (cpd V G)) s : paper_scm m cpds = Ok s -> topological s.
Proof.
  intros E. pose proof (proj1 (paper_scm_inv _ _ _ E)) as Hc.
  pose proof (paper_parents m cpds s E) as Hp.
  destruct (paper_scm_ok m cpds Hc) as (s' & E' & _ & Hv & _).
  rewrite E in E'. injection E' as <-.
  intros pre v post p Hs Hpar.
  assert (Hin : paper_var m v) by (apply paper_vars_in; rewrite <- Hv, Hs; apply in_elt).
  apply (Hp p v Hin) in Hpar. destruct (paper_order m p v Hpar) as (l1 & l2 & El & Hl).
  apply (before_in pre post l1 l2 v p); trivial.
  - rewrite <- Hs, Hv. apply NoDup_paper_vars.
  - rewrite <- Hs, Hv. exact El.
Qed.

(** ** index lists *)
Lemma at_ok {X} (l : list X) i d : i < List.length l -> at_ l i = Ok (nth i l d).
Proof.
  intro H. unfold at_. rewrite (nth_error_nth' l d H). reflexivity.
Qed.
Lemma at_inv {X} (l : list X) i x : at_ l i = Ok x -> i < List.length l.
Proof.
  unfold at_. destruct (nth_error l i) eqn:E; [|discriminate]. intros _.
  apply nth_error_Some. congruence.
Qed.

Lemma cumsum_from_length l : forall a, List.length (cumsum_from a l) = List.length l.
Proof. induction l; cbn; intros; f_equal; auto. Qed.
Lemma cumsum_length l : List.length (cumsum l) = List.length l.
Proof. apply cumsum_from_length. Qed.
Lemma sum_firstn_S l i : list_sum (firstn (S i) l) = list_sum (firstn i l) + nth i l 0.
Proof.
  revert i. induction l as [|x l IH]; intros [|i]; cbn; trivial; try lia.
  change (list_sum (x :: firstn (S i) l) = list_sum (x :: firstn i l) + nth i l 0).
  change (x + list_sum (firstn (S i) l) = x + list_sum (firstn i l) + nth i l 0).
  rewrite IH. lia.
Qed.
Lemma cumsum_from_nth l : forall a i, i < List.length l ->
  nth i (cumsum_from a l) 0 = a + list_sum (firstn (S i) l).
Proof.
  induction l as [|x l IH]; cbn [List.length]; intros a i Hi; [lia|].
  destruct i as [|i]; cbn [nth cumsum_from].
  - rewrite sum_firstn_S. cbn. lia.
  - rewrite IH by lia. change (list_sum (firstn (S (S i)) (x :: l))) with (x + list_sum (firstn (S i) l)). lia.
Qed.
Lemma cumsum_nth l i : i < List.length l -> nth i (cumsum l) 0 = list_sum (firstn (S i) l).
Proof. apply cumsum_from_nth. Qed.

Lemma sum_firstn_le l i j : i <= j -> list_sum (firstn i l) <= list_sum (firstn j l).
Proof. induction 1; trivial. rewrite sum_firstn_S. lia. Qed.
Lemma sum_firstn_total l i : list_sum (firstn i l) <= list_sum l.
Proof.
  rewrite <- (firstn_all l) at 2. destruct (le_lt_dec i (List.length l)).
  - apply sum_firstn_le; trivial.
  - rewrite firstn_all, firstn_all2 by lia. trivial.
Qed.

Lemma idx_loop_ok total cz cv k : forall a acc, a + k < List.length cz -> a + k < List.length cv ->
  idx_loop total cz cv (seq a k) acc =
  Ok (fst acc ++ map (fun i => py_range (nth i cz 0) (nth (i + 1) cz 0)) (seq a k),
      snd acc ++ map (fun i => py_range (total + nth i cv 0) (total + nth (i + 1) cv 0)) (seq a k))%list.
Proof.
  induction k as [|k IH]; intros a acc Hz Hv; cbn [seq idx_loop map].
  - rewrite !app_nil_r. now destruct acc.
  - unfold idx_step. rewrite (at_ok cz a 0), (at_ok cz (a + 1) 0), (at_ok cv a 0), (at_ok cv (a + 1) 0) by lia.
    cbn [bind]. rewrite IH by lia. cbn [fst snd]. rewrite <- !app_assoc. reflexivity.
Qed.

Lemma idx_loop_inv total cz cv k : forall a acc r, idx_loop total cz cv (seq a k) acc = Ok r ->
  k = 0 \/ a + k < List.length cz /\ a + k < List.length cv.
Proof.
  induction k as [|k IH]; intros a acc r; cbn [seq idx_loop]; [now left|].
  unfold idx_step.
  destruct (at_ cz a) eqn:E1; cbn [bind]; [|discriminate].
  destruct (at_ cz (a + 1)) eqn:E2; cbn [bind]; [|discriminate].
  destruct (at_ cv a) eqn:E3; cbn [bind]; [|discriminate].
  destruct (at_ cv (a + 1)) eqn:E4; cbn [bind]; [|discriminate].
  intro H. apply IH in H. apply at_inv in E2, E4. right. destruct H as [->|H]; lia.
Qed.

Lemma z_range zd i : i + 1 < List.length zd ->
  py_range (nth i (cumsum zd) 0) (nth (i + 1) (cumsum zd) 0) = z_block zd (S i).
Proof.
  intro H. rewrite !cumsum_nth by lia. unfold py_range, z_block.
  replace (S (i + 1)) with (S (S i)) by lia. rewrite (sum_firstn_S zd (S i)). f_equal. lia.
Qed.
Lemma v_range zd vd i : i + 1 < List.length vd ->
  py_range (list_sum zd + nth i (cumsum vd) 0) (list_sum zd + nth (i + 1) (cumsum vd) 0) = v_block zd vd (S i).
Proof.
  intro H. rewrite !cumsum_nth by lia. unfold py_range, v_block.
  replace (S (i + 1)) with (S (S i)) by lia. rewrite (sum_firstn_S vd (S i)). f_equal. lia.
Qed.

Lemma index_lists_ok zd vd m : m < List.length zd -> m < List.length vd ->
  index_lists zd vd m = Ok (map (z_block zd) (seq 0 (S m)), [] :: map (v_block zd vd) (seq 1 m)).
Proof.
  intros Hz Hv. unfold index_lists. rewrite (at_ok zd 0 0) by lia. cbn [bind].
  rewrite idx_loop_ok by (rewrite cumsum_length; lia). cbn [fst snd app seq map]. f_equal. f_equal; f_equal.
  - unfold py_range, z_block. cbn. now rewrite Nat.sub_0_r.
  - rewrite <- seq_shift, map_map. apply map_ext_in. intros i Hi. apply in_seq in Hi. apply z_range. lia.
  - rewrite <- seq_shift, map_map. apply map_ext_in. intros i Hi. apply in_seq in Hi. apply v_range. lia.
Qed.

Lemma index_lists_inv zd vd m r : index_lists zd vd m = Ok r ->
  0 < List.length zd /\ (m = 0 \/ m < List.length zd /\ m < List.length vd).
Proof.
  unfold index_lists. destruct (at_ zd 0) eqn:E; cbn [bind]; [|discriminate]. intro H.
  apply at_inv in E. split; [exact E|]. apply idx_loop_inv in H. rewrite !cumsum_length in H. exact H.
Qed.

(** ** selection masks *)
Lemma seq_plus a b : seq a b = map (fun k => a + k) (seq 0 b).
Proof.
  revert a. induction b as [|b IH]; intro a; cbn [seq map]; trivial. f_equal; [lia|].
  rewrite IH. rewrite <- (seq_shift b 0), map_map. apply map_ext. intros; lia.
Qed.
Lemma seq_double n : seq 0 (2 ^ S n) = (seq 0 (2 ^ n) ++ map (fun k => 2 ^ n + k) (seq 0 (2 ^ n)))%list.
Proof.
  replace (2 ^ S n) with (2 ^ n + 2 ^ n) by (cbn; lia). rewrite seq_app. f_equal. apply seq_plus.
Qed.

Lemma testbit_low n k i : i < n -> Nat.testbit (2 ^ n + k) i = Nat.testbit k i.
Proof.
  intro H. rewrite !Nat.testbit_eqb. replace (2 ^ n) with (2 * 2 ^ (n - S i) * 2 ^ i).
  - rewrite Nat.div_add_l by (apply Nat.pow_nonzero; lia).
    rewrite Nat.add_mod by lia. rewrite (Nat.mul_comm 2), Nat.mod_mul by lia.
    rewrite Nat.add_0_l, Nat.mod_mod by lia. reflexivity.
  - rewrite <- Nat.mul_assoc, <- Nat.pow_add_r.
    replace (2 * 2 ^ (n - S i + i)) with (2 ^ S (n - S i + i)) by (cbn; lia). f_equal. lia.
Qed.
Lemma testbit_top n k : k < 2 ^ n -> Nat.testbit k n = false.
Proof.
  intro H. rewrite Nat.testbit_eqb, Nat.div_small by exact H. reflexivity.
Qed.
Lemma testbit_top' n k : k < 2 ^ n -> Nat.testbit (2 ^ n + k) n = true.
Proof.
  intro H. rewrite Nat.testbit_eqb. replace (2 ^ n + k) with (1 * 2 ^ n + k) by lia.
  rewrite Nat.div_add_l by (apply Nat.pow_nonzero; lia). rewrite Nat.div_small by exact H. reflexivity.
Qed.

(** functions of the bits 0..n-1 *)
Lemma bits_low {A} (f : bool -> nat -> A) n k :
  map (fun i => f (observes_v (2 ^ n + k) i) i) (seq 1 n) = map (fun i => f (observes_v k i) i) (seq 1 n).
Proof.
  apply map_ext_in. intros i Hi. apply in_seq in Hi. unfold observes_v. now rewrite testbit_low by lia.
Qed.

Definition block_of (zd vd : list nat) (b : bool) (i : nat) : list nat :=
  if b then v_block zd vd i else z_block zd i.

Lemma arm_columns_alt zd vd m k :
  arm_columns zd vd m k = List.concat (map (fun i => block_of zd vd (observes_v k i) i) (seq 1 m)).
Proof. unfold arm_columns. apply flat_map_concat_map. Qed.

Lemma arm_columns_z zd vd n k : k < 2 ^ n ->
  arm_columns zd vd (S n) k = (arm_columns zd vd n k ++ z_block zd (S n))%list.
Proof.
  intro H. rewrite !arm_columns_alt, seq_S, map_app, concat_app. f_equal. cbn [map List.concat]. rewrite app_nil_r.
  unfold observes_v, block_of. replace (1 + n - 1) with n by lia. now rewrite testbit_top.
Qed.
Lemma arm_columns_v zd vd n k : k < 2 ^ n ->
  arm_columns zd vd (S n) (2 ^ n + k) = (arm_columns zd vd n k ++ v_block zd vd (S n))%list.
Proof.
  intro H. rewrite !arm_columns_alt, seq_S, map_app, concat_app, (bits_low (block_of zd vd)). f_equal.
  cbn [map List.concat]. rewrite app_nil_r.
  unfold observes_v, block_of. replace (1 + n - 1) with n by lia. now rewrite testbit_top'.
Qed.

(** is every chosen block non-empty *)
Definition nonempty {A} (l : list A) : bool := match l with [] => false | _ => true end.
Definition blocks_nonempty (zd vd : list nat) (m k : nat) : bool :=
  forallb (fun i => nonempty (block_of zd vd (observes_v k i) i)) (seq 1 m).
Lemma nonempty_z zd vd n k : k < 2 ^ n ->
  blocks_nonempty zd vd (S n) k = blocks_nonempty zd vd n k && nonempty (z_block zd (S n)).
Proof.
  intro H. unfold blocks_nonempty. rewrite seq_S, forallb_app. f_equal. cbn [forallb]. rewrite andb_true_r.
  unfold observes_v, block_of. replace (1 + n - 1) with n by lia. now rewrite testbit_top.
Qed.
Lemma nonempty_v zd vd n k : k < 2 ^ n ->
  blocks_nonempty zd vd (S n) (2 ^ n + k) = blocks_nonempty zd vd n k && nonempty (v_block zd vd (S n)).
Proof.
  intro H. unfold blocks_nonempty. rewrite seq_S, forallb_app. f_equal.
  - assert (E : forall l f, forallb (fun i : nat => nonempty (A := nat) (f i)) l = forallb (@nonempty nat) (map f l))
      by (induction l; intros; cbn; f_equal; auto).
    rewrite !E, (bits_low (block_of zd vd)). reflexivity.
  - cbn [forallb]. rewrite andb_true_r.
    unfold observes_v, block_of. replace (1 + n - 1) with n by lia. now rewrite testbit_top'.
Qed.

(** strings *)
Lemma append_nil_r s : s ++ "" = s.
Proof. induction s; cbn; congruence. Qed.
Lemma append_assoc a b c : (a ++ b) ++ c = a ++ (b ++ c).
Proof. induction a; cbn; congruence. Qed.
Lemma append_length a b : String.length (a ++ b) = String.length a + String.length b.
Proof. induction a; cbn; congruence. Qed.
Lemma append_inj a b c d : a ++ b = c ++ d -> String.length b = String.length d -> a = c /\ b = d.
Proof.
  revert c. induction a as [|x a IH]; intros [|y c] E H; cbn in *.
  - now split.
  - subst b. cbn in H. rewrite append_length in H. lia.
  - subst d. cbn in H. rewrite append_length in H. lia.
  - inversion E; subst. destruct (IH c H2 H). now subst.
Qed.
Lemma concat_snoc l x : String.concat "" (l ++ [x])%list = String.concat "" l ++ x.
Proof.
  induction l as [|a l IH]; [reflexivity|].
  destruct l as [|b l].
  - cbn. reflexivity.
  - change (String.concat "" ((a :: b :: l) ++ [x])%list) with (a ++ "" ++ String.concat "" ((b :: l) ++ [x])%list).
    rewrite IH. change (String.concat "" (a :: b :: l)) with (a ++ "" ++ String.concat "" (b :: l)).
    cbn [String.append]. now rewrite append_assoc.
Qed.

Definition part_of (b : bool) (i : nat) : string := (if b then "V_" else "Z_") ++ decimal i.
Lemma arm_name_z n k : k < 2 ^ n -> arm_name (S n) k = arm_name n k ++ "Z_" ++ decimal (S n).
Proof.
  intro H. unfold arm_name. rewrite seq_S, map_app. cbn [map]. rewrite concat_snoc. f_equal.
  unfold observes_v. replace (1 + n - 1) with n by lia. now rewrite testbit_top.
Qed.
Lemma arm_name_v n k : k < 2 ^ n -> arm_name (S n) (2 ^ n + k) = arm_name n k ++ "V_" ++ decimal (S n).
Proof.
  intro H. unfold arm_name. rewrite seq_S, map_app. cbn [map]. rewrite concat_snoc.
  f_equal.
  - f_equal. apply (bits_low part_of).
  - unfold observes_v. replace (1 + n - 1) with n by lia. now rewrite testbit_top'.
Qed.

Lemma arm_name_inj m : forall j k, j < 2 ^ m -> k < 2 ^ m -> arm_name m j = arm_name m k -> j = k.
Proof.
  induction m as [|m IH]; intros j k Hj Hk E; [cbn in *; lia|].
  assert (Hcase : forall i, i < 2 ^ S m -> i < 2 ^ m \/ exists r, r < 2 ^ m /\ i = 2 ^ m + r).
  { intros i Hi. destruct (lt_dec i (2 ^ m)); [now left|]. right. exists (i - 2 ^ m). cbn in Hi. lia. }
  destruct (Hcase j Hj) as [Hj'|(j' & Hj' & ->)], (Hcase k Hk) as [Hk'|(k' & Hk' & ->)].
  - rewrite (arm_name_z m j Hj'), (arm_name_z m k Hk') in E. apply append_inj in E as (E & _); [|reflexivity].
    now apply IH.
  - rewrite (arm_name_z m j Hj'), (arm_name_v m k' Hk') in E.
    apply append_inj in E as (_ & E); [discriminate E|reflexivity].
  - rewrite (arm_name_v m j' Hj'), (arm_name_z m k Hk') in E.
    apply append_inj in E as (_ & E); [discriminate E|reflexivity].
  - rewrite (arm_name_v m j' Hj'), (arm_name_v m k' Hk') in E. apply append_inj in E as (E & _); [|reflexivity].
    f_equal. now apply IH.
Qed.

Section Masks.
  Context {N : Type} (o : numops N).

  Lemma arm_cost_z zc vc n k : 1 <= n -> k < 2 ^ n ->
    arm_cost (nadd o) zc vc (S n) k = nadd o zc (arm_cost (nadd o) zc vc n k).
  Proof.
    intros Hn H. unfold arm_cost. replace (S n - 1) with (S (n - 1)) by lia. rewrite seq_S, fold_left_app.
    cbn [fold_left]. replace (2 + (n - 1)) with (S n) by lia. unfold observes_v at 1.
    replace (S n - 1) with n by lia. now rewrite testbit_top.
  Qed.
  Lemma arm_cost_v zc vc n k : 1 <= n -> k < 2 ^ n ->
    arm_cost (nadd o) zc vc (S n) (2 ^ n + k) = nadd o vc (arm_cost (nadd o) zc vc n k).
  Proof.
    intros Hn H. unfold arm_cost. replace (S n - 1) with (S (n - 1)) by lia. rewrite seq_S, fold_left_app.
    cbn [fold_left]. replace (2 + (n - 1)) with (S n) by lia. unfold observes_v at 1.
    replace (S n - 1) with n by lia. rewrite testbit_top' by exact H. f_equal.
    assert (E : forall l a b, (forall i, In i l -> 1 <= i <= n) -> a = b ->
      fold_left (fun acc i => nadd o (if observes_v (2 ^ n + k) i then vc else zc) acc) l a =
      fold_left (fun acc i => nadd o (if observes_v k i then vc else zc) acc) l b).
    { induction l as [|i l IH]; cbn [fold_left]; intros a b Hl ->; trivial. apply IH; [intros; apply Hl; now right|].
      unfold observes_v. rewrite testbit_low; trivial. specialize (Hl i (or_introl eq_refl)). lia. }
    apply E.
    - intros i Hi. apply in_seq in Hi. lia.
    - unfold observes_v. now rewrite testbit_low by lia.
  Qed.

  Definition arm_mask (zd vd : list nat) (m k : nat) : mask :=
    if Nat.eqb m 1 then MList (arm_columns zd vd m k)
    else MArr (blocks_nonempty zd vd m k) (arm_columns zd vd m k).

  Lemma mask_cat_arm zd vd n k l : 1 <= n ->
    mask_cat (arm_mask zd vd n k) l = MArr (blocks_nonempty zd vd n k && nonempty l) (arm_columns zd vd n k ++ l).
  Proof.
    intro Hn. unfold mask_cat, arm_mask. destruct (Nat.eqb_spec n 1) as [->|Hn1]; cbn [mask_int mask_list].
    - f_equal. f_equal.
      rewrite arm_columns_alt. unfold blocks_nonempty. cbn [seq map List.concat forallb].
        rewrite app_nil_r, andb_true_r. destruct (block_of _ _ _ _); reflexivity.
    - reflexivity.
  Qed.

  Lemma mapM_ok {A B} (f : A -> res B) (g : A -> B) l : (forall x, In x l -> f x = Ok (g x)) ->
    mapM f l = Ok (map g l).
  Proof.
    induction l as [|x l IH]; cbn; intro H; trivial. rewrite (H x) by now left. cbn [bind].
    rewrite IH by (intros; apply H; now right). reflexivity.
  Qed.

  Lemma selection_masks_ok zd vd zc vc m n : 1 <= n <= m -> m < List.length zd -> m < List.length vd ->
    selection_masks o (map (z_block zd) (seq 0 (S m))) ([] :: map (v_block zd vd) (seq 1 m)) zc vc n =
    Ok (map (arm_mask zd vd n) (seq 0 (2 ^ n)), map (arm_name n) (seq 0 (2 ^ n)),
        map (arm_cost (nadd o) zc vc n) (seq 0 (2 ^ n))).
  Proof.
    intros Hn Hz Hv. induction n as [|n IH]; [lia|].
    set (zi := map (z_block zd) (seq 0 (S m))) in *. set (vi := [] :: map (v_block zd vd) (seq 1 m)) in *.
    assert (Azi : forall i, i <= m -> at_ zi i = Ok (z_block zd i)).
    { intros i Hi. unfold zi. rewrite (at_ok _ i (z_block zd 0)) by (rewrite map_length, seq_length; lia).
      f_equal. rewrite map_nth. f_equal. now rewrite seq_nth by lia. }
    assert (Avi : forall i, 1 <= i <= m -> at_ vi i = Ok (v_block zd vd i)).
    { intros i Hi. unfold vi. rewrite (at_ok _ i (v_block zd vd 0)) by (cbn; rewrite map_length, seq_length; lia).
      f_equal. destruct i as [|i]; [lia|]. cbn [nth]. rewrite map_nth. f_equal. rewrite seq_nth by lia. lia. }
    destruct n as [|n].
    - cbn [selection_masks]. rewrite Azi, Avi by lia. cbn [bind]. unfold arm_mask, arm_columns. cbn. now rewrite !app_nil_r.
    - change (selection_masks o zi vi zc vc (S (S n))) with
        (do r <- selection_masks o zi vi zc vc (S n);
         let '(ms, ns, cs) := r in
         do mz <- mapM (fun k => do z <- at_ zi (S (S n)); Ok (mask_cat k z)) ms;
         let nz := map (fun s => s ++ "Z_" ++ str (S (S n))) ns in
         let cz := map (nadd o zc) cs in
         do mv <- mapM (fun k => do v <- at_ vi (S (S n)); Ok (mask_cat k v)) ms;
         let nv := map (fun s => s ++ "V_" ++ str (S (S n))) ns in
         let cv := map (nadd o vc) cs in
         Ok (mz ++ mv, nz ++ nv, cz ++ cv)%list).
      rewrite IH by lia. cbn [bind]. rewrite Azi, Avi by lia. cbn [bind].
      rewrite !(mapM_ok _ (fun k => mask_cat k (z_block zd (S (S n))))) by reflexivity. cbn [bind].
      rewrite !(mapM_ok _ (fun k => mask_cat k (v_block zd vd (S (S n))))) by reflexivity. cbn [bind].
      rewrite (seq_double (S n)), !map_app, !map_map. f_equal. f_equal; [f_equal|]; f_equal.
      + apply map_ext_in. intros k Hk. apply in_seq in Hk. rewrite mask_cat_arm by lia. unfold arm_mask.
        cbn [Nat.eqb]. rewrite (nonempty_z zd vd (S n)), (arm_columns_z zd vd (S n)) by lia. reflexivity.
      + apply map_ext_in. intros k Hk. apply in_seq in Hk. rewrite mask_cat_arm by lia. unfold arm_mask.
        cbn [Nat.eqb]. rewrite (nonempty_v zd vd (S n)), (arm_columns_v zd vd (S n)) by lia. reflexivity.
      + apply map_ext_in. intros k Hk. apply in_seq in Hk. now rewrite (arm_name_z (S n)) by lia.
      + apply map_ext_in. intros k Hk. apply in_seq in Hk. now rewrite (arm_name_v (S n)) by lia.
      + apply map_ext_in. intros k Hk. apply in_seq in Hk. now rewrite (arm_cost_z zc vc (S n)) by lia.
      + apply map_ext_in. intros k Hk. apply in_seq in Hk. now rewrite (arm_cost_v zc vc (S n)) by lia.
  Qed.
End Masks.
