(** Lemmas about the SCM model: dicts, the sampling loop, column_stack. *)
From Coq Require Import List Arith ZArith Bool String Relations Lia.
From Verif Require Import PyBase PyLemmas DataModel ScmModel ScmSpec.
Import ListNotations.
Open Scope nat_scope.

(** ** dicts *)
Lemma entry_sget {A} (d : sdict A) k x : entry d k x <-> sget d k = Some x.
Proof.
  split.
  - intros (pre & post & -> & H). induction pre as [|(k', v) pre IH]; cbn.
    + rewrite String.eqb_refl. reflexivity.
    + cbn in H. destruct (String.eqb_spec k k') as [->|]; [tauto|]. apply IH. tauto.
  - induction d as [|(k', v) d IH]; cbn; [discriminate|].
    destruct (String.eqb_spec k k') as [->|N].
    + intros [= ->]. exists [], d. split; [reflexivity|intros []].
    + intros H. destruct (IH H) as (pre & post & -> & H').
      exists ((k', v) :: pre), post. split; [reflexivity|]. cbn. intros [E|E]; [congruence|tauto].
Qed.

Lemma sget_sset {A} (d : sdict A) k v k' :
  sget (sset d k v) k' = if String.eqb k' k then Some v else sget d k'.
Proof.
  induction d as [|(k0, w) d IH]; cbn.
  - reflexivity.
  - destruct (String.eqb_spec k k0) as [->|N]; cbn.
    + destruct (String.eqb_spec k' k0); reflexivity.
    + rewrite IH. destruct (String.eqb_spec k' k0) as [->|N']; [|reflexivity].
      destruct (String.eqb_spec k0 k); [congruence|reflexivity].
Qed.

Lemma shas_true {A} (d : sdict A) k : shas d k = true <-> exists x, entry d k x.
Proof.
  unfold shas. destruct (sget d k) eqn:E.
  - split; [intros _; exists a; apply entry_sget, E|reflexivity].
  - split; [discriminate|]. intros (x & H). apply entry_sget in H. congruence.
Qed.

Lemma shas_sget {A} (d : sdict A) k : shas d k = true <-> sget d k <> None.
Proof. unfold shas. destruct (sget d k); split; congruence. Qed.

Lemma sin_true l x : sin l x = true <-> In x l.
Proof.
  unfold sin. rewrite existsb_exists. split.
  - intros (y & H & E). apply String.eqb_eq in E. subst. exact H.
  - intros H. exists x. split; [exact H|apply String.eqb_refl].
Qed.

Lemma entry_fun {A} (d : sdict A) k x y : entry d k x -> entry d k y -> x = y.
Proof. rewrite !entry_sget. congruence. Qed.

Lemma mapM_sfind_all {A} (d : sdict A) l :
  forallb (shas d) l = true -> exists xs, mapM (sfind d) l = Ok xs.
Proof.
  induction l as [|k l IH]; cbn; [eauto|].
  intros H. apply andb_true_iff in H as [H1 H2]. destruct (IH H2) as (xs & ->).
  unfold sfind. apply shas_sget in H1. destruct (sget d k); [|congruence]. cbn. eauto.
Qed.

Lemma mapM_sfind_Forall2 {A} (d : sdict A) l xs :
  mapM (sfind d) l = Ok xs <-> Forall2 (fun k x => sget d k = Some x) l xs.
Proof.
  revert xs. induction l as [|k l IH]; intros xs; cbn.
  - split; [intros [= <-]; constructor|intros H; inversion H; reflexivity].
  - unfold sfind at 1. split.
    + destruct (sget d k) eqn:E; cbn; [|discriminate].
      destruct (mapM (sfind d) l) as [ys|] eqn:E'; cbn; [|discriminate].
      intros [= <-]. constructor; [exact E|]. apply IH. reflexivity.
    + intros H. inversion H as [|k' x l' ys Hk Hl]; subst. rewrite Hk. cbn.
      apply IH in Hl. rewrite Hl. reflexivity.
Qed.

(** ** the constructor *)
Lemma scm_init_spec {V G} name vars parents (cpds : sdict (cpd V G)) cov trt rsp :
  (complete_graph vars parents cpds cov trt rsp /\
   scm_init name vars parents cpds cov trt rsp = Ok (mkScm name vars parents cpds cov trt rsp)) \/
  (~ complete_graph vars parents cpds cov trt rsp /\
   scm_init name vars parents cpds cov trt rsp = Err ValueError).
Proof.
  unfold scm_init.
  destruct (forallb (shas parents) vars) eqn:E1; cbn [negb];
    [|right; split; [|reflexivity]; intros (H & _)].
  2:{ enough (forallb (shas parents) vars = true) by congruence.
      apply forallb_forall. intros v Hv. apply shas_true, H, Hv. }
  destruct (forallb (shas cpds) vars) eqn:E2; cbn [negb];
    [|right; split; [|reflexivity]; intros (H & _)].
  2:{ enough (forallb (shas cpds) vars = true) by congruence.
      apply forallb_forall. intros v Hv. apply shas_true, H, Hv. }
  destruct (sin vars trt) eqn:E3; cbn [negb];
    [|right; split; [|reflexivity]; intros (_ & H & _); apply sin_true in H; congruence].
  destruct (sin vars rsp) eqn:E4; cbn [negb];
    [|right; split; [|reflexivity]; intros (_ & _ & H & _); apply sin_true in H; congruence].
  destruct (forallb (sin vars) cov) eqn:E5; cbn [negb];
    [|right; split; [|reflexivity]; intros (_ & _ & _ & H)].
  2:{ enough (forallb (sin vars) cov = true) by congruence.
      apply forallb_forall. intros v Hv. apply sin_true, H, Hv. }
  left. split; [|reflexivity].
  rewrite forallb_forall in E1, E2, E5. repeat split.
  - apply shas_true, E1, H.
  - apply shas_true, E2, H.
  - apply sin_true, E3.
  - apply sin_true, E4.
  - intros v Hv. apply sin_true, E5, Hv.
Qed.

Lemma constructed_complete {V G} (s : scm V G) :
  constructed s <->
  complete_graph (s_vars s) (s_parents s) (s_cpds s) (s_cov s) (s_trt s) (s_rsp s).
Proof.
  unfold constructed.
  destruct (scm_init_spec (s_name s) (s_vars s) (s_parents s) (s_cpds s) (s_cov s) (s_trt s) (s_rsp s))
    as [[H E]|[H E]]; rewrite E; split; intros H'; try assumption; try discriminate; try tauto.
  destruct s; reflexivity.
Qed.

(** ** column_stack *)
Section Columns.
  Context {V : Type}.
  Implicit Types a b c x : arr V.

  Lemma as_column_rows a : arows (as_column a) = arows a.
  Proof. unfold as_column. destruct (atail a); reflexivity. Qed.
  Lemma as_column_tail a : atail (as_column a) = width a :: tl (atail a).
  Proof. unfold as_column, width. destruct (atail a) eqn:E; cbn; congruence. Qed.

  Lemma hcat_ok a b x : hcat a b = Ok x <->
    exists fa fb t, atail a = fa :: t /\ atail b = fb :: t /\
      List.length (arows a) = List.length (arows b) /\
      x = mkArr (fa + fb :: t) (map2 (@app V) (arows a) (arows b)).
  Proof.
    unfold hcat, alen. destruct (atail a) as [|fa ta]; [|destruct (atail b) as [|fb tb]].
    - split; [discriminate|]. intros (? & ? & ? & E & _). discriminate.
    - split; [discriminate|]. intros (? & ? & ? & _ & E & _). discriminate.
    - destruct (list_eq_dec Nat.eq_dec ta tb) as [->|N]; cbn.
      + destruct (Nat.eqb_spec (List.length (arows a)) (List.length (arows b))) as [E|N].
        * split; [intros [= <-]; exists fa, fb, tb; auto|].
          intros (? & ? & ? & E1 & E2 & _ & ->). injection E1 as <- <-. injection E2 as <-. reflexivity.
        * split; [discriminate|]. intros (? & ? & ? & _ & _ & E & _). congruence.
      + split; [discriminate|]. intros (? & ? & ? & E1 & E2 & _). congruence.
  Qed.

  Lemma hcat_cases a b : (exists x, hcat a b = Ok x) \/ hcat a b = Err ValueError.
  Proof.
    unfold hcat. destruct (atail a); [|destruct (atail b)]; auto.
    match goal with |- context [if ?c then _ else _] => destruct c end; eauto.
  Qed.
  Lemma hcats_cases l : forall a, (exists x, hcats a l = Ok x) \/ hcats a l = Err ValueError.
  Proof.
    induction l as [|b l IH]; intros a; cbn; [eauto|].
    destruct (hcat_cases a b) as [(x & ->)| ->]; cbn; auto.
  Qed.
  Lemma column_stack_cases l : (exists x, column_stack l = Ok x) \/ column_stack l = Err ValueError.
  Proof. unfold column_stack. destruct (map as_column l); [auto|apply hcats_cases]. Qed.

  Lemma nth_map2_app (l m : list (list V)) i : List.length l = List.length m ->
    nth i (map2 (@app V) l m) [] = nth i l [] ++ nth i m [].
  Proof.
    revert m i. induction l as [|r l IH]; intros [|r' m] i H; try discriminate H.
    - destruct i; reflexivity.
    - destruct i as [|i]; cbn; [reflexivity|]. apply IH. cbn in H. lia.
  Qed.

  Lemma hcats_ok l : forall a x, hcats a (map as_column l) = Ok x ->
    (exists fa t, atail a = fa :: t) ->
    exists fa t, atail a = fa :: t /\ atail x = fa + list_sum (map width l) :: t /\
      (forall c, In c l -> tl (atail c) = t) /\
      (forall c, In c l -> List.length (arows c) = List.length (arows x)) /\
      List.length (arows a) = List.length (arows x) /\
      forall i, nth i (arows x) [] = nth i (arows a) [] ++ List.concat (map (fun c => nth i (arows c) []) l).
  Proof.
    induction l as [|b l IH]; intros a x; cbn [map hcats].
    - intros [= <-] (fa & t & E). exists fa, t. cbn. rewrite Nat.add_0_r.
      repeat split; auto; try tauto. intros i. rewrite app_nil_r. reflexivity.
    - intros H _. destruct (hcat a (as_column b)) as [c|] eqn:E; cbn in H; [|discriminate].
      apply hcat_ok in E as (fa & fb & t & Ea & Eb & El & ->).
      rewrite as_column_tail in Eb. injection Eb as Ew Et. rewrite as_column_rows in *.
      apply IH in H; [|cbn; eauto]. cbn in H.
      destruct H as (f & t' & Ef & Ex & Ht & Hl & Hr & Hn). injection Ef as <- <-.
      exists fa, t. split; [exact Ea|]. rewrite map2_length, El, Nat.min_id in Hr.
      cbn [map list_sum fold_right]. split.
      { rewrite Ex. f_equal. change (fold_right Nat.add 0 (map width l)) with (list_sum (map width l)). lia. }
      split. { intros c [<-|Hc]; [exact Et|apply Ht, Hc]. }
      split. { intros c [<-|Hc]; [exact Hr|apply Hl, Hc]. }
      split. { congruence. }
      intros i. rewrite Hn, nth_map2_app by exact El. cbn. rewrite app_assoc. reflexivity.
  Qed.

  Lemma column_stack_ok l x : column_stack l = Ok x -> side_by_side l x.
  Proof.
    unfold column_stack. destruct l as [|a l]; cbn [map]; [discriminate|]. intros H.
    apply hcats_ok in H; [|rewrite as_column_tail; eauto].
    destruct H as (f & t & Ea & Ex & Ht & Hl & Hr & Hn).
    rewrite as_column_tail in Ea. injection Ea as <- Et. rewrite as_column_rows in *.
    split; [discriminate|]. split.
    { exists t. split; [exact Ex|]. intros c [<-|Hc]; auto. }
    split. { intros c [<-|Hc]; auto. }
    intros i _. rewrite Hn. reflexivity.
  Qed.

  Lemma hcats_succeeds n t l : (forall c, In c l -> List.length (arows c) = n /\ tl (atail c) = t) ->
    forall a fa, atail a = fa :: t -> List.length (arows a) = n ->
    exists x, hcats a (map as_column l) = Ok x.
  Proof.
    intros H. induction l as [|b l IH]; intros a fa Ea En; cbn [map hcats]; [eauto|].
    assert (Hc : hcat a (as_column b) =
                 Ok (mkArr (fa + width b :: t) (map2 (@app V) (arows a) (arows b)))).
    { apply hcat_ok. exists fa, (width b), t. rewrite as_column_tail, as_column_rows.
      destruct (H b (or_introl eq_refl)) as (Hl & Ht).
      repeat split; [exact Ea|rewrite Ht; reflexivity|lia]. }
    rewrite Hc. cbn. eapply IH; [intros c Hi; apply H; right; exact Hi|reflexivity|].
    cbn. rewrite map2_length. destruct (H b (or_introl eq_refl)) as (Hl & _). lia.
  Qed.

  Lemma column_stack_succeeds n t l : l <> [] ->
    (forall c, In c l -> List.length (arows c) = n /\ tl (atail c) = t) ->
    exists x, column_stack l = Ok x.
  Proof.
    intros N H. unfold column_stack. destruct l as [|a l]; [congruence|]. cbn [map].
    destruct (H a (or_introl eq_refl)) as (Hl & Ht).
    apply (hcats_succeeds n t) with (fa := width a).
    - intros c Hc. apply H. right. exact Hc.
    - rewrite as_column_tail, Ht. reflexivity.
    - rewrite as_column_rows. exact Hl.
  Qed.

  Lemma column_stack_empty : column_stack (@nil (arr V)) = Err ValueError.
  Proof. reflexivity. Qed.
End Columns.

(** ** the sampling loop *)
Section Loop.
  Context {V G : Type}.
  Implicit Types s : scm V G.

  (** one step, inverted *)
  Lemma gen_loop_cons s n v vs sm g r g' :
    gen_loop s n (v :: vs) sm g = (Ok r, g') ->
    exists ps args f a g1,
      sget (s_parents s) v = Some ps /\ forallb (shas sm) ps = true /\
      mapM (sfind sm) ps = Ok args /\ sget (s_cpds s) v = Some f /\
      f n args g = (Ok a, g1) /\ gen_loop s n vs (sset sm v a) g1 = (Ok r, g').
  Proof.
    cbn. destruct (sget (s_parents s) v) as [ps|]; [|discriminate].
    destruct (forallb (shas sm) ps) eqn:E; cbn [negb]; [|discriminate].
    destruct (mapM (sfind sm) ps) as [args|] eqn:Em; [|discriminate].
    destruct (sget (s_cpds s) v) as [f|]; [|discriminate].
    destruct (f n args g) as [[a|] g1] eqn:Ef; [|discriminate].
    intros H. exists ps, args, f, a, g1. auto 10.
  Qed.

  (** a successful loop has put every variable after its parents *)
  Lemma gen_loop_topological s n : forall vs sm g r g',
    gen_loop s n vs sm g = (Ok r, g') ->
    forall done, (forall v, sget sm v <> None <-> In v done) ->
    (forall pre v post p, vs = pre ++ v :: post -> parent s p v -> In p (done ++ pre)) /\
    (forall v, sget r v <> None <-> In v (done ++ vs)).
  Proof.
    induction vs as [|v vs IH]; intros sm g r g' H done Hd.
    - cbn in H. injection H as <- <-. split.
      + intros [|] ? ? ? E; discriminate E.
      + rewrite app_nil_r. exact Hd.
    - apply gen_loop_cons in H as (ps & args & f & a & g1 & E1 & E2 & E3 & E4 & E5 & H).
      assert (Hd' : forall u, sget (sset sm v a) u <> None <-> In u (done ++ [v])).
      { intros u. rewrite sget_sset, in_app_iff. cbn. destruct (String.eqb_spec u v) as [->|N].
        - split; [auto|discriminate].
        - rewrite Hd. intuition congruence. }
      destruct (IH _ _ _ _ H _ Hd') as [IH1 IH2]. split.
      + intros [|w pre] v' post p E Hp; cbn in E; injection E as E0 E'.
        * subst v'. rewrite app_nil_r. destruct Hp as (ps' & He & Hp). apply entry_sget in He.
          assert (ps' = ps) by congruence. subst ps'. rewrite forallb_forall in E2.
          apply Hd, shas_sget, E2, Hp.
        * subst w. specialize (IH1 pre v' post p E' Hp). rewrite <- app_assoc in IH1. exact IH1.
      + intros u. rewrite IH2, <- app_assoc. reflexivity.
  Qed.

  (** with well-behaved CPDs the loop fails only on a misplaced parent *)
  Lemma gen_loop_well_behaved s n : forall vs sm g done,
    (forall v, In v vs -> (exists ps, entry (s_parents s) v ps) /\
                          (exists f, entry (s_cpds s) v f /\ well_behaved n f)) ->
    (forall v, sget sm v <> None <-> In v done) ->
    (forall v a, sget sm v = Some a -> List.length (arows a) = n /\ List.length (atail a) <= 1) ->
    (exists r g', gen_loop s n vs sm g = (Ok r, g') /\
      (forall v a, sget r v = Some a -> List.length (arows a) = n /\ List.length (atail a) <= 1)) \/
    (exists g', gen_loop s n vs sm g = (Err ValueError, g') /\
      exists pre v post p, vs = pre ++ v :: post /\ parent s p v /\ ~ In p (done ++ pre)).
  Proof.
    induction vs as [|v vs IH]; intros sm g done Hvs Hd Hn; cbn [gen_loop].
    - left. eauto.
    - destruct (Hvs v (or_introl eq_refl)) as ((ps & Hps) & f & Hf & Hw).
      pose proof Hps as Hps'. apply entry_sget in Hps. rewrite Hps.
      destruct (forallb (shas sm) ps) eqn:E2; cbn [negb].
      + destruct (mapM_sfind_all sm ps E2) as (args & ->).
        apply entry_sget in Hf. rewrite Hf.
        destruct (Hw args g) as (a & g1 & -> & Hl & Ha).
        destruct (IH (sset sm v a) g1 (done ++ [v])) as [IH1|(g' & IH1 & pre & v' & post & p & -> & Hp & Hni)].
        * intros u Hu. apply Hvs. right. exact Hu.
        * intros u. rewrite sget_sset, in_app_iff. cbn. destruct (String.eqb_spec u v) as [->|N].
          -- split; [auto|discriminate].
          -- rewrite Hd. intuition congruence.
        * intros u b. rewrite sget_sset. destruct (String.eqb u v); [intros [= <-]; auto|apply Hn].
        * left. exact IH1.
        * right. exists g'. split; [exact IH1|]. exists (v :: pre), v', post, p.
          split; [reflexivity|]. split; [exact Hp|]. rewrite <- app_assoc in Hni. exact Hni.
      + right. exists g. split; [reflexivity|].
        assert (Hx : exists p, In p ps /\ shas sm p = false).
        { clear - E2. induction ps as [|p ps IHp]; cbn in E2; [discriminate|].
          destruct (shas sm p) eqn:E; [destruct (IHp E2) as (q & ? & ?); exists q; cbn; auto|].
          exists p. cbn. auto. }
        destruct Hx as (p & Hp & E). exists [], v, vs, p. split; [reflexivity|].
        split; [exists ps; auto|]. rewrite app_nil_r, <- Hd.
        unfold shas in E. destruct (sget sm p); congruence.
  Qed.

  (** ** logging *)
  Lemma latest_snoc (log : list (call V)) c v a :
    latest (log ++ [c]) v a <->
    (c_var c = v /\ c_out c = Ok a) \/ (c_var c <> v /\ latest log v a).
  Proof.
    split.
    - intros (pre & c' & post & E & Hv & Ho & Hni).
      destruct post as [|c2 post] using rev_ind.
      + apply app_inj_tail in E as [_ <-]. auto.
      + clear IHpost. rewrite app_comm_cons, app_assoc in E. apply app_inj_tail in E as [-> <-].
        rewrite map_app, in_app_iff in Hni. cbn in Hni. right. split; [tauto|].
        exists pre, c', post. split; [reflexivity|]. tauto.
    - intros [[Hv Ho]|[Hv (pre & c' & post & -> & Hv' & Ho & Hni)]].
      + exists log, c, []. repeat split; auto.
      + exists pre, c', (post ++ [c]). rewrite <- app_assoc. repeat split; auto.
        rewrite map_app, in_app_iff. cbn. tauto.
  Qed.

  Lemma sget_map_logged (d : sdict (cpd V G)) v :
    sget (map (fun vf => (fst vf, logged (fst vf) (snd vf))) d) v = option_map (logged v) (sget d v).
  Proof.
    induction d as [|(k, f) d IH]; cbn; [reflexivity|].
    destruct (String.eqb_spec v k) as [->|]; [reflexivity|exact IH].
  Qed.

  Lemma gen_loop_logging s n : forall vs sm g log,
    (forall v a, sget sm v = Some a <-> latest log v a) ->
    exists new,
      gen_loop (logging s) n vs sm (g, log) =
        (fst (gen_loop s n vs sm g), (snd (gen_loop s n vs sm g), log ++ new)) /\
      (exists rest, vs = map c_var new ++ rest) /\
      (forall pre c post, new = pre ++ c :: post ->
        c_n c = n /\ exists ps, entry (s_parents s) (c_var c) ps /\
                                Forall2 (latest (log ++ pre)) ps (c_args c)) /\
      forall r, fst (gen_loop s n vs sm g) = Ok r ->
        map c_var new = vs /\ forall v a, sget r v = Some a <-> latest (log ++ new) v a.
  Proof.
    assert (stop : forall vs log (P : res (sdict (arr V))) (g : G), (forall r, P <> Ok r) ->
      exists new : list (call V), (P, (g, log)) = (P, (g, log ++ new)) /\
      (exists rest : list string, vs = map c_var new ++ rest) /\
      (forall pre c post, new = pre ++ c :: post ->
        c_n c = n /\ exists ps, entry (s_parents s) (c_var c) ps /\
                                Forall2 (latest (log ++ pre)) ps (c_args c)) /\
      forall r, P = Ok r ->
        map c_var new = vs /\ forall v a, sget r v = Some a <-> latest (log ++ new) v a).
    { intros vs log P g HP. exists []. rewrite app_nil_r. split; [reflexivity|].
      split; [exists vs; reflexivity|]. split; [intros [|] ? ? E; discriminate E|].
      intros r E. destruct (HP _ E). }
    induction vs as [|v vs IH]; intros sm g log Hsm; cbn [gen_loop].
    - exists []. cbn. rewrite app_nil_r. split; [reflexivity|]. split; [exists []; reflexivity|].
      split; [intros [|] ? ? E; discriminate E|]. intros r [= <-]. auto.
    - cbn [logging s_parents s_cpds].
      destruct (sget (s_parents s) v) as [ps|] eqn:Eps; [|apply stop; discriminate].
      destruct (forallb (shas sm) ps) eqn:E2; cbn [negb]; [|apply stop; discriminate].
      destruct (mapM (sfind sm) ps) as [args|e] eqn:Ea; [|apply stop; discriminate].
      rewrite sget_map_logged.
      destruct (sget (s_cpds s) v) as [f|] eqn:Ef; cbn [option_map]; [|apply stop; discriminate].
      unfold logged at 1. cbn [fst snd]. destruct (f n args g) as [[a|e] g1] eqn:Er.
      + set (c := mkCall v n args (Ok a)).
        destruct (IH (sset sm v a) g1 (log ++ [c])) as (new & E & (rest & Hrest) & Hcalls & Hr).
        { intros u b. rewrite sget_sset, latest_snoc. cbn. destruct (String.eqb_spec u v) as [->|N].
          - split; [intros [= <-]; auto|]. intros [[_ [= <-]]|[H _]]; [reflexivity|congruence].
          - rewrite Hsm. intuition congruence. }
        exists (c :: new).
        replace (log ++ c :: new) with ((log ++ [c]) ++ new) by (rewrite <- app_assoc; reflexivity).
        split; [exact E|].
        split. { exists rest. cbn. f_equal. exact Hrest. }
        split.
        { intros [|c0 pre] c' post E'; cbn in E'; injection E' as E0 E'.
          - subst c'. rewrite app_nil_r. cbn. split; [reflexivity|]. exists ps.
            split; [apply entry_sget, Eps|].
            apply mapM_sfind_Forall2 in Ea. clear - Ea Hsm.
            induction Ea; constructor; auto. apply Hsm. assumption.
          - subst c0. destruct (Hcalls pre c' post E') as (H1 & ps' & H2 & H3).
            split; [exact H1|]. exists ps'. split; [exact H2|].
            replace (log ++ c :: pre) with ((log ++ [c]) ++ pre) by (rewrite <- app_assoc; reflexivity).
            exact H3. }
        intros r Hok. destruct (Hr r Hok) as (H1 & H2). split; [cbn; f_equal; exact H1|exact H2].
      + exists [mkCall v n args (Err e)]. cbn [fst snd].
        split; [reflexivity|]. split; [exists vs; reflexivity|].
        split; [|discriminate].
        intros [|c0 pre] c' post E'; cbn in E'; injection E' as E0 E'.
        * subst c'. rewrite app_nil_r. cbn. split; [reflexivity|]. exists ps.
          split; [apply entry_sget, Eps|].
          apply mapM_sfind_Forall2 in Ea. clear - Ea Hsm.
          induction Ea; constructor; auto. apply Hsm. assumption.
        * destruct pre; discriminate E'.
  Qed.

  (** ** replacing a CPD *)
  Lemma replaces_sget s v f s' : replaces s v f s' ->
    forall u, u <> v -> sget (s_cpds s') u = sget (s_cpds s) u.
  Proof.
    intros (_ & _ & _ & _ & _ & _ & H) u N.
    destruct (sget (s_cpds s) u) as [h|] eqn:E.
    - apply entry_sget, H, entry_sget; assumption.
    - destruct (sget (s_cpds s') u) as [h|] eqn:E'; [|reflexivity].
      apply entry_sget, H, entry_sget in E'; [congruence|exact N].
  Qed.

  Lemma gen_loop_nondescendants s v f s' n : replaces s v f s' ->
    (forall u h, entry (s_cpds s) u h -> functional h) ->
    forall vs sm sm' g g' r r' g1 g1',
      gen_loop s n vs sm g = (Ok r, g1) -> gen_loop s' n vs sm' g' = (Ok r', g1') ->
      (forall u, ~ descendant s v u -> sget sm' u = sget sm u) ->
      forall u, ~ descendant s v u -> sget r' u = sget r u.
  Proof.
    intros Hrep Hfun. induction vs as [|w vs IH]; intros sm sm' g g' r r' g1 g1' H H' Hsm.
    - cbn in H, H'. injection H as <- _. injection H' as <- _. exact Hsm.
    - apply gen_loop_cons in H as (ps & args & h & a & g2 & E1 & E2 & E3 & E4 & E5 & H).
      apply gen_loop_cons in H' as (ps' & args' & h' & a' & g2' & E1' & E2' & E3' & E4' & E5' & H').
      assert (Eps : ps' = ps) by (destruct Hrep as (_ & Hp & _); rewrite Hp in E1'; congruence).
      subst ps'. refine (IH _ _ _ _ _ _ _ _ H H' _).
      intros u Hu. rewrite !sget_sset. destruct (String.eqb_spec u w) as [->|N]; [|apply Hsm, Hu].
      assert (Hw : w <> v) by (intros ->; apply Hu, rt_refl).
      assert (h' = h) by (rewrite (replaces_sget _ _ _ _ Hrep w Hw) in E4'; congruence). subst h'.
      assert (args' = args).
      { assert (Ea : mapM (sfind sm') ps = mapM (sfind sm) ps).
        { assert (Hps : forall p, In p ps -> ~ descendant s v p).
          { intros p Hp Hd. apply Hu. eapply rt_trans; [exact Hd|]. apply rt_step.
            exists ps. split; [apply entry_sget, E1|exact Hp]. }
          clear - Hps Hsm. induction ps as [|p ps IHp]; cbn; [reflexivity|].
          unfold sfind at 1 3. rewrite (Hsm p (Hps p (or_introl eq_refl))).
          rewrite IHp; [reflexivity|]. intros q Hq. apply Hps. right. exact Hq. }
        congruence. }
      subst args'. assert (Hf := Hfun w h (proj2 (entry_sget _ _ _) E4) n args g g').
      rewrite E5, E5' in Hf. cbn in Hf. congruence.
  Qed.

  (** ** a CPD that raises *)
  Lemma gen_loop_broken s t f n : sget (s_cpds s) t = Some f ->
    (forall args g, exists e g', f n args g = (Err e, g')) ->
    forall vs sm g r g', In t vs -> gen_loop s n vs sm g <> (Ok r, g').
  Proof.
    intros Ef Hf. induction vs as [|w vs IH]; intros sm g r g' Hin H; [destruct Hin|].
    apply gen_loop_cons in H as (ps & args & h & a & g2 & E1 & E2 & E3 & E4 & E5 & H).
    destruct Hin as [->|Hin].
    - assert (h = f) by congruence. subst h. destruct (Hf args g) as (e & g3 & E). congruence.
    - exact (IH _ _ _ _ Hin H).
  Qed.

  Lemma gen_loop_reaches s t f s' n : replaces s t f s' ->
    (forall args g, exists g', f n args g = (Err AttributeError, g')) ->
    forall vs sm g r g', In t vs -> gen_loop s n vs sm g = (Ok r, g') ->
    exists g1, gen_loop s' n vs sm g = (Err AttributeError, g1).
  Proof.
    intros Hrep Hf. induction vs as [|w vs IH]; intros sm g r g' Hin H; [destruct Hin|].
    apply gen_loop_cons in H as (ps & args & h & a & g2 & E1 & E2 & E3 & E4 & E5 & H).
    destruct Hrep as (Hv & Hp & Hc & Ht & Hr & He & Ho). cbn [gen_loop].
    rewrite Hp, E1, E2, E3. cbn [negb].
    destruct (String.eqb_spec w t) as [->|N].
    - apply entry_sget in He. rewrite He. destruct (Hf args g) as (g3 & ->). eauto.
    - rewrite (replaces_sget s t f s' (conj Hv (conj Hp (conj Hc (conj Ht (conj Hr (conj He Ho))))))) by exact N.
      rewrite E4, E5. destruct Hin as [->|Hin]; [congruence|]. exact (IH _ _ _ _ Hin H).
  Qed.

  Lemma set_cpd_replaces s t f : replaces s t f (set_cpd s t f).
  Proof.
    unfold replaces, set_cpd. cbn. repeat split; auto.
    - apply entry_sget. rewrite sget_sset, String.eqb_refl. reflexivity.
    - intros Hx. apply entry_sget in Hx. rewrite sget_sset in Hx.
      destruct (String.eqb_spec u t); [congruence|]. apply entry_sget, Hx.
    - intros Hx. apply entry_sget. rewrite sget_sset.
      destruct (String.eqb_spec u t); [congruence|]. apply entry_sget, Hx.
  Qed.

  (** ** generate, inverted *)
  Lemma generate_ok s n g d g' : generate s n g = (Ok d, g') ->
    exists samples cols x t y, gen_loop s n (s_vars s) [] g = (Ok samples, g') /\
      mapM (sfind samples) (s_cov s) = Ok cols /\ column_stack cols = Ok x /\
      sget samples (s_trt s) = Some t /\ sget samples (s_rsp s) = Some y /\
      d = ed_init (Some x) (Some t) (Some y).
  Proof.
    unfold generate. destruct (gen_loop s n (s_vars s) [] g) as [[samples|] g1]; [|discriminate].
    destruct (mapM (sfind samples) (s_cov s)) as [cols|] eqn:Ec; cbn [bind]; [|discriminate].
    destruct (column_stack cols) as [x|] eqn:Ex; cbn [bind]; [|discriminate].
    unfold sfind. destruct (sget samples (s_trt s)) as [t|] eqn:Et; cbn [bind]; [|discriminate].
    destruct (sget samples (s_rsp s)) as [y|] eqn:Ey; cbn [bind]; [|discriminate].
    intros [= <- <-]. exists samples, cols, x, t, y. auto 10.
  Qed.
End Loop.
