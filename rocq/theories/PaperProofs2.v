(** Proofs about paper_utils.py: the arms, and what their masks read. *)
From Coq Require Import List Arith ZArith Lia Bool String.
From Verif Require Import PyBase Num NumOps DataModel ScmModel ScmSpec ScmProofs ScmProps BanditModel ArmModel
  ParamModel PaperModel PaperSpec PaperProofs.
Import ListNotations.
Open Scope nat_scope.
Open Scope string_scope.

(** ** columns *)
Lemma block_of_range zd vd b i x : In x (block_of zd vd b i) ->
  if b then list_sum zd + list_sum (firstn i vd) <= x < list_sum zd + list_sum (firstn (S i) vd)
  else list_sum (firstn i zd) <= x < list_sum (firstn (S i) zd).
Proof.
  unfold block_of. destruct b; intro H; apply in_seq in H; rewrite sum_firstn_S; lia.
Qed.

Lemma arm_columns_nodup zd vd m k : NoDup (arm_columns zd vd m k).
Proof.
  unfold arm_columns. apply NoDup_flat_map; [apply seq_NoDup| |].
  - intros i _. destruct (observes_v k i); apply seq_NoDup.
  - intros i j x _ _ Hi Hj.
    apply (block_of_range zd vd (observes_v k i) i x) in Hi.
    apply (block_of_range zd vd (observes_v k j) j x) in Hj.
    destruct (Nat.lt_trichotomy i j) as [H|[H|H]]; trivial; exfalso.
    + pose proof (sum_firstn_le zd (S i) j H). pose proof (sum_firstn_le vd (S i) j H).
      pose proof (sum_firstn_total zd (S i)). pose proof (sum_firstn_total zd (S j)).
      destruct (observes_v k i), (observes_v k j); lia.
    + pose proof (sum_firstn_le zd (S j) i H). pose proof (sum_firstn_le vd (S j) i H).
      pose proof (sum_firstn_total zd (S i)). pose proof (sum_firstn_total zd (S j)).
      destruct (observes_v k i), (observes_v k j); lia.
Qed.

Lemma arm_columns_bound zd vd m k x : In x (arm_columns zd vd m k) -> x < list_sum zd + list_sum vd.
Proof.
  intro H. apply in_flat_map in H as (i & _ & H). apply (block_of_range zd vd (observes_v k i)) in H.
  pose proof (sum_firstn_total zd (S i)). pose proof (sum_firstn_total vd (S i)).
  destruct (observes_v k i); lia.
Qed.

Lemma arm_columns_length zd vd m k : List.length (arm_columns zd vd m k) = arm_dim zd vd m k.
Proof.
  unfold arm_columns, arm_dim. induction (seq 1 m) as [|i l IH]; [reflexivity|].
  cbn [flat_map map]. rewrite app_length, IH.
  match goal with |- _ = list_sum (?a :: ?b) => change (list_sum (a :: b)) with (a + list_sum b) end. f_equal.
  destruct (observes_v k i); apply seq_length.
Qed.

(** ** the example *)
Lemma bandit_paper c limit units : c = None \/ c = Some (flit 5 100) ->
  bandit_init (flit 5 100) f0 c (LInt limit) units = Ok (mkConfig (flit 5 100) f0 c (LInt limit) units).
Proof.
  intro H. unfold bandit_init.
  replace (fltb f0 (flit 5 100)) with true by (symmetry; vm_compute; reflexivity).
  replace (fltb (flit 5 100) (f_of_Z 1)) with true by (symmetry; vm_compute; reflexivity).
  replace (fltb f0 f0) with false by (symmetry; vm_compute; reflexivity).
  cbn [negb andb bind]. destruct H as [-> | ->]; cbn [bind]; [reflexivity|].
  replace (fltb f0 (flit 5 100)) with true by (symmetry; vm_compute; reflexivity).
  replace (fltb (flit 5 100) (f_of_Z 1)) with true by (symmetry; vm_compute; reflexivity).
  reflexivity.
Qed.

Section Ex.
  Context {N G : Type} (o : numops N).

  (** the name as displayed *)
  Definition shown (latex : bool) (s : string) : string := if latex then "$" ++ s ++ "$" else s.

  Lemma backdoor_arms_map alg subg (fm : nat -> mask) fn (fc : nat -> N) l :
    backdoor_arms o alg subg (map fm l) (map fn l) (map fc l) =
    map (fun k => backdoor_arm o alg subg (fm k) (fn k) (fc k)) l.
  Proof. induction l as [|k l IH]; cbn; f_equal; trivial. Qed.

  Definition paper_arms (zd vd : list nat) (zc vc z0c : N) (m : nat) (latex : bool) alg subg : list (arm_conf (N := N)) :=
    frontdoor_arm o alg subg z0c (nth 0 zd 0) (z_block zd 0) ::
    map (fun k => backdoor_arm o alg subg (arm_mask zd vd m k) (shown latex (arm_name m k))
                    (arm_cost (nadd o) zc vc m k)) (seq 0 (2 ^ m)).

  Definition cfg_paper (c : option F) (limit : Z) (units : nat) : config :=
    mkConfig (flit 5 100) f0 c (LInt limit) units.

  Lemma generate_all s n (g : G) d g' : generate (V := N) s n g = (Ok d, g') ->
    exists x t y, dcov d = Some x /\ dexp d = Some t /\ drsp d = Some y.
  Proof.
    intro H. apply generate_ok in H as (r & cols & x & t & y & _ & _ & _ & _ & _ & ->). exists x, t, y. repeat split.
  Qed.

  Lemma selection_zero zi vi zc vc : selection_masks o zi vi zc vc 0 = Err RecursionError.
  Proof. reflexivity. Qed.

  Lemma generate_example_spec big zd vd zc vc z0c m (cpds : sdict (cpd N G)) limit units latex alg g e g' :
    generate_example o big zd vd zc vc z0c m cpds limit units latex alg g = (Ok e, g') <->
    exists s d x t y, paper_scm m cpds = Ok s /\ 1 <= m < List.length zd /\ m < List.length vd /\
      generate s big g = (Ok d, g') /\ dcov d = Some x /\ dexp d = Some t /\ drsp d = Some y /\
      let subg := nadd o (nadd o (nvar o (List.concat (arows t))) (nvar o (List.concat (arows x))))
                    (nvar o (List.concat (arows y))) in
      e = mkExample G s (paper_arms zd vd zc vc z0c m latex alg subg)
            (cfg_paper None limit units) (cfg_paper None limit units)
            (cfg_paper (Some (flit 5 100)) limit units).
  Proof.
    assert (Hgo : forall s, paper_scm m cpds = Ok s -> 1 <= m < List.length zd -> m < List.length vd ->
      generate_example o big zd vd zc vc z0c m cpds limit units latex alg g =
      match generate s big g with
      | (Err e, g1) => (Err e, g1)
      | (Ok d, g1) =>
          (do ve <- np_var o (dexp d); do vx <- np_var o (dcov d); do vy <- np_var o (drsp d);
           let subg := nadd o (nadd o ve vx) vy in
           Ok (mkExample G s (paper_arms zd vd zc vc z0c m latex alg subg)
            (cfg_paper None limit units) (cfg_paper None limit units)
            (cfg_paper (Some (flit 5 100)) limit units)), g1)
      end).
    { intros s Es Hz Hv. unfold generate_example. rewrite Es. cbn [bind].
      rewrite (index_lists_ok zd vd m) by lia. cbn [bind]. rewrite (at_ok zd 0 0) by lia. cbn [bind fst snd].
      rewrite selection_masks_ok by lia. cbn [bind].
      destruct (generate s big g) as [[d|e1] g1]; [|reflexivity].
      destruct (np_var o (dexp d)); [|reflexivity]. destruct (np_var o (dcov d)); [|reflexivity].
      destruct (np_var o (drsp d)); [|reflexivity]. cbn [bind].
      rewrite (at_ok _ 0 []) by (cbn; lia). cbn [bind seq map nth].
      rewrite !bandit_paper by auto. cbn [bind]. unfold paper_arms.
      replace (if latex then map (fun n => "$" ++ n ++ "$") (map (arm_name m) (seq 0 (2 ^ m)))
               else map (arm_name m) (seq 0 (2 ^ m)))
        with (map (fun k => shown latex (arm_name m k)) (seq 0 (2 ^ m))).
      - rewrite backdoor_arms_map. reflexivity.
      - destruct latex; [rewrite map_map|]; reflexivity. }
    split.
    - intro H. destruct (paper_scm m cpds) as [s|e1] eqn:Es.
      2: { unfold generate_example in H. rewrite Es in H. discriminate H. }
      assert (Hm : 1 <= m < List.length zd /\ m < List.length vd).
      { unfold generate_example in H. rewrite Es in H. cbn [bind] in H.
        destruct (index_lists zd vd m) as [iv|e1] eqn:Ei; cbn [bind] in H; [|discriminate].
        apply index_lists_inv in Ei as (_ & [->|Hm]).
        - destruct (at_ zd 0); cbn [bind] in H; [|discriminate].
          rewrite selection_zero in H. discriminate H.
        - destruct m as [|m']; [|lia]. destruct (at_ zd 0); cbn [bind] in H; [|discriminate].
          rewrite selection_zero in H. discriminate H. }
      rewrite (Hgo s eq_refl) in H by tauto.
      destruct (generate s big g) as [[d|e1] g1] eqn:Eg; [|discriminate].
      destruct (generate_all s big g d g1 Eg) as (x & t & y & Hx & Ht & Hy).
      rewrite Hx, Ht, Hy in H. cbn [np_var bind] in H. injection H as <- <-.
      exists s, d, x, t, y. repeat split; try tauto; assumption.
    - intros (s & d & x & t & y & Es & Hz & Hv & Eg & Hx & Ht & Hy & ->).
      rewrite (Hgo s Es Hz Hv), Eg, Hx, Ht, Hy. reflexivity.
  Qed.
End Ex.

(** ** reading columns *)
Lemma take_at_seq {X} (l : list X) len : forall a, take_at (seq a len) l = firstn len (skipn a l).
Proof.
  assert (Hstep : forall a (l : list X), skipn a l =
    (match nth_error l a with Some x => [x] | None => [] end ++ skipn (S a) l)%list).
  { induction a as [|a IHa]; intros [|x r]; cbn [nth_error skipn app]; trivial. apply IHa. }
  induction len as [|len IH]; intro a; [reflexivity|]. cbn [seq]. unfold take_at in *. cbn [flat_map].
  rewrite IH, (Hstep a l). destruct (nth_error l a) eqn:E; cbn [app firstn]; trivial.
  assert (H : skipn (S a) l = []) by (apply skipn_all2; apply nth_error_None in E; lia).
  rewrite H. now rewrite !firstn_nil.
Qed.

Lemma take_at_flat {X A} (f : A -> list nat) (l : list A) (r : list X) :
  take_at (flat_map f l) r = List.concat (map (fun i => take_at (f i) r) l).
Proof.
  induction l as [|i l IH]; cbn; trivial. unfold take_at in *. rewrite flat_map_app, IH. reflexivity.
Qed.

Lemma slice_concat {X} (ls : list (list X)) : forall b, b < List.length ls ->
  firstn (List.length (nth b ls [])) (skipn (list_sum (firstn b (map (@List.length X) ls))) (List.concat ls)) = nth b ls [].
Proof.
  induction ls as [|l ls IH]; cbn [List.length]; intros b Hb; [lia|].
  destruct b as [|b]; cbn [nth map firstn List.concat].
  - cbn. rewrite firstn_app, firstn_all, Nat.sub_diag. cbn. apply app_nil_r.
  - change (list_sum (List.length l :: firstn b (map (@List.length X) ls)))
      with (List.length l + list_sum (firstn b (map (@List.length X) ls))).
    rewrite skipn_app, skipn_all2 by lia. cbn [app].
    replace (List.length l + list_sum (firstn b (map (@List.length X) ls)) - List.length l)
      with (list_sum (firstn b (map (@List.length X) ls))) by lia.
    apply IH. lia.
Qed.

Lemma mapM_norm_index w js : Forall (fun j => j < w) js ->
  mapM (norm_index w) (map Z.of_nat js) = Ok js.
Proof.
  induction 1 as [|j js Hj _ IH]; cbn [map mapM]; trivial. unfold norm_index at 1.
  replace ((- Z.of_nat w <=? Z.of_nat j) && (Z.of_nat j <? Z.of_nat w))%Z with true.
  - cbn [bind]. rewrite IH. cbn [bind]. replace (Z.of_nat j <? 0)%Z with false by (symmetry; apply Z.ltb_ge; lia).
    now rewrite Nat2Z.id.
  - symmetry. apply andb_true_intro. split; [apply Z.leb_le|apply Z.ltb_lt]; lia.
Qed.

Lemma mapM_norm_index_err w js j : In j js -> w <= j ->
  mapM (norm_index w) (map Z.of_nat js) = Err IndexError.
Proof.
  intros Hin Hj. induction js as [|i js IH]; [destruct Hin|]. cbn [map mapM]. unfold norm_index at 1.
  destruct ((- Z.of_nat w <=? Z.of_nat i) && (Z.of_nat i <? Z.of_nat w))%Z eqn:E; cbn [bind]; [|reflexivity].
  apply andb_true_iff in E as (_ & E). apply Z.ltb_lt in E.
  destruct Hin as [->|Hin]; [lia|]. rewrite IH by exact Hin. reflexivity.
Qed.

Section Read.
  Context {V : Type}.

  Lemma mask_fn_take (d : expdata V) x w js : dcov d = Some x -> atail x = [w] -> Forall (fun j => j < w) js ->
    mask_fn (map Z.of_nat js) d =
    Ok (ed_init (Some (mkArr [List.length js] (map (take_at js) (arows x)))) (dexp d) (drsp d)).
  Proof.
    intros Hd Hw Hj. unfold mask_fn, mask_cov. rewrite Hd, Hw, mapM_norm_index by exact Hj. cbn [bind].
    now rewrite map_length.
  Qed.

  Lemma block_read (cols : list (arr V)) x i b : side_by_side cols x -> i < List.length (arows x) ->
    b < List.length cols -> (forall c, In c cols -> shaped (width c) c) ->
    take_at (seq (list_sum (firstn b (map width cols))) (width (nth b cols x))) (row x i) = row (nth b cols x) i.
  Proof.
    intros (_ & _ & Hn & Hr) Hi Hb Hs. rewrite take_at_seq. unfold row at 1. rewrite (Hr i Hi).
    assert (El : map (@List.length V) (map (fun c => row c i) cols) = map width cols).
    { rewrite map_map. apply map_ext_in. intros c Hc. destruct (Hs c Hc) as (_ & HF). rewrite Forall_forall in HF.
      apply HF. apply nth_In. now rewrite (Hn c Hc). }
    pose proof (slice_concat (map (fun c => row c i) cols) b) as H. rewrite map_length, El in H.
    specialize (H Hb). rewrite (nth_indep _ [] (row x i)), (map_nth (fun c => row c i)) in H
      by (rewrite map_length; exact Hb).
    assert (Ew : List.length (row (nth b cols x) i) = width (nth b cols x)).
    { rewrite <- (map_nth width), <- El, map_map.
      rewrite (nth_indep _ (width x) (List.length (row x i))) by (rewrite map_length; exact Hb).
      now rewrite (map_nth (fun c => List.length (row c i))). }
    rewrite <- Ew. exact H.
  Qed.
End Read.
