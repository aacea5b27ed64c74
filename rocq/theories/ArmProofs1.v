(** Arms: what an update does to the data (C25-C28). *)
From Coq Require Import List Arith ZArith Bool Permutation Lia.
From Verif Require Import PyBase PyLemmas Num NumOps DataModel DataSpec DataProofs DataProofs2 ArmModel ArmSpec.
Import ListNotations.

Section Data.
  Context {V : Type} (vnone : V).
  Implicit Types d : expdata V.

  Lemma stackable_shape (x y : option (arr V)) : option_map atail x = option_map atail y -> stackable x y.
  Proof. destruct x as [a|], y as [b|]; simpl; intros E; try discriminate; [|exact I]. exists b. split; congruence. Qed.

  Lemma same_shape_sym (d d' : expdata V) : same_shape d d' -> same_shape d' d.
  Proof. unfold same_shape. intuition congruence. Qed.
  Lemma same_shape_trans (a b c : expdata V) : same_shape a b -> same_shape b c -> same_shape a c.
  Proof. unfold same_shape. intuition congruence. Qed.

  Lemma append_same_shape (a b : expdata V) : aligned a -> aligned b -> same_shape a b ->
    exists r, append vnone a b = (r, None) /\ aligned r /\ same_shape a r /\ units r = units a ++ units b.
  Proof.
    intros Ha Hb Hs. pose proof Ha as (ca & Eca & La & Fa & Ea & Ya). pose proof Hb as (cb & Ecb & Lb & Fb & Eb & Yb).
    destruct Hs as (S1 & S2 & S3 & S4).
    assert (Hok : snd (append vnone a b) = None).
    { apply (append_raises_l vnone a b); [congruence|congruence|]. split; [congruence|].
      split; [apply stackable_shape; exact S1|]. split; apply stackable_shape; assumption. }
    destruct (append vnone a b) as [r e] eqn:E. simpl in Hok. subst e.
    destruct (append_concat_l _ _ _ _ Ha Hb E) as (K1 & K2 & K3 & Kn & Kf & Kal).
    exists r. split; [reflexivity|]. split; [exact Kal|]. split.
    - unfold same_shape.
      assert (Hst : forall x y z : option (arr V), stacked x y z -> option_map atail x = option_map atail z).
      { intros [x|] y z; simpl; [intros (b0 & _ & _ & ->); reflexivity|intros ->; reflexivity]. }
      split; [eapply Hst; exact K1|]. split; [eapply Hst; exact K2|]. split; [eapply Hst; exact K3|]. congruence.
    - unfold units. rewrite Kn, seq_app, map_app. simpl.
      assert (Hnth : forall (x y z : option (arr V)) n m, stacked x y z -> option_map atail x = option_map atail y ->
                present_len x n -> present_len y m ->
                (forall j, j < n -> option_map (fun a => nth_error (arows a) j) z = option_map (fun a => nth_error (arows a) j) x) /\
                (forall j, option_map (fun a => nth_error (arows a) (n + j)) z = option_map (fun a => nth_error (arows a) j) y)).
      { intros x y z n m Hst Hsh Hx Hy. destruct x as [x|].
        - destruct Hst as (b0 & -> & _ & ->). simpl in *. split; intros j; [intros Hj; rewrite nth_error_app1 by lia; reflexivity|].
          rewrite nth_error_app2 by lia. replace (n + j - length (arows x)) with j by lia. reflexivity.
        - simpl in Hst. subst z. destruct y; [discriminate|]. split; reflexivity. }
      rewrite Eca in K1, S1. rewrite Ecb in K1, S1.
      destruct (Hnth _ _ _ (n_units a) (n_units b) K1 S1 La Lb) as [C1 C2].
      destruct (Hnth _ _ _ (n_units a) (n_units b) K2 S2 Ea Eb) as [E1 E2].
      destruct (Hnth _ _ _ (n_units a) (n_units b) K3 S3 Ya Yb) as [Y1 Y2].
      assert (Hc : forall (z : option (arr V)) j, match z with Some c => nth_error (arows c) j | None => None end = match option_map (fun a => nth_error (arows a) j) z with Some q => q | None => None end).
      { intros [z|] j; reflexivity. }
      f_equal.
      + apply map_ext_in. intros j Hj. apply in_seq in Hj. unfold unit_of. rewrite !Hc, C1, E1, Y1, Eca by lia. reflexivity.
      + replace (n_units a) with (n_units a + 0) by lia.
        assert (Eseq : forall k n, seq (n_units a + k) n = map (fun j => n_units a + j) (seq k n)).
        { intros k n. revert k. induction n as [|n IH]; intros k; [reflexivity|]. simpl. f_equal. rewrite <- IH. f_equal. lia. }
        rewrite Eseq, !map_map. apply map_ext. intros j. unfold unit_of. rewrite !Hc, C2, E2, Y2, Ecb. reflexivity.
  Qed.

  Lemma units_length d : length (units d) = n_units d.
  Proof. unfold units. rewrite map_length, seq_length. reflexivity. Qed.
End Data.

Section Arms.
  Context {N V H G : Type} (o : numops N) (vnone : V) (eo : eta_ops N V H G) (w : arm_world N G)
          (tr : expdata V -> res (expdata V)).
  Notation arm := (arm N V H).

  (** ** absorb *)
  Lemma absorb_invalid stable (a : arm) d delta g : valid_delta o delta = false ->
    absorb o vnone w tr stable a d delta g = ((a, g), Some ValueError).
  Proof. unfold valid_delta, absorb. intros ->. reflexivity. Qed.

  Lemma absorb_pulled stable (a : arm) d delta g : valid_delta o delta = true ->
    forall a' g' e, absorb o vnone w tr stable a d delta g = ((a', g'), e) ->
    ar_pulled a' = S (ar_pulled a) /\ ar_ci a' = ar_ci a /\ ar_ate a' = ar_ate a /\ ar_var a' = ar_var a /\
    ar_eta a' = ar_eta a /\ ar_delta a' = Some delta.
  Proof.
    unfold valid_delta, absorb. intros ->. cbn [negb]. intros a' g' e.
    destruct (split_new w tr d g) as [[ns|x] g1]; [|intros E; injection E as <- <- <-; simpl; auto 6].
    destruct (ar_split a) as [fs|]; [destruct stable|].
    - destruct (append_folds vnone fs ns) as [fs' x]. intros E. injection E as <- <- <-. simpl. auto 6.
    - intros E. injection E as <- <- <-. simpl. auto 6.
    - intros E. injection E as <- <- <-. simpl. auto 6.
  Qed.

  Lemma split_new_err d g e : tr d = Err e -> split_new w tr d g = (Err e, g).
  Proof. unfold split_new. intros ->. reflexivity. Qed.

  Lemma split_new_ok d g t : fair_perm w -> tr d = Ok t -> aligned t ->
    exists n0 n1 g', split_new w tr d g = (Ok [n0; n1], g') /\
      aligned n0 /\ aligned n1 /\ same_shape t n0 /\ same_shape t n1 /\ halves t (units n0, units n1).
  Proof.
    intros Hp Et Ha. unfold split_new. rewrite Et.
    destruct (k_fold_partition_l (fun l => fst (aw_perm w g l)) t 2 Ha (Hp g) ltac:(lia)) as (folds & Ek & Hl & Hf & Hpm & _).
    pose proof (k_fold_sizes_l _ _ _ _ Ha (Hp g) Ek) as [_ Hsz].
    destruct folds as [|n0 [|n1 [|]]]; simpl in Hl; try discriminate.
    inversion Hf as [|? ? [A0 S0] Hf1]; subst. inversion Hf1 as [|? ? [A1 S1] _]; subst.
    exists n0, n1. eexists. split; [rewrite Ek; reflexivity|]. repeat (split; [assumption|]).
    unfold halves. simpl. split; [simpl in Hpm; rewrite app_nil_r in Hpm; exact Hpm|].
    rewrite !units_length. split; apply Hsz; simpl; auto.
  Qed.

  (** what absorb does to the folds *)
  Lemma absorb_data stable (a : arm) d delta g t0 :
    fair_perm w -> valid_delta o delta = true ->
    (forall t, tr d = Ok t -> aligned t /\ same_shape t0 t) ->
    match ar_split a with
    | None => True
    | Some fs => exists f0 f1, fs = [f0; f1] /\ aligned f0 /\ aligned f1 /\ same_shape t0 f0 /\ same_shape t0 f1
    end ->
    match tr d with
    | Err e => exists a', absorb o vnone w tr stable a d delta g = ((a', g), Some e) /\ ar_split a' = ar_split a
    | Ok t =>
        exists a' g' f0 f1 n0 n1, absorb o vnone w tr stable a d delta g = ((a', g'), None) /\
          ar_split a' = Some [f0; f1] /\ aligned f0 /\ aligned f1 /\ same_shape t0 f0 /\ same_shape t0 f1 /\
          halves t (n0, n1) /\
          (units f0, units f1) =
            (if stable then match ar_split a with
                            | Some [p0; p1] => (units p0 ++ n0, units p1 ++ n1)
                            | _ => (n0, n1) end
             else (n0, n1))
    end.
  Proof.
    intros Hp Hd Hsh Hinv. unfold valid_delta in Hd. unfold absorb. rewrite Hd. cbn [negb].
    destruct (tr d) as [t|e] eqn:Et.
    - destruct (Hsh t eq_refl) as [Hal Hs].
      destruct (split_new_ok d g t Hp Et Hal) as (m0 & m1 & g' & Es & A0 & A1 & S0 & S1 & Hh). rewrite Es.
      destruct (ar_split a) as [fs|].
      + destruct Hinv as (p0 & p1 & -> & Al0 & Al1 & Sh0 & Sh1). destruct stable.
        * destruct (append_same_shape vnone p0 m0 Al0 A0) as (r0 & E0 & Ar0 & Sr0 & U0).
          { eapply same_shape_trans; [apply same_shape_sym; exact Sh0|]. eapply same_shape_trans; eassumption. }
          destruct (append_same_shape vnone p1 m1 Al1 A1) as (r1 & E1 & Ar1 & Sr1 & U1).
          { eapply same_shape_trans; [apply same_shape_sym; exact Sh1|]. eapply same_shape_trans; eassumption. }
          cbn [append_folds]. rewrite E0, E1. do 2 eexists. exists r0, r1, (units m0), (units m1).
          split; [reflexivity|]. split; [reflexivity|]. split; [exact Ar0|]. split; [exact Ar1|].
          split; [exact (same_shape_trans _ _ _ Sh0 Sr0)|]. split; [exact (same_shape_trans _ _ _ Sh1 Sr1)|].
          split; [exact Hh|]. rewrite U0, U1. reflexivity.
        * do 2 eexists. exists m0, m1, (units m0), (units m1).
          split; [reflexivity|]. split; [reflexivity|]. do 5 (split; [eauto using same_shape_trans|]). reflexivity.
      + do 2 eexists. exists m0, m1, (units m0), (units m1).
        split; [destruct stable; reflexivity|]. split; [reflexivity|]. do 5 (split; [eauto using same_shape_trans|]). destruct stable; reflexivity.
    - rewrite (split_new_err d g e Et). eexists. split; reflexivity.
  Qed.
End Arms.
