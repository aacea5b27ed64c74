(** Lemmas for ExpData as a sequence. *)
From Coq Require Import List Arith ZArith Bool Lia.
From Verif Require Import PyBase SeqModel SeqSpec.
Import ListNotations.

Notation size := (fold_right Nat.mul 1).

Lemma offset_lt shape idx : index_of shape idx -> offset shape idx < size shape.
Proof. induction 1 as [|n i s l Hi _ IH]; cbn [offset fold_right]; [lia|nia]. Qed.
Lemma nth_error_skip {A} (l : list A) i j : nth_error (skipn i l) j = nth_error l (i + j).
Proof. revert l. induction i as [|i IH]; intros [|a l]; cbn; trivial. now destruct j. Qed.
Lemma nth_error_first {A} (l : list A) i j : j < i -> nth_error (firstn i l) j = nth_error l j.
Proof. revert l j. induction i as [|i IH]; intros [|a l] [|j] H; cbn; trivial; try lia. apply IH. lia. Qed.

Lemma nth_error_same {A} (l l' : list A) : (forall j, nth_error l j = nth_error l' j) -> l = l'.
Proof.
  revert l'. induction l as [|a l IH]; intros [|b l'] H; trivial; try (specialize (H 0); discriminate).
  pose proof (H 0) as H0. injection H0 as ->. f_equal. apply IH. intro j. exact (H (S j)).
Qed.

Section Seq.
  Context {V : Type}.
  Definition place (n : nat) (i : Z) : nat := Z.to_nat (if (i <? 0)%Z then (i + Z.of_nat n)%Z else i).

  Lemma nd_int_in (a : nd V) n rest i : nshape a = n :: rest -> (- Z.of_nat n <= i < Z.of_nat n)%Z ->
    exists b, nd_int a i = Ok b /\ nshape b = rest /\ (well_shaped a -> row_at a b (place n i)).
  Proof.
    intros Ha Hi. unfold nd_int. rewrite Ha. fold (place n i).
    assert (Hj : (0 <= (if (i <? 0)%Z then (i + Z.of_nat n)%Z else i) < Z.of_nat n)%Z) by (destruct (Z.ltb_spec i 0); lia).
    destruct (Z.leb_spec 0 (if (i <? 0)%Z then (i + Z.of_nat n)%Z else i)); [|lia].
    destruct (Z.ltb_spec (if (i <? 0)%Z then (i + Z.of_nat n)%Z else i) (Z.of_nat n)); [|lia].
    cbn [andb]. eexists. split; [reflexivity|]. split; [reflexivity|]. intro Hw. unfold well_shaped in Hw. rewrite Ha in Hw. cbn [fold_right] in Hw.
    assert (Hp : place n i < n) by (unfold place; lia).
    exists n. cbn [nshape]. split; [exact Ha|]. split.
    - unfold well_shaped. cbn [nshape nflat]. rewrite firstn_length, skipn_length, Hw. nia.
    - intros idx Hidx. unfold entry_at. cbn [nshape nflat]. rewrite Ha. cbn [offset]. fold (place n i).
      rewrite nth_error_first by now apply offset_lt. now rewrite nth_error_skip.
  Qed.
  Lemma nd_int_out (a : nd V) i : (forall n rest, nshape a = n :: rest -> ~ (- Z.of_nat n <= i < Z.of_nat n)%Z) -> nd_int a i = Err IndexError.
  Proof.
    intro H. unfold nd_int. destruct (nshape a) as [|n rest]; [reflexivity|]. specialize (H n rest eq_refl).
    replace ((0 <=? (if (i <? 0)%Z then (i + Z.of_nat n)%Z else i)) && ((if (i <? 0)%Z then (i + Z.of_nat n)%Z else i) <? Z.of_nat n))%Z with false; [reflexivity|].
    symmetry. apply not_true_is_false. intro E. apply andb_prop in E as (E1 & E2). apply Z.leb_le in E1. apply Z.ltb_lt in E2. destruct (Z.ltb_spec i 0); lia.
  Qed.
  Lemma nd_int_cases (a : nd V) i : nd_int a i = Err IndexError \/ exists b, nd_int a i = Ok b.
  Proof. unfold nd_int. destruct (nshape a); [now left|]. destruct (_ && _); [right; eauto|now left]. Qed.

  (** rows of an optional array; an absent one sets no limit *)
  Definition rows_of (a : option (nd V)) (n : nat) : nat :=
    match a with None => n | Some a => match nshape a with [] => 0 | m :: _ => m end end.
  Lemma opt_int_in a n (i : nat) : i < n -> i < rows_of a n -> exists b, opt_int a (Z.of_nat i) = Ok b.
  Proof.
    intros Hn Hi. destruct a as [a|]; [|now exists None]. cbn [opt_int rows_of] in *. destruct (nshape a) as [|m rest] eqn:E; [lia|].
    destruct (nd_int_in a m rest (Z.of_nat i) E ltac:(lia)) as (b & -> & _). now eexists.
  Qed.
  Lemma opt_int_out a n (i : nat) : i < n -> rows_of a n <= i -> opt_int a (Z.of_nat i) = Err IndexError.
  Proof.
    intros Hn Hi. destruct a as [a|]; cbn [rows_of] in Hi; [|lia]. cbn [opt_int]. rewrite nd_int_out; [reflexivity|].
    intros m rest E. rewrite E in Hi. lia.
  Qed.

  Definition limit_of (d : sdata V) (n : nat) : nat := Nat.min n (Nat.min (rows_of (sd_exp d) n) (rows_of (sd_rsp d) n)).
  Section Two.
    Context (d : sdata V) (a : nd V) (n f : nat) (rest : list nat).
    Hypothesis Ha : sd_cov d = Some a.
    Hypothesis Hs : nshape a = n :: f :: rest.
    Lemma item_in (i : nat) : i < limit_of d n -> exists u, sd_item d (Z.of_nat i) = Ok u /\ sd_len u = f.
    Proof.
      intro Hi. unfold limit_of in Hi. unfold sd_item. rewrite Ha.
      destruct (nd_int_in a n (f :: rest) (Z.of_nat i) Hs ltac:(lia)) as (b & -> & Eb & _). cbn [bind].
      destruct (opt_int_in (sd_exp d) n i ltac:(lia) ltac:(lia)) as (e & ->). cbn [bind].
      destruct (opt_int_in (sd_rsp d) n i ltac:(lia) ltac:(lia)) as (y & ->). cbn [bind].
      unfold sd_init. rewrite Eb. destruct rest; eexists; split; reflexivity.
    Qed.
    Lemma item_out (i : nat) : limit_of d n <= i -> sd_item d (Z.of_nat i) = Err IndexError.
    Proof.
      intro Hi. unfold limit_of in Hi. unfold sd_item. rewrite Ha.
      destruct (Nat.lt_ge_cases i n) as [Hn|Hn].
      2:{ rewrite nd_int_out; [reflexivity|]. intros m r E. rewrite Hs in E. injection E as <- _. lia. }
      destruct (nd_int_in a n (f :: rest) (Z.of_nat i) Hs ltac:(lia)) as (b & -> & _). cbn [bind].
      destruct (Nat.lt_ge_cases i (rows_of (sd_exp d) n)) as [He|He]; [|now rewrite (opt_int_out _ n i)].
      destruct (opt_int_in (sd_exp d) n i Hn He) as (e & ->). cbn [bind]. now rewrite (opt_int_out _ n i) by lia.
    Qed.
    Lemma iter_spec fuel : forall i us e, i <= limit_of d n -> iter_from fuel d i = Some (us, e) ->
      e = None /\ List.length us = limit_of d n - i /\ forall j u, nth_error us j = Some u -> sd_item d (Z.of_nat (i + j)) = Ok u.
    Proof.
      induction fuel as [|fuel IH]; [discriminate|]. intros i us e Hi H. cbn [iter_from] in H.
      destruct (Nat.lt_ge_cases i (limit_of d n)) as [Hl|Hl].
      - destruct (item_in i Hl) as (u & Eu & _). rewrite Eu in H. destruct (iter_from fuel d (S i)) as [(us', e')|] eqn:E; [|discriminate].
        injection H as <- <-. destruct (IH (S i) us' e' Hl E) as (-> & Hlen & Hus). split; [reflexivity|]. split; [cbn [List.length]; lia|].
        intros [|j] u' Hj; cbn [nth_error] in Hj.
        + injection Hj as <-. now rewrite Nat.add_0_r.
        + rewrite <- Nat.add_succ_comm. now apply Hus.
      - rewrite (item_out i Hl) in H. injection H as <- <-. split; [reflexivity|]. split; [cbn; lia|]. intros [|j] u Hj; discriminate.
    Qed.
    Lemma iter_ends fuel : forall i, limit_of d n - i < fuel -> exists us e, iter_from fuel d i = Some (us, e).
    Proof.
      induction fuel as [|fuel IH]; [lia|]. intros i Hi. cbn [iter_from]. destruct (Nat.lt_ge_cases i (limit_of d n)) as [Hl|Hl].
      - destruct (item_in i Hl) as (u & -> & _). destruct (IH (S i) ltac:(lia)) as (us & e & ->). eauto.
      - rewrite (item_out i Hl). eauto.
    Qed.
    Lemma rev_spec : forall k, k <= limit_of d n -> exists us, rev_from d k = (rev us, None) /\ List.length us = k /\
      forall j u, nth_error us j = Some u -> sd_item d (Z.of_nat j) = Ok u.
    Proof.
      induction k as [|k IH]; intro Hk.
      - exists []. split; [reflexivity|]. split; [reflexivity|]. intros [|j] u Hj; discriminate.
      - destruct (IH ltac:(lia)) as (us & E & Hl & Hus). destruct (item_in k Hk) as (u & Eu & _). exists (us ++ [u]).
        cbn [rev_from]. rewrite Eu, E, rev_app_distr. split; [reflexivity|]. rewrite app_length. cbn [List.length]. split; [lia|].
        intros j v Hj. destruct (Nat.lt_ge_cases j (List.length us)) as [H|H].
        + rewrite nth_error_app1 in Hj by exact H. now apply Hus.
        + rewrite nth_error_app2 in Hj by exact H. destruct (j - List.length us) as [|q] eqn:Eq; [|destruct q; discriminate].
          injection Hj as <-. replace j with k by lia. exact Eu.
    Qed.
  End Two.

  Lemma same_list (d : sdata V) us vs : List.length us = List.length vs ->
    (forall j u, nth_error us j = Some u -> sd_item d (Z.of_nat j) = Ok u) ->
    (forall j u, nth_error vs j = Some u -> sd_item d (Z.of_nat j) = Ok u) -> us = vs.
  Proof.
    intros Hl Hu Hv. apply nth_error_same. intro j. destruct (nth_error us j) as [u|] eqn:E.
    - destruct (nth_error vs j) as [v|] eqn:E'.
      + pose proof (Hu j u E) as A. rewrite (Hv j v E') in A. now injection A as ->.
      + apply nth_error_None in E'. assert (j < List.length us) by (apply nth_error_Some; congruence). lia.
    - symmetry. apply nth_error_None. apply nth_error_None in E. lia.
  Qed.

  (** a one-dimensional covariate array *)
  Lemma item_flat (d : sdata V) a n i : sd_cov d = Some a -> nshape a = [n] -> sd_item d i = Err IndexError.
  Proof.
    intros Ha Hs. unfold sd_item. rewrite Ha.
    destruct (nd_int_cases a i) as [->|(b & E)]; [reflexivity|]. rewrite E. cbn [bind].
    assert (Eb : nshape b = []). { unfold nd_int in E. rewrite Hs in E. destruct (_ && _); [|discriminate]. now injection E as <-. }
    assert (Ho : forall x : option (nd V), (exists y, opt_int x i = Ok y) \/ opt_int x i = Err IndexError).
    { intros [x|]; [|left; now exists None]. cbn [opt_int]. destruct (nd_int_cases x i) as [->|(y & ->)]; [now right|left; now eexists]. }
    destruct (Ho (sd_exp d)) as [(e & ->)| ->]; [|reflexivity]. cbn [bind].
    destruct (Ho (sd_rsp d)) as [(y & ->)| ->]; [|reflexivity]. cbn [bind]. unfold sd_init. now rewrite Eb.
  Qed.
End Seq.

Lemma skip_skip {A} (l : list A) : forall i j, skipn i (skipn j l) = skipn (j + i) l.
Proof. intros i j. revert l. induction j as [|j IH]; intros [|a l]; cbn; trivial; now destruct i. Qed.
(** the rows of an array one after the other are its entries *)
Lemma chunks {A} (w n : nat) : forall l : list A, length l = n * w -> concat (map (fun j => firstn w (skipn (j * w) l)) (seq 0 n)) = l.
Proof.
  induction n as [|n IH]; intros l Hl; [now destruct l|]. cbn [seq map concat Nat.mul skipn].
  transitivity (firstn w l ++ skipn w l); [f_equal|apply firstn_skipn].
  rewrite <- (IH (skipn w l)) at 1 by (rewrite skipn_length; cbn in Hl; lia). f_equal. rewrite <- seq_shift, map_map. apply map_ext. intro j.
  rewrite skip_skip. reflexivity.
Qed.
Lemma row_flat {V} (a b : nd V) n rest (j : nat) : nshape a = n :: rest -> nd_int a (Z.of_nat j) = Ok b ->
  nflat b = firstn (fold_right Nat.mul 1 rest) (skipn (j * fold_right Nat.mul 1 rest) (nflat a)).
Proof.
  intros Hs H. unfold nd_int in H. rewrite Hs in H. replace (Z.of_nat j <? 0)%Z with false in H by (symmetry; apply Z.ltb_ge; lia).
  destruct (_ && _); [|discriminate]. injection H as <-. cbn [nflat]. now rewrite Nat2Z.id.
Qed.
Lemma rows_flat {V} (g : sdata V -> option (nd V)) (a : nd V) n rest us : nshape a = n :: rest -> well_shaped a -> length us = n ->
  (forall j u, nth_error us j = Some u -> exists b, g u = Some b /\ nd_int a (Z.of_nat j) = Ok b) ->
  concat (map (fun u => flat_of (g u)) us) = nflat a.
Proof.
  intros Hs Hw Hl H. unfold well_shaped in Hw. rewrite Hs in Hw. cbn [fold_right] in Hw.
  rewrite <- (chunks (fold_right Nat.mul 1 rest) n (nflat a) Hw). f_equal. apply nth_error_same. intro j. rewrite !nth_error_map.
  destruct (nth_error us j) as [u|] eqn:E.
  - assert (Hj : j < n) by (rewrite <- Hl; apply nth_error_Some; congruence).
    rewrite (nth_error_nth' (seq 0 n) 0) by now rewrite seq_length. rewrite seq_nth by exact Hj. cbn [option_map Nat.add].
    destruct (H j u E) as (b & -> & Hb). cbn [flat_of]. now rewrite (row_flat a b n rest j Hs Hb).
  - apply nth_error_None in E. replace (nth_error (seq 0 n) j) with (@None nat); [reflexivity|]. symmetry. apply nth_error_None. rewrite seq_length. lia.
Qed.
Lemma item_fields {V} (d u : sdata V) i : sd_item d i = Ok u ->
  (forall a, sd_cov d = Some a -> exists b, sd_cov u = Some b /\ nd_int a i = Ok b) /\
  (forall a, sd_exp d = Some a -> exists b, sd_exp u = Some b /\ nd_int a i = Ok b) /\
  (forall a, sd_rsp d = Some a -> exists b, sd_rsp u = Some b /\ nd_int a i = Ok b).
Proof.
  intro H. unfold sd_item in H. destruct (sd_cov d) as [a|]; [|discriminate]. destruct (nd_int a i) as [c|] eqn:Ec; [|discriminate]. cbn [bind] in H.
  destruct (opt_int (sd_exp d) i) as [e|] eqn:Ee; [|discriminate]. cbn [bind] in H. destruct (opt_int (sd_rsp d) i) as [y|] eqn:Ey; [|discriminate]. cbn [bind] in H.
  assert (Hu : sd_cov u = Some c /\ sd_exp u = e /\ sd_rsp u = y).
  { unfold sd_init in H. destruct (nshape c) as [|k [|k' r]]; [discriminate|injection H as <-; auto..]. }
  destruct Hu as (-> & -> & ->). split; [|split].
  - intros a' E. injection E as <-. eauto.
  - intros a' E. rewrite E in Ee. cbn [opt_int] in Ee. destruct (nd_int a' i) as [b|]; [|discriminate]. injection Ee as <-. eauto.
  - intros a' E. rewrite E in Ey. cbn [opt_int] in Ey. destruct (nd_int a' i) as [b|]; [|discriminate]. injection Ey as <-. eauto.
Qed.
