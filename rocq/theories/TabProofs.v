(** Proofs about TabularCPD: dictionaries, counting, normalisation. *)
From Coq Require Import List Arith ZArith Bool Lia Permutation.
From Verif Require Import PyBase PyLemmas NumOps TabModel TabSpec.
Import ListNotations.
Open Scope nat_scope.

(** ** dictionaries *)
Lemma dget_dset {A} (d : dict A) k v k' :
  dget (dset d k v) k' = if key_eq k' k then Some v else dget d k'.
Proof.
  induction d as [|[a w] d IH]; simpl.
  - destruct (key_eq k' k); reflexivity.
  - destruct (key_eq k a) as [E|E]; simpl.
    + destruct (key_eq k' a) as [E'|E'], (key_eq k' k) as [E2|E2]; congruence.
    + rewrite IH. destruct (key_eq k' a) as [E'|E'], (key_eq k' k) as [E2|E2]; congruence.
Qed.
Lemma dget_dset_same {A} (d : dict A) k v : dget (dset d k v) k = Some v.
Proof. rewrite dget_dset. destruct (key_eq k k); congruence. Qed.
Lemma dget_dset_other {A} (d : dict A) k v k' : k' <> k -> dget (dset d k v) k' = dget d k'.
Proof. intros H. rewrite dget_dset. destruct (key_eq k' k); congruence. Qed.

Lemma dget_in {A} (d : dict A) k v : dget d k = Some v -> In (k, v) d.
Proof.
  induction d as [|[a w] d IH]; simpl; [discriminate|].
  destruct (key_eq k a) as [->|]; intros E; [injection E as ->; now left|right; auto].
Qed.
Lemma dget_none {A} (d : dict A) k : dget d k = None <-> ~ In k (dkeys d).
Proof.
  induction d as [|[a w] d IH]; simpl; [tauto|].
  destruct (key_eq k a) as [->|E]; [split; [discriminate|intros H; destruct H; now left]|].
  rewrite IH. split; [intros H [H'|H']; congruence|tauto].
Qed.
Lemma dkeys_dset {A} (d : dict A) k v k' : In k' (dkeys (dset d k v)) <-> k' = k \/ In k' (dkeys d).
Proof.
  induction d as [|[a w] d IH]; simpl; [intuition congruence|].
  destruct (key_eq k a) as [->|E]; simpl; [intuition congruence|].
  unfold dkeys in *. rewrite IH. tauto.
Qed.

(** ** remembered values *)
Lemma remember_in l k k' : In k' (remember l k) <-> k' = k \/ In k' l.
Proof.
  unfold remember. destruct (in_dec key_eq k l); [intuition congruence|].
  rewrite in_app_iff. simpl. intuition congruence.
Qed.
Lemma NoDup_snoc {A} (l : list A) k : NoDup l -> ~ In k l -> NoDup (l ++ [k]).
Proof.
  intros H Hk. apply (Permutation_NoDup (l := k :: l)); [apply Permutation_cons_append|].
  constructor; assumption.
Qed.
Lemma remember_nodup l k : NoDup l -> NoDup (remember l k).
Proof. unfold remember. destruct (in_dec key_eq k l); [auto|intros H; apply NoDup_snoc; auto]. Qed.
Lemma remember_all_in ks : forall l k, In k (fold_left remember ks l) <-> In k ks \/ In k l.
Proof.
  induction ks as [|a ks IH]; simpl; intros l k; [tauto|].
  rewrite IH, remember_in. intuition congruence.
Qed.
Lemma remember_all_nodup ks : forall l, NoDup l -> NoDup (fold_left remember ks l).
Proof. induction ks as [|a ks IH]; simpl; intros l H; [exact H|apply IH, remember_nodup, H]. Qed.
Lemma remember_len l k : length (remember l k) <= S (length l).
Proof. unfold remember. destruct (in_dec key_eq k l); [lia|rewrite app_length; simpl; lia]. Qed.
Lemma remember_all_len ks : forall l, length (fold_left remember ks l) <= length ks + length l.
Proof.
  induction ks as [|a ks IH]; simpl; intros l; [lia|].
  specialize (IH (remember l a)). pose proof (remember_len l a). lia.
Qed.
Lemma remember_all_known ks : forall l, (forall k, In k ks -> In k l) -> fold_left remember ks l = l.
Proof.
  induction ks as [|a ks IH]; simpl; intros l H; [reflexivity|].
  replace (remember l a) with l; [apply IH; auto|].
  unfold remember. destruct (in_dec key_eq a l) as [|Hn]; [reflexivity|destruct Hn; auto].
Qed.

(** ** counting with natural numbers *)
Definition ncell (r : dict nat) (z : key) : nat := match dget r z with Some c => c | None => 0 end.
Definition nrow (us : list (key * key)) (x : key) : dict nat :=
  fold_left (fun r u => if key_eq (fst u) x then dset r (snd u) (ncell r (snd u) + 1) else r) us [].
Lemma nrow_snoc us u x :
  nrow (us ++ [u]) x = if key_eq (fst u) x then dset (nrow us x) (snd u) (ncell (nrow us x) (snd u) + 1) else nrow us x.
Proof. unfold nrow. rewrite fold_left_app. reflexivity. Qed.

Lemma count_occ_snoc {A} (dec : forall a b : A, {a = b} + {a <> b}) l a b :
  count_occ dec (l ++ [a]) b = count_occ dec l b + (if dec a b then 1 else 0).
Proof. rewrite count_occ_app. simpl. destruct (dec a b); lia. Qed.

Lemma nrow_cell us x z : ncell (nrow us x) z = count_occ pair_eq us (x, z).
Proof.
  revert z. induction us as [|[a b] us IH] using rev_ind; intros z; [reflexivity|].
  rewrite nrow_snoc, count_occ_snoc. simpl fst. simpl snd.
  destruct (key_eq a x) as [->|E].
  - unfold ncell at 1. rewrite dget_dset. destruct (key_eq z b) as [->|E'].
    + rewrite IH. destruct (pair_eq (x, b) (x, b)); [reflexivity|congruence].
    + fold (ncell (nrow us x) z). rewrite IH. destruct (pair_eq (x, b) (x, z)); [congruence|lia].
  - rewrite IH. destruct (pair_eq (a, b) (x, z)); [congruence|lia].
Qed.

Definition nsum (r : dict nat) : nat := fold_right Nat.add 0 (map snd r).
Lemma nsum_dset r z : nsum (dset r z (ncell r z + 1)) = nsum r + 1.
Proof.
  unfold nsum, ncell. induction r as [|[a c] r IH]; simpl; [reflexivity|].
  destruct (key_eq z a) as [->|E]; simpl; lia.
Qed.
Lemma nrow_sum us x : nsum (nrow us x) = count_occ key_eq (map fst us) x.
Proof.
  induction us as [|[a b] us IH] using rev_ind; [reflexivity|].
  rewrite nrow_snoc, map_app. simpl map. rewrite count_occ_snoc. simpl fst. simpl snd.
  destruct (key_eq a x); [rewrite nsum_dset|]; lia.
Qed.
Lemma nrow_empty us x : ~ In x (map fst us) -> nrow us x = [].
Proof.
  induction us as [|[a b] us IH] using rev_ind; [reflexivity|].
  rewrite map_app, in_app_iff. simpl. intros H. rewrite nrow_snoc. simpl.
  destruct (key_eq a x); [tauto|apply IH; tauto].
Qed.

(** the units of an x are those with some remembered z *)
Lemma sum_plus {A} (f g : A -> nat) l :
  fold_right Nat.add 0 (map (fun z => f z + g z) l) = fold_right Nat.add 0 (map f l) + fold_right Nat.add 0 (map g l).
Proof. induction l; simpl; lia. Qed.
Lemma sum_zero {A} (f : A -> nat) l : (forall z, In z l -> f z = 0) -> fold_right Nat.add 0 (map f l) = 0.
Proof. induction l as [|a l IH]; simpl; intros H; [reflexivity|]. rewrite (H a), IH; auto. Qed.
Lemma sum_one x b zv : NoDup zv -> In b zv ->
  fold_right Nat.add 0 (map (fun z => if pair_eq (x, b) (x, z) then 1 else 0) zv) = 1.
Proof.
  induction zv as [|c zv IH]; intros Hd Hb; [destruct Hb|]. inversion Hd as [|? ? Hc Hd']; subst. cbn [map fold_right].
  destruct (pair_eq (x, b) (x, c)) as [E|E].
  - injection E as ->. rewrite sum_zero; [reflexivity|].
    intros z Hz. destruct (pair_eq (x, c) (x, z)) as [E|]; [|reflexivity]. injection E as ->. contradiction.
  - destruct Hb as [->|Hb]; [congruence|]. rewrite IH by assumption. reflexivity.
Qed.
Lemma count_cons {A} (dec : forall a b : A, {a = b} + {a <> b}) a l b :
  count_occ dec (a :: l) b = (if dec a b then 1 else 0) + count_occ dec l b.
Proof. cbn. destruct (dec a b); reflexivity. Qed.
Lemma count_split us x zv : NoDup zv -> (forall u, In u us -> In (snd u) zv) ->
  fold_right Nat.add 0 (map (fun z => count_occ pair_eq us (x, z)) zv) = count_occ key_eq (map fst us) x.
Proof.
  intros Hd. induction us as [|[a b] us IH]; intros H; [now apply sum_zero|].
  rewrite (map_ext _ _ (fun z => count_cons pair_eq (a, b) us (x, z))), sum_plus.
  rewrite IH by (intros u Hu; apply H; now right).
  change (map fst ((a, b) :: us)) with (a :: map fst us). rewrite (count_cons key_eq). f_equal.
  destruct (key_eq a x) as [->|E].
  - apply sum_one; [exact Hd|]. apply (H (x, b)). now left.
  - apply sum_zero. intros z _. destruct (pair_eq (a, b) (x, z)); congruence.
Qed.

Lemma fold_ext {A C} (f g : A -> C -> A) l : (forall a c, f a c = g a c) -> forall i, fold_left f l i = fold_left g l i.
Proof. intros H. induction l as [|c l IH]; intros i; [reflexivity|]. cbn [fold_left]. rewrite H. apply IH. Qed.

(** ** the model's counting *)
Section Gen.
  Context {N : Type} (o : numops N) (B : nat) (ex : exact_upto o B).

  Definition emb (r : dict nat) : dict N := map (fun p => (fst p, nnat o (snd p))) r.
  Lemma dget_emb r k : dget (emb r) k = option_map (nnat o) (dget r k).
  Proof. induction r as [|[a c] r IH]; simpl; [reflexivity|]. destruct (key_eq k a); auto. Qed.
  Lemma dset_emb r k c : dset (emb r) k (nnat o c) = emb (dset r k c).
  Proof. induction r as [|[a d] r IH]; simpl; [reflexivity|]. destruct (key_eq k a); simpl; [reflexivity|]. now rewrite <- IH. Qed.
  Lemma cell_emb r k : cell o (emb r) k = nnat o (ncell r k).
  Proof. unfold cell, ncell. rewrite dget_emb. destruct (dget r k); reflexivity. Qed.
  Lemma row_of_dset (t : dict (dict N)) x r x' : row_of (dset t x r) x' = if key_eq x' x then r else row_of t x'.
  Proof. unfold row_of. rewrite dget_dset. destruct (key_eq x' x); reflexivity. Qed.
  Lemma cell_dset (r : dict N) z v z' : cell o (dset r z v) z' = if key_eq z' z then v else cell o r z'.
  Proof. unfold cell. rewrite dget_dset. destruct (key_eq z' z); reflexivity. Qed.

  Lemma counts us : length us <= B ->
    forall x, row_of (fold_left (count_unit o) us []) x = emb (nrow us x).
  Proof.
    induction us as [|[a b] us IH] using rev_ind; intros Hl x; [reflexivity|].
    rewrite app_length in Hl. simpl in Hl. specialize (IH ltac:(lia)).
    rewrite fold_left_app. cbn [fold_left]. unfold count_unit. simpl fst. simpl snd.
    rewrite row_of_dset, nrow_snoc. simpl fst. simpl snd.
    destruct (key_eq x a) as [->|E].
    - destruct (key_eq a a); [|congruence]. rewrite IH, cell_emb.
      change (nint o 1) with (nnat o 1).
      rewrite (e_add o B ex); [apply dset_emb|].
      rewrite nrow_cell. pose proof (count_occ_bound pair_eq (a, b) us). lia.
    - rewrite IH. destruct (key_eq a x); [congruence|reflexivity].
  Qed.

  Lemma fold_emb l : forall a, a + fold_right Nat.add 0 l <= B ->
    fold_left (nadd o) (map (nnat o) l) (nnat o a) = nnat o (a + fold_right Nat.add 0 l).
  Proof.
    induction l as [|c l IH]; simpl; intros a H; [f_equal; lia|].
    rewrite (e_add o B ex) by lia. rewrite IH by lia. f_equal. lia.
  Qed.
  Lemma row_sum_emb r : nsum r <= B -> row_sum o (emb r) = nnat o (nsum r).
  Proof.
    intros H. unfold row_sum, emb. rewrite map_map. cbn [snd].
    rewrite <- (map_map snd (nnat o)). change (nint o 0) with (nnat o 0).
    rewrite fold_emb; [reflexivity|exact H].
  Qed.

  (** ** one row *)
  Definition final (m : N) (v : key -> N) (zv : list key) : N :=
    fold_left (fun tot z =>
      if too_low o m (v z) then nadd o tot (nsub o m (v z))
      else if too_high o m (v z) then nadd o tot (nsub o (v z) (nsub o (nint o 1) m)) else tot) zv (nint o 0).
  Definition keep (m : N) (v : key -> N) (zv : list key) : list key :=
    filter (fun z => negb (violates o m (v z))) zv.
  Definition share (m : N) (v : key -> N) (zv : list key) : N :=
    ndiv o (final m v zv) (nnat o (length (keep m v zv))).
  Definition clip (m v : N) : N :=
    if too_low o m v then m else if too_high o m v then nsub o (nint o 1) m else v.
  Definition smoothed (m : N) (v : key -> N) (zv : list key) (z : key) : N :=
    if violates o m (v z) then clip m (v z) else nsub o (v z) (share m v zv).

  Lemma smoothed_ext m v v' zv z : (forall z, v z = v' z) -> smoothed m v zv z = smoothed m v' zv z.
  Proof.
    intros H. unfold smoothed, share. rewrite H.
    replace (keep m v' zv) with (keep m v zv) by (apply filter_ext; intros q; now rewrite H).
    replace (final m v' zv) with (final m v zv); [reflexivity|].
    unfold final. apply fold_ext. intros a q. now rewrite H.
  Qed.
  Lemma norm_cells_ok m s (Hs : neqb o s (nint o 0) = false) (v : key -> N) zs : forall row nv tot,
    NoDup zs -> (forall z, In z zs -> ndiv o (cell o row z) s = v z) ->
    exists row', norm_cells o m s zs row nv tot
      = (row', Ok (nv ++ keep m v zs,
           fold_left (fun tot z =>
             if too_low o m (v z) then nadd o tot (nsub o m (v z))
             else if too_high o m (v z) then nadd o tot (nsub o (v z) (nsub o (nint o 1) m)) else tot) zs tot))
    /\ forall z, cell o row' z = if in_dec key_eq z zs then clip m (v z) else cell o row z.
  Proof.
    induction zs as [|z zs IH]; intros row nv tot Hd Hv.
    - exists row. simpl. rewrite app_nil_r. split; auto.
    - inversion Hd as [|? ? Hnz Hd']; subst. cbn [norm_cells].
      unfold py_div. rewrite Hs, (Hv z (or_introl eq_refl)).
      assert (Hrest : forall w, forall z', In z' zs -> ndiv o (cell o (dset row z w) z') s = v z').
      { intros w z' Hz'. rewrite cell_dset. destruct (key_eq z' z); [congruence|apply Hv; now right]. }
      assert (Hfin : forall w row', w = clip m (v z) ->
        (forall z', cell o row' z' = if in_dec key_eq z' zs then clip m (v z') else cell o (dset row z w) z') ->
        forall z', cell o row' z' = if in_dec key_eq z' (z :: zs) then clip m (v z') else cell o row z').
      { intros w row' Hw H z'. rewrite H, cell_dset.
        destruct (in_dec key_eq z' zs) as [Hi|Hi], (in_dec key_eq z' (z :: zs)) as [Hj|Hj]; try reflexivity.
        - destruct Hj. now right.
        - destruct Hj as [->|Hj]; [|contradiction]. destruct (key_eq z' z'); [exact Hw|congruence].
        - destruct (key_eq z' z) as [->|]; [destruct Hj; now left|reflexivity]. }
      assert (Hkeep : keep m v (z :: zs) = (if violates o m (v z) then [] else [z]) ++ keep m v zs).
      { unfold keep. simpl. destruct (violates o m (v z)); reflexivity. }
      rewrite Hkeep. cbn [fold_left].
      destruct (nltb o (v z) m) eqn:E1.
      + destruct (IH _ nv (nadd o tot (nsub o m (v z))) Hd' (Hrest m)) as (row' & He & Hc).
        exists row'. rewrite He. unfold violates, too_low. rewrite E1. simpl. split; [reflexivity|].
        apply (Hfin m); [|exact Hc]. unfold clip, too_low. now rewrite E1.
      + cbv zeta. destruct (nltb o (nsub o (nint o 1) m) (v z)) eqn:E2.
        * destruct (IH _ nv (nadd o tot (nsub o (v z) (nsub o (nint o 1) m))) Hd' (Hrest (nsub o (nint o 1) m))) as (row' & He & Hc).
          exists row'. rewrite He. unfold violates, too_high, too_low. rewrite E1, E2. simpl. split; [reflexivity|].
          apply (Hfin (nsub o (nint o 1) m)); [|exact Hc]. unfold clip, too_high, too_low. now rewrite E1, E2.
        * destruct (IH _ (nv ++ [z]) tot Hd' (Hrest (v z))) as (row' & He & Hc).
          exists row'. rewrite He. unfold violates, too_high, too_low. rewrite E1, E2. simpl.
          rewrite <- app_assoc. simpl. split; [reflexivity|].
          apply (Hfin (v z)); [|exact Hc]. unfold clip, too_high, too_low. now rewrite E1, E2.
  Qed.

  Lemma adjust_cells c nv : forall row, NoDup nv ->
    forall z, cell o (fold_left (fun r z => dset r z (nsub o (cell o r z) c)) nv row) z
      = if in_dec key_eq z nv then nsub o (cell o row z) c else cell o row z.
  Proof.
    induction nv as [|a nv IH]; intros row Hd z; [reflexivity|].
    inversion Hd; subst. cbn [fold_left]. rewrite IH by assumption. rewrite !cell_dset.
    destruct (in_dec key_eq z nv) as [Hi|Hi], (in_dec key_eq z (a :: nv)) as [Hj|Hj]; destruct (key_eq z a) as [->|E]; simpl in *; try tauto; try reflexivity.
    intuition congruence.
  Qed.

  Lemma keep_in m v zv z : In z (keep m v zv) <-> In z zv /\ violates o m (v z) = false.
  Proof. unfold keep. rewrite filter_In, negb_true_iff. tauto. Qed.

  Lemma row_ok m s (Hs : neqb o s (nint o 0) = false) (v : key -> N) zs row :
    NoDup zs -> (forall z, In z zs -> ndiv o (cell o row z) s = v z) ->
    exists row' nv tot, norm_cells o m s zs row [] (nint o 0) = (row', Ok (nv, tot))
    /\ forall z, cell o (adjust o row' nv tot) z = if in_dec key_eq z zs then smoothed m v zs z else cell o row z.
  Proof.
    intros Hd Hv. destruct (norm_cells_ok m s Hs v zs row [] (nint o 0) Hd Hv) as (row' & He & Hc).
    exists row'. do 2 eexists. split; [exact He|]. intros z. unfold adjust.
    rewrite adjust_cells by (apply NoDup_filter; exact Hd). simpl app. rewrite Hc.
    fold (final m v zs). fold (share m v zs).
    destruct (in_dec key_eq z (keep m v zs)) as [Hi|Hi].
    - apply keep_in in Hi as [Hi Hn]. destruct (in_dec key_eq z zs); [|contradiction].
      unfold smoothed. rewrite Hn. f_equal. unfold clip. unfold violates in Hn. apply orb_false_iff in Hn as [-> ->]. reflexivity.
    - destruct (in_dec key_eq z zs) as [Hj|Hj]; [|reflexivity].
      unfold smoothed. destruct (violates o m (v z)) eqn:Ev; [reflexivity|].
      destruct Hi. apply keep_in. auto.
  Qed.

  (** ** all rows *)
  Lemma norm_row_frame m t x t' e : norm_row o t m x = (t', e) ->
    t_units t' = t_units t /\ t_xs t' = t_xs t /\ t_zs t' = t_zs t /\ t_ratio t' = t_ratio t /\ t_min t' = t_min t
    /\ (forall x', x' <> x -> row_of (t_table t') x' = row_of (t_table t) x')
    /\ (forall x', x' <> x -> dget (t_xmarg t') x' = dget (t_xmarg t) x').
  Proof.
    unfold norm_row. intros H.
    assert (Hr : forall r x', x' <> x -> row_of (dset (t_table t) x r) x' = row_of (t_table t) x')
      by (intros r x' Hn; rewrite row_of_dset; destruct (key_eq x' x); congruence).
    destruct (py_div o _ _) as [p|e1].
    - destruct (norm_cells _ _ _ _ _ _ _) as [row' [[nv tot]|e2]]; injection H as <- <-; cbn; repeat split; auto;
        intros x' Hn; now apply dget_dset_other.
    - injection H as <- <-; cbn; repeat split; auto.
  Qed.

  Lemma norm_rows_ok m c xv : forall t,
    NoDup xv -> NoDup (t_zs t) -> 1 <= t_units t -> t_units t <= B ->
    (forall x, In x xv -> row_of (t_table t) x = emb (c x)) ->
    (forall x, In x xv -> 1 <= nsum (c x) /\ nsum (c x) <= B) ->
    exists t', norm_rows o t m xv = (t', None)
      /\ t_units t' = t_units t /\ t_xs t' = t_xs t /\ t_zs t' = t_zs t /\ t_ratio t' = t_ratio t /\ t_min t' = t_min t
      /\ (forall x, In x xv ->
            (forall z, cell o (row_of (t_table t') x) z
               = if in_dec key_eq z (t_zs t)
                 then smoothed m (fun z => ndiv o (nnat o (ncell (c x) z)) (nnat o (nsum (c x)))) (t_zs t) z
                 else nnat o (ncell (c x) z))
            /\ dget (t_xmarg t') x = Some (ndiv o (nnat o (nsum (c x))) (nnat o (t_units t))))
      /\ (forall x, ~ In x xv -> row_of (t_table t') x = row_of (t_table t) x)
      /\ (forall x, ~ In x xv -> dget (t_xmarg t') x = dget (t_xmarg t) x).
  Proof.
    induction xv as [|x xv IH]; intros t Hd Hz Hu Hu' Hr Hb.
    - exists t. cbn [norm_rows]. repeat split; auto; contradiction.
    - inversion Hd as [|? ? Hx Hd']; subst.
      destruct (Hb x (or_introl eq_refl)) as [Hb1 Hb2].
      cbn [norm_rows]. destruct (norm_row o t m x) as [t1 e1] eqn:E1.
      destruct (norm_row_frame _ _ _ _ _ E1) as (F1 & F2 & F3 & F4 & F5 & F6 & F7).
      unfold norm_row in E1. rewrite (Hr x (or_introl eq_refl)) in E1.
      rewrite row_sum_emb in E1 by exact Hb2.
      unfold py_div in E1. rewrite (e_pos o B ex) in E1 by assumption.
      set (v := fun z => ndiv o (nnat o (ncell (c x) z)) (nnat o (nsum (c x)))).
      destruct (row_ok m (nnat o (nsum (c x))) (e_pos o B ex _ Hb1 Hb2) v (t_zs t) (emb (c x)) Hz) as (row' & nv & tot & Ec & Hc).
      { intros z _. unfold v. now rewrite cell_emb. }
      rewrite Ec in E1. injection E1 as <- <-. cbn in F1, F2, F3, F4, F5.
      match goal with |- exists t', norm_rows o ?t2 m xv = _ /\ _ => set (t1 := t2) in * end.
      destruct (IH t1) as (t' & He & G1 & G2 & G3 & G4 & G5 & G6 & G7 & G8); auto.
      { intros x' Hx'. rewrite F6 by (intros ->; contradiction). apply Hr. now right. }
      { intros x' Hx'. apply Hb. now right. }
      exists t'. split; [exact He|]. change (t_units t1) with (t_units t) in *. change (t_zs t1) with (t_zs t) in *.
      repeat split; auto.
      + intros z. destruct H as [<-|H].
        * rewrite G7 by exact Hx. unfold t1. cbn [t_table]. rewrite row_of_dset. destruct (key_eq x x); [|congruence].
          rewrite Hc. rewrite cell_emb. reflexivity.
        * apply (proj1 (G6 _ H)).
      + destruct H as [<-|H].
        * rewrite G8 by exact Hx. unfold t1. cbn [t_xmarg]. apply dget_dset_same.
        * apply (proj2 (G6 _ H)).
      + intros x' Hn. rewrite G7 by (intros Hi; apply Hn; now right). apply F6. intros ->. apply Hn. now left.
      + intros x' Hn. rewrite G8 by (intros Hi; apply Hn; now right). apply F7. intros ->. apply Hn. now left.
  Qed.

  (** an x without units in the new data makes the loop raise *)
  Lemma norm_row_err m t x t' e : norm_row o t m x = (t', Some e) -> e = ZeroDivisionError.
  Proof.
    unfold norm_row. unfold py_div at 1. destruct (neqb o (nnat o (t_units t)) (nint o 0)).
    - intros H. injection H as _ <-. reflexivity.
    - assert (Hc : forall zs row nv tot row' e', norm_cells o m (row_sum o (row_of (t_table t) x)) zs row nv tot = (row', Err e') -> e' = ZeroDivisionError).
      { induction zs as [|z zs IHz]; intros row nv tot row' e'; cbn [norm_cells]; [discriminate|].
        unfold py_div. destruct (neqb o _ _); [intros H; injection H as _ <-; reflexivity|].
        cbv zeta. destruct (nltb o _ _); [apply IHz|]. destruct (nltb o _ _); apply IHz. }
      destruct (norm_cells _ _ _ _ _ _ _) as [row' [[nv tot]|e2]] eqn:E; intros H; [discriminate|].
      injection H as _ <-. eapply Hc, E.
  Qed.
  Lemma norm_rows_zero m x xv : forall t, In x xv -> row_of (t_table t) x = [] -> t_zs t <> [] ->
    exists t', norm_rows o t m xv = (t', Some ZeroDivisionError).
  Proof.
    induction xv as [|a xv IH]; intros t Hi Hr Hz; [destruct Hi|].
    cbn [norm_rows]. destruct (norm_row o t m a) as [t1 [e|]] eqn:E1.
    - rewrite (norm_row_err _ _ _ _ _ E1). eauto.
    - destruct (norm_row_frame _ _ _ _ _ E1) as (_ & _ & F3 & _ & _ & F6 & _).
      destruct (key_eq a x) as [->|Hn].
      + exfalso. unfold norm_row in E1. rewrite Hr in E1. unfold py_div in E1.
        destruct (neqb o (nnat o (t_units t)) (nint o 0)); [discriminate|].
        destruct (t_zs t) as [|z zs]; [congruence|]. cbn [norm_cells] in E1. unfold py_div in E1.
        change (row_sum o []) with (nnat o 0) in E1. rewrite (e_zero o B ex) in E1. discriminate.
      + apply IH; [destruct Hi; congruence|rewrite F6; congruence|congruence].
  Qed.

  (** ** fit *)
  Lemma combine_fst (xs zs : list key) : length xs = length zs -> map fst (combine xs zs) = xs.
  Proof. revert zs. induction xs as [|a xs IH]; intros [|b zs]; simpl; intros H; try discriminate; [reflexivity|]. f_equal. apply IH. lia. Qed.

  Lemma fit_ok t xs zs m : length xs = length zs -> length xs <= B ->
    NoDup (t_xs t) -> NoDup (t_zs t) -> (forall x, In x (t_xs t) -> In x xs) ->
    min_prob o (length (fold_left remember zs (t_zs t))) (t_ratio t) = Ok m ->
    exists t', tab_fit o t xs zs = (t', None)
      /\ t_xs t' = fold_left remember xs (t_xs t) /\ t_zs t' = fold_left remember zs (t_zs t)
      /\ t_ratio t' = t_ratio t /\ t_min t' = Some m /\ t_units t' = length xs
      /\ (forall x, In x xs ->
            (forall z, cell o (row_of (t_table t') x) z
               = if in_dec key_eq z (t_zs t') then smoothed m (freq o xs zs x) (t_zs t') z else nnat o 0)
            /\ dget (t_xmarg t') x = Some (ndiv o (nnat o (n_x xs x)) (nnat o (length xs))))
      /\ (forall x, ~ In x xs -> row_of (t_table t') x = [] /\ dget (t_xmarg t') x = None).
  Proof.
    intros Hl HB Hdx Hdz Hold Hm. unfold tab_fit.
    rewrite (proj2 (Nat.eqb_eq _ _) Hl). cbn [negb]. cbv zeta. cbn [t_zs]. rewrite Hm. cbn [t_xs t_units t_table t_xmarg t_zs t_ratio].
    set (us := combine xs zs). assert (Hlu : length us <= B) by (unfold us; rewrite combine_length; lia).
    assert (Hfst : map fst us = xs) by (apply combine_fst; exact Hl).
    assert (Hxin : forall x, In x (fold_left remember xs (t_xs t)) -> In x xs).
    { intros x Hx. apply remember_all_in in Hx as [?|?]; auto. }
    assert (Hzk : forall x z, ~ In z (fold_left remember zs (t_zs t)) -> count_occ pair_eq us (x, z) = 0).
    { intros x z Hz. apply count_occ_not_In. intros Hi. apply Hz, remember_all_in. left. eapply in_combine_r, Hi. }
    destruct (Nat.eq_dec (length xs) 0) as [Exs|Exs].
    - destruct xs; [clear Exs|discriminate]. destruct (t_xs t) as [|y ys]; [|destruct (Hold y (or_introl eq_refl))].
      cbn [fold_left norm_rows]. eexists. split; [reflexivity|]. cbn. repeat split; auto; contradiction.
    - match goal with |- exists t', norm_rows o ?t2 m ?xv = _ /\ _ => set (t2' := t2) in *; set (xv' := xv) in * end.
      destruct (norm_rows_ok m (nrow us) xv' t2') as (t' & He & G1 & G2 & G3 & G4 & G5 & G6 & G7 & G8).
      + apply remember_all_nodup, Hdx.
      + apply remember_all_nodup, Hdz.
      + cbn. lia.
      + exact HB.
      + intros x _. apply counts, Hlu.
      + intros x Hx. rewrite nrow_sum, Hfst. split.
        * apply (count_occ_In key_eq), Hxin, Hx.
        * pose proof (count_occ_bound key_eq x xs). lia.
      + exists t'. rewrite He. repeat split; auto.
        * intros z. rewrite G3. destruct (G6 x) as [Gc _]; [apply remember_all_in; now left|].
          rewrite Gc. change (t_zs t2') with (fold_left remember zs (t_zs t)).
          destruct (in_dec key_eq z _) as [Hi|Hi].
          -- apply smoothed_ext. intros z'. unfold freq, n_xz, n_x. fold us. now rewrite nrow_cell, nrow_sum, Hfst.
          -- f_equal. rewrite nrow_cell. apply Hzk, Hi.
        * destruct (G6 x) as [_ Gm]; [apply remember_all_in; now left|].
          rewrite Gm, nrow_sum, Hfst. reflexivity.
        * rewrite G7 by (intros Hi; apply H, Hxin, Hi). change (t_table t2') with (fold_left (count_unit o) us []).
          rewrite counts by exact Hlu. rewrite nrow_empty by (now rewrite Hfst). reflexivity.
        * rewrite G8 by (intros Hi; apply H, Hxin, Hi). reflexivity.
  Qed.

  Lemma min_prob_err k r e : min_prob o k r = Err e -> e = ZeroDivisionError.
  Proof.
    unfold min_prob, py_div. destruct (neqb o (nnat o k) (nint o 0)); simpl; [congruence|].
    destruct (neqb o r (nint o 0)); simpl; congruence.
  Qed.

  Lemma fit_missing t xs zs x : length xs = length zs -> length xs <= B ->
    In x (t_xs t) -> ~ In x xs -> exists t', tab_fit o t xs zs = (t', Some ZeroDivisionError).
  Proof.
    intros Hl HB Hx Hn. unfold tab_fit. rewrite (proj2 (Nat.eqb_eq _ _) Hl). cbn [negb]. cbv zeta. cbn [t_zs].
    destruct (min_prob o _ _) as [m|e] eqn:Em; [|rewrite (min_prob_err _ _ _ Em); eauto].
    cbn [t_xs t_units t_table t_xmarg t_zs t_ratio]. apply (norm_rows_zero m x).
    - apply remember_all_in. now right.
    - cbn [t_table]. rewrite counts by (rewrite combine_length; lia).
      rewrite nrow_empty; [reflexivity|]. rewrite combine_fst by exact Hl. exact Hn.
    - cbn [t_zs]. intros E. rewrite E in Em. unfold min_prob, py_div in Em. simpl length in Em.
      rewrite (e_zero o B ex) in Em. discriminate.
  Qed.
End Gen.
