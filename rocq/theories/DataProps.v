(** Property theorems C01-C12 (data containers). *)
From Coq Require Import List Arith ZArith Lia Bool Permutation.
From Verif Require Import PyBase PyLemmas Num NumLemmas DataModel DataSpec DataProofs DataProofs2.
Import ListNotations.

(** a concrete dataset: 5 units, 2 features, exposure and response; and one without response *)
Definition ex_d : expdata nat :=
  ed_init (Some (mkArr [2] [[1;2];[3;4];[5;6];[7;8];[9;10]]))
          (Some (mkArr [] [[0];[1];[0];[1];[1]]))
          (Some (mkArr [] [[50];[51];[52];[53];[54]])).
Definition ex_d0 : expdata nat :=
  ed_init (Some (mkArr [2] [[1;2];[3;4];[5;6]])) (Some (mkArr [] [[0];[1];[0]])) None.
Definition ex_v : expdata nat :=
  ed_init (Some (mkArr [] [[1];[2];[3]])) (Some (mkArr [] [[0];[1];[0]])) None.

Example ex_d_aligned : aligned ex_d.
Proof. eexists; repeat split. Qed.
Example ex_d0_aligned : aligned ex_d0.
Proof. eexists; repeat split. Qed.
Example ex_v_aligned : aligned ex_v.
Proof. eexists; repeat split. Qed.
Example ex_d_matrix : matrix 2 ex_d.
Proof. eexists; repeat split; repeat constructor. Qed.
Example ex_v_vector : vector ex_v.
Proof. eexists; repeat split; repeat constructor. Qed.
Example ex_rev_perm : forall l : list nat, Permutation (rev l) l.
Proof. intros. symmetry. apply Permutation_rev. Qed.

(** C01: k_fold returns k datasets that partition the units, rows kept aligned and in order. *)
Theorem C01_k_fold_partition : forall (V : Type) (perm : list nat -> list nat) (d : expdata V) (k : Z),
  aligned d -> (forall l, Permutation (perm l) l) -> (1 <= k)%Z ->
  exists folds, k_fold perm d k = Ok folds /\ length folds = Z.to_nat k /\
    Forall (fun f => aligned f /\ same_shape d f) folds /\
    Permutation (concat (map units folds)) (units d) /\
    exists assign : nat -> nat,
      (forall j, j < n_units d -> assign j < Z.to_nat k) /\
      (forall i f, nth_error folds i = Some f ->
         units f = map (unit_of d) (filter (fun j => assign j =? i) (seq 0 (n_units d)))).
Proof. exact @k_fold_partition_l. Qed.
Print Assumptions C01_k_fold_partition.

Example C01_case : exists f1 f2, k_fold (@rev nat) ex_d 2 = Ok [f1; f2] /\
  dcov f1 = Some (mkArr [2] [[1;2];[5;6];[9;10]]) /\ drsp f2 = Some (mkArr [] [[51];[53]]).
Proof. vm_compute. do 2 eexists. repeat split. Qed.

(** C02: fold sizes are the residue-class counts, hence differ by at most one. *)
Theorem C02_k_fold_sizes : forall (V : Type) (perm : list nat -> list nat) (d : expdata V) (k : Z) folds,
  aligned d -> (forall l, Permutation (perm l) l) -> k_fold perm d k = Ok folds ->
  (forall i f, nth_error folds i = Some f ->
     n_units f = length (filter (fun j => j mod Z.to_nat k =? i) (seq 0 (n_units d))) /\
     n_units f = n_units d / Z.to_nat k + (if i <? n_units d mod Z.to_nat k then 1 else 0)) /\
  (forall f g, In f folds -> In g folds -> n_units f <= S (n_units g)).
Proof. exact @k_fold_sizes_l. Qed.
Print Assumptions C02_k_fold_sizes.

Example C02_case : exists folds, k_fold (@rev nat) ex_d 3 = Ok folds /\ map n_units folds = [2;2;1].
Proof. vm_compute. eexists. split; reflexivity. Qed.

(** C03: the exact error behaviour of k_fold; the four cases are exhaustive. *)
Theorem C03_k_fold_errors : forall (V : Type) (perm : list nat -> list nat) (d : expdata V) (k : Z),
  (forall l, length (perm l) = length l) ->
  ((k < 1)%Z -> k_fold perm d k = Err ValueError) /\
  ((1 <= k)%Z -> dcov d = None -> k_fold perm d k = Err TypeError) /\
  ((1 <= k)%Z -> dcov d <> None ->
     ~ (present_len (dcov d) (n_units d) /\ present_len (dexp d) (n_units d) /\
        present_len (drsp d) (n_units d)) ->
     k_fold perm d k = Err IndexError) /\
  ((1 <= k)%Z -> dcov d <> None -> present_len (dcov d) (n_units d) ->
     present_len (dexp d) (n_units d) -> present_len (drsp d) (n_units d) ->
     exists folds, k_fold perm d k = Ok folds).
Proof. exact @k_fold_errors_l. Qed.
Print Assumptions C03_k_fold_errors.

Example C03_case :
  k_fold (fun l => l) ex_d 0 = Err ValueError /\
  k_fold (fun l => l) (ed_init (V := nat) None None None) 2 = Err TypeError /\
  k_fold (fun l => l) (ed_init (dcov ex_d) (dexp ex_d0) None) 2 = Err IndexError.
Proof. repeat split. Qed.

(** C04: subsample splits the units in two by the drawn mask; ValueError exactly when p is not
    in [0,1] (this includes NaN, for which both comparisons are false). *)
Theorem C04_subsample : forall (V : Type) (draw : nat -> list F) (d : expdata V) (p : F),
  (fleb f0 p && fleb p (f_of_Z 1) = false -> subsample draw d p = Err ValueError) /\
  (aligned d -> (forall n, length (draw n) = n) -> fleb f0 p && fleb p (f_of_Z 1) = true ->
   exists a b, subsample draw d p = Ok (a, b) /\ aligned a /\ aligned b /\
      same_shape d a /\ same_shape d b /\
      exists inn : nat -> bool,
        units a = map (unit_of d) (filter inn (seq 0 (n_units d))) /\
        units b = map (unit_of d) (filter (fun j => negb (inn j)) (seq 0 (n_units d))) /\
        forall j u, nth_error (draw (n_units d)) j = Some u ->
          inn j = fltb u (fdiv p (fadd p (fsub (f_of_Z 1) p)))).
Proof.
  exact (fun V draw d p => conj (@subsample_errors_l V draw d p) (@subsample_ok_l V draw d p)).
Qed.
Print Assumptions C04_subsample.

Theorem C04_subsample_nan : forall (V : Type) (draw : nat -> list F) (d : expdata V),
  subsample draw d fnan = Err ValueError.
Proof. exact (fun V draw d => @subsample_errors_l V draw d fnan eq_refl). Qed.
Print Assumptions C04_subsample_nan.

(** C04: p = 1 puts every unit in the first part and p = 0 every unit in the second. *)
Theorem C04_subsample_extremes : forall (V : Type) (draw : nat -> list F) (d : expdata V),
  aligned d -> (forall n, length (draw n) = n) ->
  (forall n u, In u (draw n) -> fleb f0 u = true /\ fltb u (f_of_Z 1) = true) ->
  (exists a b, subsample draw d (f_of_Z 1) = Ok (a, b) /\ units a = units d /\ units b = []) /\
  (exists a b, subsample draw d f0 = Ok (a, b) /\ units a = [] /\ units b = units d).
Proof. exact @subsample_extremes_l. Qed.
Print Assumptions C04_subsample_extremes.

Definition ex_draw (n : nat) : list F := map (fun i => flit (Z.of_nat i) 7) (seq 0 n).
Example C04_case : exists a b, subsample ex_draw ex_d (flit 1 2) = Ok (a, b) /\
  dcov a = Some (mkArr [2] [[1;2];[3;4];[5;6];[7;8]]) /\ n_units b = 1.
Proof. vm_compute. do 2 eexists. repeat split. Qed.

(** C05: a successful append concatenates field by field, keeps alignment, is associative,
    and appending batch after batch concatenates all batches. *)
Theorem C05_append_concatenates : forall (V : Type) (vnone : V) (a b r : expdata V),
  aligned a -> aligned b -> append vnone a b = (r, None) ->
  stacked (dcov a) (dcov b) (dcov r) /\ stacked (dexp a) (dexp b) (dexp r) /\
  stacked (drsp a) (drsp b) (drsp r) /\
  n_units r = n_units a + n_units b /\ n_features r = n_features a /\ aligned r.
Proof. exact @append_concat_l. Qed.
Print Assumptions C05_append_concatenates.

Theorem C05_append_associative : forall (V : Type) (vnone : V) (a b c ab bc abc : expdata V),
  append vnone a b = (ab, None) -> append vnone ab c = (abc, None) -> append vnone b c = (bc, None) ->
  append vnone a bc = (abc, None).
Proof. exact @append_assoc_l. Qed.
Print Assumptions C05_append_associative.

Theorem C05_append_batches : forall (V : Type) (vnone : V) (bs : list (expdata V)) (d r : expdata V) c,
  aligned d -> Forall aligned bs -> append_all vnone d bs = (r, None) -> dcov d = Some c ->
  aligned r /\
  (exists c', dcov r = Some c' /\ atail c' = atail c /\
    arows c' = arows c ++ concat (map (fun b => match dcov b with Some x => arows x | None => [] end) bs)) /\
  option_map arows (dexp r) = option_map (fun x => arows x ++
    concat (map (fun b => match dexp b with Some x => arows x | None => [] end) bs)) (dexp d) /\
  option_map arows (drsp r) = option_map (fun x => arows x ++
    concat (map (fun b => match drsp b with Some x => arows x | None => [] end) bs)) (drsp d) /\
  n_units r = n_units d + list_sum (map n_units bs).
Proof. exact @append_all_units_l. Qed.
Print Assumptions C05_append_batches.

Example C05_case : exists r, append_all 0 ex_d [ex_d; ex_d] = (r, None) /\ n_units r = 15.
Proof. vm_compute. eexists. split; reflexivity. Qed.

(** C06: when append raises, which exception, and the state it leaves behind. *)
Theorem C06_append_failure : forall (V : Type) (vnone : V) (a b : expdata V),
  dcov a <> None -> dcov b <> None ->
  (snd (append vnone a b) = None <->
   n_features b = n_features a /\ stackable (dcov a) (dcov b) /\
   stackable (dexp a) (dexp b) /\ stackable (drsp a) (drsp b)) /\
  (snd (append vnone a b) <> None -> snd (append vnone a b) = Some ValueError) /\
  (~ (n_features b = n_features a /\ stackable (dcov a) (dcov b)) ->
     fst (append vnone a b) = a) /\
  (n_features b = n_features a -> forall ca cb, dcov a = Some ca -> dcov b = Some cb -> atail ca = atail cb ->
     ~ stackable (dexp a) (dexp b) ->
     fst (append vnone a b) =
       mkED (Some (mkArr (atail ca) (arows ca ++ arows cb))) (dexp a) (drsp a) (n_units a) (n_features a)) /\
  (n_features b = n_features a -> forall ca cb, dcov a = Some ca -> dcov b = Some cb -> atail ca = atail cb ->
     forall x, stacked (dexp a) (dexp b) x -> ~ stackable (drsp a) (drsp b) ->
     fst (append vnone a b) =
       mkED (Some (mkArr (atail ca) (arows ca ++ arows cb))) x (drsp a) (n_units a) (n_features a)).
Proof. exact @append_raises_l. Qed.
Print Assumptions C06_append_failure.

Theorem C06_append_half_done : forall (V : Type) (vnone : V) (a b : expdata V) (perm : list nat -> list nat) (k : Z),
  aligned a -> aligned b -> 0 < n_units b ->
  (forall l, length (perm l) = length l) -> (1 <= k)%Z ->
  n_features b = n_features a -> stackable (dcov a) (dcov b) ->
  snd (append vnone a b) <> None ->
  exists c, dcov (fst (append vnone a b)) = Some c /\
    length (arows c) = n_units a + n_units b /\
    n_units (fst (append vnone a b)) = n_units a /\
    drsp (fst (append vnone a b)) = drsp a /\
    k_fold perm (fst (append vnone a b)) k = Err IndexError.
Proof. exact (fun V vnone a b perm k => @append_half_done_l V vnone a b perm k). Qed.
Print Assumptions C06_append_half_done.

Example C06_case : snd (append 0 ex_d ex_d0) = Some ValueError /\
  n_units (fst (append 0 ex_d ex_d0)) = 5 /\
  k_fold (fun l => l) (fst (append 0 ex_d ex_d0)) 2 = Err IndexError.
Proof. repeat split. Qed.

(** C07: the empty dataset is not neutral for append. *)
Theorem C07_empty_not_neutral : forall (V : Type) (vnone : V) (e y : option (arr V)) (d : expdata V),
  1 <= n_features d ->
  append vnone (ed_init None e y) d = (ed_init None e y, Some ValueError).
Proof. exact @append_empty_l. Qed.
Print Assumptions C07_empty_not_neutral.

Theorem C07_empty_twice : forall (V : Type) (vnone : V),
  let z := ed_init (V := V) None None None in
  n_units z = 0 /\ snd (append vnone z z) = None /\ n_units (fst (append vnone z z)) = 2.
Proof. exact (fun V vnone => conj eq_refl (@append_empty_twice_l V vnone)). Qed.
Print Assumptions C07_empty_twice.

Example C07_case : append 0 (ed_init None None None) ex_d = (ed_init None None None, Some ValueError).
Proof. reflexivity. Qed.

(** C08: slices with non-negative bounds are windows of positions; consecutive windows
    concatenate back to the dataset; a negative start counts from the end. *)
Theorem C08_slice_window : forall (V : Type) (d : expdata V) (a b : nat), aligned d ->
  exists s, getslice d (Some (Z.of_nat a)) (Some (Z.of_nat b)) = Ok s /\ aligned s /\ same_shape d s /\
    units s = map (unit_of d) (filter (fun j => (a <=? j) && (j <? b)) (seq 0 (n_units d))).
Proof. exact @getslice_window_l. Qed.
Print Assumptions C08_slice_window.

Theorem C08_windows_cover : forall (V : Type) (d : expdata V) (u m : nat),
  aligned d -> 1 <= u -> n_units d <= m * u ->
  exists ws,
    mapM (fun i => getslice d (Some (Z.of_nat (i * u))) (Some (Z.of_nat ((i + 1) * u)))) (seq 0 m) = Ok ws /\
    concat (map units ws) = units d.
Proof. exact @windows_cover_l. Qed.
Print Assumptions C08_windows_cover.

Theorem C08_slice_last : forall (V : Type) (d : expdata V) (u : nat), aligned d -> 1 <= u ->
  exists s, getslice d (Some (- Z.of_nat u)%Z) None = Ok s /\ aligned s /\ same_shape d s /\
    units s = map (unit_of d) (seq (n_units d - u) (Nat.min u (n_units d))).
Proof. exact @getslice_last_l. Qed.
Print Assumptions C08_slice_last.

Example C08_case : exists s, getslice ex_d (Some 3%Z) (Some 9%Z) = Ok s /\
  dcov s = Some (mkArr [2] [[7;8];[9;10]]) /\ n_units s = 2.
Proof. vm_compute. eexists. repeat split. Qed.

(** C09: the transformers on matrix covariates. *)
Theorem C09_mask_fn : forall (V : Type) (f : nat) (idx : list Z) (d : expdata V),
  aligned d -> matrix f d ->
  (Forall (in_range f) idx ->
     exists r c c', mask_fn idx d = Ok r /\ dcov d = Some c /\ dcov r = Some c' /\
       dexp r = dexp d /\ drsp r = drsp d /\ n_units r = n_units d /\ n_features r = length idx /\
       aligned r /\ matrix (length idx) r /\ Forall2 (picks f idx) (arows c) (arows c')) /\
  (~ Forall (in_range f) idx -> mask_fn idx d = Err IndexError).
Proof. exact @mask_fn_l. Qed.
Print Assumptions C09_mask_fn.

Theorem C09_remove_fn : forall (V : Type) (f : nat) (i : Z) (d : expdata V), matrix f d ->
  (in_range f i ->
     remove_fn i d =
     mask_fn (map Z.of_nat (filter (fun c => negb (c =? Z.to_nat (if (i <? 0)%Z then Z.of_nat f + i else i)))
                                   (seq 0 f))) d) /\
  (~ in_range f i -> remove_fn i d = Err IndexError).
Proof. exact @remove_fn_l. Qed.
Print Assumptions C09_remove_fn.

Theorem C09_identity_fn : forall (V : Type) (d : expdata V), identity_fn d = Ok d.
Proof. exact (fun V d => eq_refl). Qed.
Print Assumptions C09_identity_fn.

Example C09_case :
  (exists r, mask_fn [1; -2]%Z ex_d = Ok r /\ dcov r = Some (mkArr [2] [[2;1];[4;3];[6;5];[8;7];[10;9]])) /\
  mask_fn [2]%Z ex_d = Err IndexError /\
  (exists r, remove_fn 0 ex_d = Ok r /\ dcov r = Some (mkArr [1] [[2];[4];[6];[8];[10]])).
Proof. vm_compute. repeat split; eexists; repeat split. Qed.

(** C10: transforming and splitting commute. *)
Theorem C10_mask_k_fold_commute : forall (V : Type) (perm : list nat -> list nat) (f : nat) (idx : list Z)
    (d : expdata V) (k : Z),
  aligned d -> matrix f d -> (1 <= k)%Z -> Forall (in_range f) idx ->
  bind (mask_fn idx d) (fun d' => k_fold perm d' k) = bind (k_fold perm d k) (mapM (mask_fn idx)).
Proof. exact @mask_kfold_commute_l3. Qed.
Print Assumptions C10_mask_k_fold_commute.

Theorem C10_remove_k_fold_commute : forall (V : Type) (perm : list nat -> list nat) (f : nat) (i : Z)
    (d : expdata V) (k : Z),
  aligned d -> matrix f d -> (1 <= k)%Z -> in_range f i -> (forall l, Permutation (perm l) l) ->
  bind (remove_fn i d) (fun d' => k_fold perm d' k) = bind (k_fold perm d k) (mapM (remove_fn i)).
Proof. exact @remove_kfold_commute_l. Qed.
Print Assumptions C10_remove_k_fold_commute.

Theorem C10_mask_slice_commute : forall (V : Type) (f : nat) (idx : list Z) (d : expdata V) (a b : option Z),
  matrix f d -> Forall (in_range f) idx ->
  bind (mask_fn idx d) (fun d' => getslice d' a b) = bind (getslice d a b) (mask_fn idx).
Proof. exact @mask_slice_commute_l. Qed.
Print Assumptions C10_mask_slice_commute.

Example C10_case : exists l, bind (mask_fn [1]%Z ex_d) (fun d' => k_fold (@rev nat) d' 2) = Ok l /\ length l = 2.
Proof. vm_compute. eexists. split; reflexivity. Qed.

(** C11: on vector covariates the column mask selects units and misaligns the dataset. *)
Theorem C11_mask_fn_vector : forall (V : Type) (idx : list Z) (d : expdata V),
  aligned d -> vector d -> Forall (in_range (n_units d)) idx ->
  exists r c c', mask_fn idx d = Ok r /\ dcov d = Some c /\ dcov r = Some c' /\
    n_units r = length idx /\ n_features r = 1 /\ dexp r = dexp d /\ drsp r = drsp d /\
    (forall j z, nth_error idx j = Some z ->
       nth_error (arows c') j = nth_error (arows c) (Z.to_nat (if (z <? 0)%Z then Z.of_nat (n_units d) + z else z))) /\
    (dexp d <> None -> (aligned r <-> length idx = n_units d)).
Proof. exact @mask_fn_vector_l. Qed.
Print Assumptions C11_mask_fn_vector.

Theorem C11_remove_fn_vector : forall (V : Type) (i : Z) (d : expdata V),
  vector d -> remove_fn i d = Err AxisError.
Proof. exact @remove_fn_vector_l. Qed.
Print Assumptions C11_remove_fn_vector.

Example C11_case : exists r, mask_fn [0]%Z ex_v = Ok r /\ n_units r = 1 /\
  option_map alen (dexp r) = Some 3.
Proof. vm_compute. eexists. repeat split. Qed.

(** C12: the linear generator's response uses the second noise draw; only the first is
    length-checked, a second draw of length one is broadcast to every unit. *)
Theorem C12_linear_generate : forall (V G : Type) (vzero : V) (vadd vmul : V -> V -> V) (o : lin_oracle V G)
    (g : lin_gen V) (st : G) (n : nat) x st1 t st2 e1 st3 e2 st4,
  lo_randn o st n (lg_features g) = (x, st1) -> length x = n ->
  length (lg_gamma g) = lg_features g -> length (lg_beta g) = lg_features g ->
  lo_binom o st1 (map (fun r => lo_sigmoid o (dot1 vzero vadd vmul r (lg_gamma g))) x) = (t, st2) ->
  length t = n ->
  lo_noise o st2 n = (e1, st3) -> lo_noise o st3 n = (e2, st4) ->
  (length e1 <> n -> lin_generate vzero vadd vmul o g st n = (Err ValueError, st3)) /\
  (length e1 = n -> length e2 = n ->
    exists d y, lin_generate vzero vadd vmul o g st n = (Ok d, st4) /\
      n_units d = n /\ n_features d = lg_features g /\ aligned d /\
      dcov d = Some (mkArr [lg_features g] x) /\
      dexp d = Some (mkArr [] (map (fun v => [v]) t)) /\
      drsp d = Some (mkArr [] (map (fun v => [v]) y)) /\
      forall i r ti ei, nth_error x i = Some r -> nth_error t i = Some ti -> nth_error e2 i = Some ei ->
        nth_error y i = Some (vadd (vadd (dot1 vzero vadd vmul r (lg_beta g)) (vmul (lg_tau g) ti)) ei)) /\
  (length e1 = n -> n <> 1 -> forall e, e2 = [e] ->
    exists d y, lin_generate vzero vadd vmul o g st n = (Ok d, st4) /\ n_units d = n /\
      drsp d = Some (mkArr [] (map (fun v => [v]) y)) /\ length y = n /\
      forall i r ti, nth_error x i = Some r -> nth_error t i = Some ti ->
        nth_error y i = Some (vadd (vadd (dot1 vzero vadd vmul r (lg_beta g)) (vmul (lg_tau g) ti)) e)).
Proof. exact @lin_generate_l. Qed.
Print Assumptions C12_linear_generate.

Theorem C12_linear_init : forall (V : Type) (vzero : V) (nf : nat) (beta : list V) (tau : V) (gamma : option (list V)),
  (forall g, gamma = Some g -> length g <> nf -> lin_init vzero nf beta tau gamma = Err ValueError) /\
  (forall g, gamma = Some g -> length g = nf -> exists l, lin_init vzero nf beta tau gamma = Ok l /\
      lg_beta l = beta /\ lg_tau l = tau /\ lg_gamma l = g /\ lg_features l = nf) /\
  (gamma = None -> exists l, lin_init vzero nf beta tau gamma = Ok l /\
      lg_beta l = beta /\ lg_tau l = tau /\ lg_gamma l = repeat vzero nf /\ lg_features l = nf).
Proof. exact @lin_init_l. Qed.
Print Assumptions C12_linear_init.

(** a stateful noise model: three entries on the first call, one on the second *)
Definition ex_lin : lin_oracle Z nat := mkLinOracle Z nat
  (fun s n f => (map (fun i => repeat (Z.of_nat i) f) (seq 0 n), s))
  (fun v => v)
  (fun s p => (map (fun _ => 1%Z) p, s))
  (fun s n => if s =? 0 then (repeat 0%Z n, 1) else ([7]%Z, 2)).
Example C12_case : exists d, lin_generate 0%Z Z.add Z.mul ex_lin (mkLin [1;2]%Z 10%Z [0;0]%Z 2) 0 3 = (Ok d, 2) /\
  drsp d = Some (mkArr [] [[17];[20];[23]]%Z).
Proof. vm_compute. eexists. split; reflexivity. Qed.
