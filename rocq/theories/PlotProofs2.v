(** plot_3d_function on real numbers. *)
From Coq Require Import String List Arith ZArith Reals Bool Lia Lra.
From Verif Require Import PyBase PyLemmas Num NumLemmas NumOps DataModel ScmModel TabSpec TabReal ParamProofs5 CpdSpec CpdProofs PlotModel PlotSpec.
Import ListNotations.
Open Scope nat_scope.
Open Scope R_scope.

Lemma nnat_x k : nnat xreal k = Fin (INR k).
Proof. unfold nnat. rewrite nint_x. now rewrite INR_IZR_INZ. Qed.

Lemma linspace_fin lo hi n : (1 < n)%nat ->
  linspace xreal (Fin lo) (Fin hi) n = map (fun i => Fin (lo + (hi - lo) * INR i / INR (n - 1))) (seq 0 n).
Proof.
  intros Hn. unfold linspace. apply map_ext_in. intros i Hi. apply in_seq in Hi.
  assert (HI : INR (n - 1) <> 0) by (apply not_0_INR; lia).
  destruct (Nat.eqb_spec i (n - 1)) as [->|Hne]; cbn [andb].
  - destruct (Nat.ltb_spec 1 n); [|lia]. f_equal. field. exact HI.
  - rewrite !nnat_x. change (nsub xreal (Fin hi) (Fin lo)) with (Fin (hi + - lo)).
    change (ndiv xreal) with xdiv. rewrite !xdiv_fin by exact HI.
    rewrite nint_x. cbn [neqb xreal xeqb]. match goal with |- context [if ?c then _ else _] => destruct c end; cbn [nadd nmul xreal xadd xmul]; f_equal; field; exact HI.
Qed.

Lemma nth_error_ext' {X} (l m : list X) : (forall i, nth_error l i = nth_error m i) -> l = m.
Proof.
  revert m. induction l as [|x l IH]; intros [|y m] H; [reflexivity|specialize (H 0%nat); discriminate|specialize (H 0%nat); discriminate|].
  pose proof (H 0%nat) as H0. injection H0 as ->. f_equal. apply IH. intros i. exact (H (S i)).
Qed.

Section Generic.
  Context {N : Type}.
  Lemma map2_app {X Y Z} (f : X -> Y -> Z) a b : forall a' b', length a = length a' ->
    map2 f (a ++ b) (a' ++ b') = (map2 f a a' ++ map2 f b b')%list.
  Proof. induction a as [|x a IH]; intros [|y a'] b' H; try discriminate; [reflexivity|]. cbn [app map2]. f_equal. apply IH. now injection H. Qed.
  Lemma map2_same {X Y} (f : X -> X -> Y) (c : X) l : map2 f l (map (fun _ => c) l) = map (fun u => f u c) l.
  Proof. induction l as [|x l IH]; [reflexivity|]. cbn [map map2]. now rewrite IH. Qed.
  Lemma pairs_mesh (xs ys : list N) : let '(x, y) := meshgrid xs ys in
    pairs x y = mkArr [2%nat] (concat (map (fun v => map (fun u => [u; v]) xs) ys)).
  Proof.
    unfold meshgrid, pairs. f_equal. induction ys as [|v ys IH]; [reflexivity|]. cbn [map concat].
    rewrite map2_app by (now rewrite map_length). rewrite IH. f_equal. exact (map2_same (fun u v => [u; v]) v xs).
  Qed.
  Lemma skipn_blocks {X} n (rows : list (list X)) : Forall (fun r => length r = n) rows ->
    forall i, skipn (i * n) (concat rows) = concat (skipn i rows).
  Proof.
    induction 1 as [|r rows Hr _ IH]; intros [|i]; try reflexivity; [apply skipn_nil|].
    cbn [concat skipn Nat.mul]. rewrite skipn_app, Hr. rewrite skipn_all2 by lia. replace (n + i * n - n)%nat with (i * n)%nat by lia. apply IH.
  Qed.
  Lemma reshape_concat {X} n (rows : list (list X)) : Forall (fun r => length r = n) rows ->
    map (fun i => firstn n (skipn (i * n) (concat rows))) (seq 0 (length rows)) = rows.
  Proof.
    intros Hf. apply nth_error_ext'. intros i. rewrite nth_error_map. destruct (Nat.lt_ge_cases i (length rows)) as [Hi|Hi].
    - rewrite (nth_error_nth' _ 0%nat) by (now rewrite seq_length). rewrite seq_nth by lia. cbn [option_map plus].
      rewrite skipn_blocks by exact Hf. destruct (nth_error rows i) as [r|] eqn:E; [|apply nth_error_None in E; lia].
      destruct (nth_error_split _ _ E) as (l1 & l2 & -> & Hl). rewrite <- Hl. rewrite skipn_app, skipn_all, Nat.sub_diag. cbn [app skipn concat].
      apply Forall_app in Hf as [_ Hf]. inversion_clear Hf as [|? ? Hr _]. rewrite firstn_app, Hr, Nat.sub_diag, firstn_all2 by lia. cbn [firstn]. now rewrite app_nil_r.
    - rewrite (proj2 (nth_error_None (seq 0 _) i)) by (rewrite seq_length; lia). symmetry. apply nth_error_None. lia.
  Qed.
End Generic.

Section Surface.
  Variables (n : nat) (x0 x1 y0 y1 : R).
  Hypothesis Hn : (1 < n)%nat.
  Definition axis_point (lo hi : R) (i : nat) : R := lo + (hi - lo) * INR i / INR (n - 1).
  Let px := axis_point x0 x1.
  Let py := axis_point y0 y1.
  Definition table {X} (h : R -> R -> X) : list (list X) := map (fun i => map (fun j => h (px j) (py i)) (seq 0 n)) (seq 0 n).
  Lemma table_square {X} (h : R -> R -> X) : square n (table h).
  Proof.
    split; [unfold table; now rewrite map_length, seq_length|]. apply Forall_forall. intros r Hr. unfold table in Hr.
    apply in_map_iff in Hr as (i & <- & _). now rewrite map_length, seq_length.
  Qed.
  Lemma concat_length' {X} k (rows : list (list X)) : Forall (fun r => length r = k) rows -> length (concat rows) = (length rows * k)%nat.
  Proof. induction 1 as [|r rows Hr _ IH]; [reflexivity|]. cbn [concat length]. rewrite app_length, IH, Hr. lia. Qed.
  Lemma cell_table {X} (h : R -> R -> X) i j : (i < n)%nat -> (j < n)%nat -> cell (table h) i j = Some (h (px j) (py i)).
  Proof.
    intros Hi Hj. unfold cell, table. rewrite nth_error_map, (nth_error_nth' _ 0%nat) by (now rewrite seq_length). rewrite seq_nth by lia. cbn [option_map].
    rewrite nth_error_map, (nth_error_nth' _ 0%nat) by (now rewrite seq_length). rewrite seq_nth by lia. reflexivity.
  Qed.
  Lemma points_matrix : matrix (n * n) 2 (concat (table (fun u v => [u; v]))).
  Proof.
    destruct (table_square (fun u v => [u; v])) as [H1 H2]. split; [rewrite (concat_length' n _ H2), H1; reflexivity|].
    apply Forall_forall. intros r Hr. apply in_concat in Hr as (row & Hrow & Hr). unfold table in Hrow. apply in_map_iff in Hrow as (i & <- & _).
    apply in_map_iff in Hr as (j & <- & _). reflexivity.
  Qed.
  Lemma mesh_x : meshgrid (linspace xreal (Fin x0) (Fin x1) n) (linspace xreal (Fin y0) (Fin y1) n)
    = (table (fun u _ => Fin u), table (fun _ v => Fin v)).
  Proof.
    unfold meshgrid. rewrite !linspace_fin by exact Hn. f_equal; unfold table; rewrite map_map; [reflexivity|].
    apply map_ext. intros i. now rewrite map_map.
  Qed.
  Lemma pairs_x : pairs (table (fun u _ => Fin u)) (table (fun _ v => Fin v)) = rmat 2 (concat (table (fun u v => [u; v]))).
  Proof.
    pose proof (pairs_mesh (linspace xreal (Fin x0) (Fin x1) n) (linspace xreal (Fin y0) (Fin y1) n)) as H. rewrite mesh_x in H. rewrite H.
    unfold rmat. f_equal. rewrite !linspace_fin by exact Hn. rewrite concat_map. unfold table. rewrite !map_map. f_equal. apply map_ext. intros i.
    now rewrite !map_map.
  Qed.
  Lemma surface_x f c (phi : list R -> list R) : 
    (forall rows, matrix (n * n) 2 rows -> f (rmat 2 rows) = Ok (mkArr c (map (fun row => map Fin (phi row)) rows))) ->
    (forall row, length (phi row) = 1%nat) ->
    surface xreal n f (Fin x0) (Fin x1) (Fin y0) (Fin y1) = Ok (table (fun u _ => Fin u), table (fun _ v => Fin v), table (fun u v => Fin (hd 0 (phi [u; v])))).
  Proof.
    intros Hf Hp. unfold surface. rewrite mesh_x, pairs_x, Hf by apply points_matrix. cbn [bind]. unfold reshape_square. cbn [arows].
    assert (E : concat (map (fun row => map Fin (phi row)) (concat (table (fun u v => [u; v])))) = concat (table (fun u v => Fin (hd 0 (phi [u; v]))))).
    { assert (E1 : forall l, concat (map (fun row => map Fin (phi row)) l) = map (fun row => Fin (hd 0 (phi row))) l).
      { clear - Hp. induction l as [|r l IH]; [reflexivity|]. cbn [map concat]. rewrite IH. specialize (Hp r). destruct (phi r) as [|a [|]]; try discriminate. reflexivity. }
      rewrite E1, concat_map. unfold table. rewrite map_map. f_equal. apply map_ext. intros i. now rewrite map_map. }
    rewrite E. destruct (table_square (fun u v => Fin (hd 0 (phi [u; v])))) as [H1 H2].
    rewrite (concat_length' n _ H2), H1, Nat.eqb_refl. rewrite <- H1 at 1. rewrite reshape_concat by exact H2. reflexivity.
  Qed.
  Lemma surface_wrong f c k (phi : list R -> list R) : k <> 1%nat ->
    (forall rows, matrix (n * n) 2 rows -> f (rmat 2 rows) = Ok (mkArr c (map (fun row => map Fin (phi row)) rows))) ->
    (forall row, length (phi row) = k) ->
    surface xreal n f (Fin x0) (Fin x1) (Fin y0) (Fin y1) = Err ValueError.
  Proof.
    intros Hk Hf Hp. unfold surface. rewrite mesh_x, pairs_x, Hf by apply points_matrix. cbn [bind]. unfold reshape_square. cbn [arows].
    destruct points_matrix as [H1 _].
    rewrite (concat_length' k) by (apply Forall_forall; intros r Hr; apply in_map_iff in Hr as (row & <- & _); rewrite map_length; apply Hp).
    rewrite map_length, H1. destruct (Nat.eqb_spec (n * n * k) (n * n)); [exfalso; nia|reflexivity].
  Qed.
End Surface.
