(** Property C129: ExpData with integer keys, len and iteration. *)
From Coq Require Import List Arith ZArith Bool Lia.
From Verif Require Import PyBase SeqModel SeqSpec SeqProofs.
Import ListNotations.

(** d[i] for covariates with two or more axes: the rows i of the three arrays, but the object takes the
    columns of d for its units *)
Theorem C129_item : forall (V : Type) (d : sdata V) a n f rest (i : Z),
  sd_cov d = Some a -> nshape a = n :: f :: rest -> well_shaped a ->
  rows_or_none (sd_exp d) n -> rows_or_none (sd_rsp d) n ->
  (forall b, sd_exp d = Some b \/ sd_rsp d = Some b -> well_shaped b) ->
  (- Z.of_nat n <= i < Z.of_nat n)%Z ->
  let j := Z.to_nat (i mod Z.of_nat n) in
  exists u c, sd_item d i = Ok u /\ sd_cov u = Some c /\ row_at a c j /\
    opt_row_at (sd_exp d) (sd_exp u) j /\ opt_row_at (sd_rsp d) (sd_rsp u) j /\
    sd_len u = f /\ sd_features u = hd 1 rest.
Proof.
  intros V d a n f rest i Ha Hs Hw He Hy Hws Hi j.
  assert (Hj : place n i = j).
  { unfold place, j. f_equal. destruct (Z.ltb_spec i 0).
    - rewrite <- (Z_mod_plus_full i 1). rewrite Z.mod_small; lia.
    - rewrite Z.mod_small; lia. }
  unfold sd_item. rewrite Ha. destruct (nd_int_in a n (f :: rest) i Hs Hi) as (c & -> & Ec & Hc). rewrite Hj in Hc. cbn [bind].
  assert (Ho : forall x : option (nd V), rows_or_none x n -> (forall b, x = Some b -> well_shaped b) -> exists y, opt_int x i = Ok y /\ opt_row_at x y j).
  { intros [x|] Hx Hwx; [|exists None; now split]. destruct Hx as (r & Hr). cbn [opt_int].
    destruct (nd_int_in x n r i Hr Hi) as (b & -> & _ & Hb). rewrite Hj in Hb. exists (Some b). split; [reflexivity|]. apply Hb, Hwx. reflexivity. }
  destruct (Ho (sd_exp d) He (fun b E => Hws b (or_introl E))) as (e & -> & He'). cbn [bind].
  destruct (Ho (sd_rsp d) Hy (fun b E => Hws b (or_intror E))) as (y & -> & Hy'). cbn [bind].
  unfold sd_init. rewrite Ec.
  destruct rest; do 2 eexists; (split; [reflexivity|]); cbn; (split; [reflexivity|]); repeat split; auto.
Qed.
Print Assumptions C129_item.

(** ... and with a one-dimensional covariate array no integer key works, nor does one on a row of a matrix *)
Theorem C129_no_item : forall (V : Type) (d : sdata V) a n (i : Z),
  sd_cov d = Some a -> nshape a = [n] -> sd_item d i = Err IndexError.
Proof. intros V d a n i. apply item_flat. Qed.
Print Assumptions C129_no_item.

Theorem C129_item_of_item_refuted : forall (V : Type) (d u : sdata V) a n f (i j : Z),
  sd_cov d = Some a -> nshape a = [n; f] -> sd_item d i = Ok u -> sd_item u j = Err IndexError.
Proof.
  intros V d u a n f i j Ha Hs Hu. unfold sd_item in Hu. rewrite Ha in Hu. unfold nd_int at 1 in Hu. rewrite Hs in Hu.
  destruct (_ && _); [|discriminate]. cbn [bind] in Hu.
  destruct (opt_int (sd_exp d) i) as [e|e]; [|discriminate]. cbn [bind] in Hu. destruct (opt_int (sd_rsp d) i) as [y|y]; [|discriminate]. cbn [bind] in Hu.
  unfold sd_init in Hu. cbn [nshape] in Hu. injection Hu as <-. eapply item_flat; reflexivity.
Qed.
Print Assumptions C129_item_of_item_refuted.

(** list(d): without an exception one object per unit, if there are two or more axes; cut short where the treatments or the
    responses end. Their lengths sum to the number of units times the number of columns *)
Theorem C129_listed : forall (V : Type) (d : sdata V) a n f rest ne ny,
  sd_cov d = Some a -> nshape a = n :: f :: rest -> rows_or_none (sd_exp d) ne -> rows_or_none (sd_rsp d) ny ->
  let k := Nat.min n (Nat.min (match sd_exp d with None => n | Some _ => ne end) (match sd_rsp d with None => n | Some _ => ny end)) in
  (exists us e, listed d us e) /\
  forall us e, listed d us e -> e = None /\ length us = k /\
    (forall j u, nth_error us j = Some u -> sd_item d (Z.of_nat j) = Ok u) /\
    list_sum (map sd_len us) = k * f.
Proof.
  intros V d a n f rest ne ny Ha Hs He Hy k.
  assert (Hk : limit_of d n = k).
  { unfold limit_of, k. do 2 f_equal; unfold rows_of, rows_or_none in *.
    - destruct (sd_exp d) as [b|]; [|reflexivity]. now destruct He as (r & ->).
    - destruct (sd_rsp d) as [b|]; [|reflexivity]. now destruct Hy as (r & ->). }
  clearbody k. subst k. split.
  - destruct (iter_ends d a n f rest Ha Hs (S (limit_of d n)) 0 ltac:(lia)) as (us & e & E). exists us, e. now exists (S (limit_of d n)).
  - intros us e (fuel & E). destruct (iter_spec d a n f rest Ha Hs fuel 0 us e ltac:(lia) E) as (He' & Hl & Hus).
    split; [exact He'|]. rewrite Nat.sub_0_r in Hl. split; [exact Hl|]. split; [exact Hus|]. rewrite <- Hl.
    assert (Hf : Forall (fun u => sd_len u = f) us).
    { apply Forall_forall. intros u Hu. apply In_nth_error in Hu as (j & Hj).
      assert (j < length us) by (apply nth_error_Some; congruence).
      destruct (item_in d a n f rest Ha Hs j ltac:(lia)) as (v & Ev & Hv). pose proof (Hus j u Hj) as A. cbn [Nat.add] in A. rewrite Ev in A. now injection A as <-. }
    clear - Hf. induction Hf as [|u us Hu _ IH]; [reflexivity|]. cbn [map length list_sum fold_right]. unfold list_sum in IH. rewrite IH, Hu. lia.
Qed.
Print Assumptions C129_listed.

(** list(d) loses nothing: the entries of the objects one after the other are those of the three arrays, if these have equally
    many rows *)
Theorem C129_rebuilt : forall (V : Type) (d : sdata V) a n f rest us,
  sd_cov d = Some a -> nshape a = n :: f :: rest -> rows_or_none (sd_exp d) n -> rows_or_none (sd_rsp d) n ->
  well_shaped a -> (forall b, sd_exp d = Some b \/ sd_rsp d = Some b -> well_shaped b) -> listed d us None ->
  concat (map (fun u => flat_of (sd_cov u)) us) = nflat a /\
  (forall b, sd_exp d = Some b -> concat (map (fun u => flat_of (sd_exp u)) us) = nflat b) /\
  (forall b, sd_rsp d = Some b -> concat (map (fun u => flat_of (sd_rsp u)) us) = nflat b).
Proof.
  intros V d a n f rest us Ha Hs He Hy Hw Hws (fuel & E).
  assert (Hk : limit_of d n = n).
  { unfold limit_of, rows_of, rows_or_none in *. destruct (sd_exp d) as [b|]; [destruct He as (r & ->)|]; (destruct (sd_rsp d) as [c|]; [destruct Hy as (r' & ->)|]); lia. }
  destruct (iter_spec d a n f rest Ha Hs fuel 0 us None ltac:(lia) E) as (_ & Hl & Hus). rewrite Hk, Nat.sub_0_r in Hl.
  split; [|split].
  - apply (rows_flat (@sd_cov V) a n (f :: rest) us Hs Hw Hl). intros j u Hj. apply (proj1 (item_fields d u _ (Hus j u Hj))), Ha.
  - intros b Hb. rewrite Hb in He. destruct He as (r & Hr).
    apply (rows_flat (@sd_exp V) b n r us Hr (Hws b (or_introl Hb)) Hl). intros j u Hj. apply (proj1 (proj2 (item_fields d u _ (Hus j u Hj)))), Hb.
  - intros b Hb. rewrite Hb in Hy. destruct Hy as (r & Hr).
    apply (rows_flat (@sd_rsp V) b n r us Hr (Hws b (or_intror Hb)) Hl). intros j u Hj. apply (proj2 (proj2 (item_fields d u _ (Hus j u Hj)))), Hb.
Qed.
Print Assumptions C129_rebuilt.

(** reversed(d) gives the same objects in the other order if the three arrays have equally many rows ... *)
Theorem C129_reversed : forall (V : Type) (d : sdata V) a n f rest us,
  sd_cov d = Some a -> nshape a = n :: f :: rest -> sd_len d = n -> rows_or_none (sd_exp d) n -> rows_or_none (sd_rsp d) n ->
  listed d us None -> reversed d = (rev us, None).
Proof.
  intros V d a n f rest us Ha Hs Hn He Hy (fuel & E).
  assert (Hk : limit_of d n = n).
  { unfold limit_of, rows_of, rows_or_none in *. destruct (sd_exp d) as [b|]; [destruct He as (r & ->)|]; (destruct (sd_rsp d) as [c|]; [destruct Hy as (r' & ->)|]); lia. }
  destruct (iter_spec d a n f rest Ha Hs fuel 0 us None ltac:(lia) E) as (_ & Hl & Hus).
  destruct (rev_spec d a n f rest Ha Hs n ltac:(lia)) as (vs & Ev & Hv & Hvs).
  unfold reversed. rewrite Hn, Ev. do 2 f_equal. apply (same_list d); trivial. lia.
Qed.
Print Assumptions C129_reversed.

(** ... and nothing at all if there are fewer treatments or responses than units *)
Theorem C129_reversed_refuted : forall (V : Type) (d : sdata V) a n f rest b m rest',
  sd_cov d = Some a -> nshape a = n :: f :: rest -> sd_len d = n ->
  sd_exp d = Some b \/ sd_rsp d = Some b -> nshape b = m :: rest' -> m < n -> reversed d = ([], None).
Proof.
  intros V d a n f rest b m rest' Ha Hs Hn Hb Hm Hlt. unfold reversed. rewrite Hn. destruct n as [|n]; [reflexivity|]. cbn [rev_from].
  rewrite (item_out d a (S n) f rest Ha Hs n); [reflexivity|].
  unfold limit_of. destruct Hb as [-> | ->]; cbn [rows_of]; rewrite Hm; lia.
Qed.
Print Assumptions C129_reversed_refuted.

(** with a one-dimensional covariate array both are empty, whatever len(d) is; without covariates list(d) raises TypeError *)
Theorem C129_empty : forall (V : Type) (d : sdata V) us e,
  (forall a n, sd_cov d = Some a -> nshape a = [n] -> listed d us e -> us = [] /\ e = None) /\
  (forall a n, sd_cov d = Some a -> nshape a = [n] -> reversed d = ([], None)) /\
  (sd_cov d = None -> listed d us e -> us = [] /\ e = Some TypeError).
Proof.
  intros V d us e. split; [|split].
  - intros a n Ha Hs ([|fuel] & E); [discriminate|]. cbn [iter_from] in E. rewrite (item_flat d a n _ Ha Hs) in E. injection E as <- <-. now split.
  - intros a n Ha Hs. unfold reversed. destruct (sd_len d) as [|k]; [reflexivity|]. cbn [rev_from]. now rewrite (item_flat d a n _ Ha Hs).
  - intros Ha ([|fuel] & E); [discriminate|]. cbn [iter_from] in E. unfold sd_item in E. rewrite Ha in E. injection E as <- <-. now split.
Qed.
Print Assumptions C129_empty.

(** two units with three columns: list(d) has two objects of "three units" each; with one column in one axis it has none *)
Definition d23 : sdata nat := mkSD (Some (mkNd [2; 3] [1; 2; 3; 4; 5; 6])) (Some (mkNd [2] [0; 1])) (Some (mkNd [2] [7; 8])) 2 3.
Definition d2 : sdata nat := mkSD (Some (mkNd [2] [1; 2])) (Some (mkNd [2] [0; 1])) (Some (mkNd [2] [7; 8])) 2 1.
Definition d23_short : sdata nat := mkSD (Some (mkNd [2; 3] [1; 2; 3; 4; 5; 6])) (Some (mkNd [1] [0])) None 2 3.
Example C129_case :
  sd_init (sd_cov d23) (sd_exp d23) (sd_rsp d23) = Ok d23 /\ sd_init (sd_cov d2) (sd_exp d2) (sd_rsp d2) = Ok d2 /\
  sd_init (sd_cov d23_short) (sd_exp d23_short) (sd_rsp d23_short) = Ok d23_short /\
  sd_item d23 (-1) = Ok (mkSD (Some (mkNd [3] [4; 5; 6])) (Some (mkNd [] [1])) (Some (mkNd [] [8])) 3 1) /\
  (exists us, listed d23 us None /\ map sd_len us = [3; 3] /\ map (fun u => flat_of (sd_exp u)) us = [[0]; [1]]) /\ sd_len d2 = 2 /\ listed d2 [] None /\
  (exists us, listed d23_short us None /\ length us = 1) /\ reversed d23_short = ([], None).
Proof.
  repeat (split; [reflexivity|]). split; [eexists; split; [exists 3; reflexivity|split; reflexivity]|]. split; [reflexivity|]. split; [exists 1; reflexivity|].
  split; [eexists; split; [exists 3; reflexivity|reflexivity]|reflexivity].
Qed.
