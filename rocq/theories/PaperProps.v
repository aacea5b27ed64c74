(** Properties C71 to C74, C81 and C82: the examples of Section 5 (paper_utils.py). *)
From Coq Require Import List Arith ZArith Lia Bool String Reals Lra.
From Verif Require Import PyBase Num NumOps DataModel ScmModel ScmSpec ScmProofs BanditModel ArmModel TabSpec TabReal
  ParamModel ParamSpec ParamProofs5 PaperModel PaperSpec PaperProofs PaperProofs2 PaperProofs3 PaperProofs4.
Import ListNotations.
Open Scope nat_scope.
Open Scope string_scope.

(** ** material for the examples: constant samples *)
Section ExampleCpds.
  Context {V : Type} (v : V).
  Definition const_cpd (row : list V) : cpd V unit := fun n _ g => (Ok (mkArr [List.length row] (repeat row n)), g).
  Definition const_vec : cpd V unit := fun n _ g => (Ok (mkArr [] (repeat [v] n)), g).
  (** two back-door paths; dimensions z = 1, 2, 1 and v = -, 1, 2 *)
  Definition ex_cpds : sdict (cpd V unit) :=
    [("X", const_vec); ("Y", const_vec); ("Z0", const_cpd [v]); ("V1", const_cpd [v]); ("Z1", const_cpd [v; v]);
     ("V2", const_cpd [v; v]); ("Z2", const_cpd [v])].
End ExampleCpds.

(** ** C71: the arms correspond to the adjustment sets *)
Theorem C71_arms : forall (N G : Type) (o : numops N) big zd vd zc vc z0c m (cpds : sdict (cpd N G))
    limit units latex alg g e g',
  generate_example o big zd vd zc vc z0c m cpds limit units latex alg g = (Ok e, g') ->
  exists front arms, e_arms e = front :: arms /\ List.length arms = 2 ^ m /\
    pa_name front = "frontdoor" /\ pa_cost front = z0c /\ mask_list (pa_mask front) = seq 0 (nth 0 zd 0) /\
    forall k, k < 2 ^ m -> exists a c, nth_error arms k = Some a /\
      pa_name a = (if latex then "$" ++ arm_name m k ++ "$" else arm_name m k) /\
      mask_list (pa_mask a) = arm_columns zd vd m k /\
      pa_cost a = arm_cost (nadd o) zc vc m k /\
      pa_eta a = Aipw c /\ ac_dim c = arm_dim zd vd m k.
Proof.
  intros N G o big zd vd zc vc z0c m cpds limit units latex alg g e g' H.
  apply generate_example_spec in H as (s & d & x & t & y & _ & _ & _ & _ & _ & _ & _ & ->). cbn [e_arms].
  unfold paper_arms. do 2 eexists. split; [reflexivity|]. rewrite map_length, seq_length.
  repeat (split; [reflexivity|]). intros k Hk. rewrite nth_error_map.
  rewrite (nth_error_nth' (seq 0 (2 ^ m)) 0) by now rewrite seq_length. rewrite seq_nth by exact Hk. cbn [option_map Nat.add].
  do 2 eexists. split; [reflexivity|]. unfold backdoor_arm. cbn [pa_name pa_mask pa_cost pa_eta].
  split; [reflexivity|]. rewrite arm_mask_list. repeat (split; [reflexivity|]). cbn [ac_dim]. apply arm_columns_length.
Qed.
Print Assumptions C71_arms.

(** every choice of V_i or Z_i on each path is made by exactly one arm *)
Theorem C71_one_to_one : forall m (choice : nat -> bool),
  exists k, k < 2 ^ m /\ (forall i, 1 <= i <= m -> observes_v k i = choice i) /\
    forall j, j < 2 ^ m -> (forall i, 1 <= i <= m -> observes_v j i = choice i) -> j = k.
Proof.
  induction m as [|m IH]; intro choice.
  - exists 0. cbn. repeat split; intros; lia.
  - destruct (IH choice) as (k & Hk & Hc & Hu).
    assert (Hcase : forall i, i < 2 ^ S m -> i < 2 ^ m \/ exists r, r < 2 ^ m /\ i = 2 ^ m + r).
    { intros i Hi. destruct (lt_dec i (2 ^ m)); [now left|]. right. exists (i - 2 ^ m). cbn in Hi. lia. }
    assert (Hlow : forall r i, 1 <= i <= m -> observes_v (2 ^ m + r) i = observes_v r i)
      by (intros; unfold observes_v; apply testbit_low; lia).
    assert (Htop : forall r, r < 2 ^ m -> observes_v r (S m) = false)
      by (intros; unfold observes_v; replace (S m - 1) with m by lia; now apply testbit_top).
    assert (Htop' : forall r, r < 2 ^ m -> observes_v (2 ^ m + r) (S m) = true)
      by (intros; unfold observes_v; replace (S m - 1) with m by lia; now apply testbit_top').
    exists (if choice (S m) then 2 ^ m + k else k). split; [destruct (choice (S m)); cbn; lia|]. split.
    + intros i Hi. destruct (Nat.eq_dec i (S m)) as [->|Hn].
      * destruct (choice (S m)); [now apply Htop'|now apply Htop].
      * destruct (choice (S m)); [rewrite Hlow by lia|]; apply Hc; lia.
    + intros j Hj Hcj. destruct (Hcase j Hj) as [Hj'|(r & Hr & ->)].
      * rewrite <- (Hcj (S m)) by lia. rewrite (Htop j Hj'). apply Hu; trivial. intros i Hi. apply Hcj. lia.
      * rewrite <- (Hcj (S m)) by lia. rewrite (Htop' r Hr). f_equal. apply Hu; trivial. intros i Hi.
        rewrite <- (Hlow r i) by lia. apply Hcj. lia.
Qed.
Print Assumptions C71_one_to_one.

(** different arms have different names; a mask has no index twice, its length is the sum of the
    chosen dimensions, its indices are below the sum of all dimensions *)
Theorem C71_distinct : forall zd vd m k,
  (forall j, j < 2 ^ m -> k < 2 ^ m -> arm_name m j = arm_name m k -> j = k) /\
  NoDup (arm_columns zd vd m k) /\
  List.length (arm_columns zd vd m k) = arm_dim zd vd m k /\
  Forall (fun c => c < list_sum zd + list_sum vd) (arm_columns zd vd m k).
Proof.
  intros zd vd m k. split; [intros j Hj Hk; now apply arm_name_inj|]. split; [apply arm_columns_nodup|].
  split; [apply arm_columns_length|]. apply Forall_forall. intros x. apply arm_columns_bound.
Qed.
Print Assumptions C71_distinct.

(** over the reals the cost is the sum of the costs of the observed variables *)
Theorem C71_costs : forall (zc vc : R) m k, 1 <= m ->
  arm_cost (nadd xreal) (Fin zc) (Fin vc) m k =
  Fin (INR (List.length (filter (observes_v k) (seq 1 m))) * vc +
       INR (List.length (filter (fun i => negb (observes_v k i)) (seq 1 m))) * zc).
Proof.
  intros zc vc m k Hm. unfold arm_cost.
  assert (H : forall l a, fold_left (fun acc i => nadd xreal (if observes_v k i then Fin vc else Fin zc) acc) l (Fin a) =
    Fin (a + (INR (List.length (filter (observes_v k) l)) * vc +
              INR (List.length (filter (fun i => negb (observes_v k i)) l)) * zc))).
  { induction l as [|i l IH]; intro a; cbn [fold_left filter].
    - cbn. f_equal. lra.
    - replace (nadd xreal (if observes_v k i then Fin vc else Fin zc) (Fin a))
        with (Fin ((if observes_v k i then vc else zc) + a)) by (destruct (observes_v k i); reflexivity).
      rewrite IH. f_equal. destruct (observes_v k i); cbn [negb List.length]; rewrite S_INR; lra. }
  replace (if observes_v k 1 then Fin vc else Fin zc) with (Fin (if observes_v k 1 then vc else zc))
    by (destruct (observes_v k 1); reflexivity).
  rewrite H. replace m with (S (m - 1)) at 3 4 by lia. cbn [seq filter]. f_equal.
  destruct (observes_v k 1); cbn [negb List.length]; rewrite S_INR; lra.
Qed.
Print Assumptions C71_costs.

(** without back-door paths the recursion has no base case *)
Theorem C71_no_paths : forall (N G : Type) (o : numops N) big zd vd zc vc z0c (cpds : sdict (cpd N G))
    limit units latex alg g,
  (forall v, paper_var 0 v -> exists f, entry cpds v f) -> zd <> [] ->
  generate_example o big zd vd zc vc z0c 0 cpds limit units latex alg g = (Err RecursionError, g).
Proof.
  intros N G o big zd vd zc vc z0c cpds limit units latex alg g Hc Hz.
  destruct (paper_scm_ok 0 cpds Hc) as (s & Es & _). unfold generate_example. rewrite Es. cbn [bind].
  destruct zd as [|d0 zd]; [contradiction|]. reflexivity.
Qed.
Print Assumptions C71_no_paths.

Example C71_case : forall (N : Type) (o : numops N) (x : N), exists e,
  generate_example o 2 [1; 2; 1] [0; 1; 2] x x x 2 (ex_cpds x) 100 10 false FINITE_SAMPLE tt = (Ok e, tt) /\
  map pa_name (e_arms e) = ["frontdoor"; "Z_1Z_2"; "V_1Z_2"; "Z_1V_2"; "V_1V_2"] /\
  map (fun a => mask_list (pa_mask a)) (e_arms e) = [[0]; [1; 2; 3]; [4; 3]; [1; 2; 5; 6]; [4; 5; 6]].
Proof.
  intros N o x. eexists. split; [|split].
  - apply generate_example_spec. do 5 eexists. split; [reflexivity|]. split; [cbn; lia|]. split; [cbn; lia|].
    split; [reflexivity|]. repeat (split; [reflexivity|]). reflexivity.
  - reflexivity.
  - reflexivity.
Qed.

(** ** C72: the masks assume another order of the columns than the generated data have *)

(** the mask of the front-door arm reads exactly Z0 *)
Theorem C72_front_door_right : forall (V G : Type) m (cpds : sdict (cpd V G)) s n g d g' log zd vd,
  paper_scm m cpds = Ok s -> generate (logging s) n (g, []) = (Ok d, (g', log)) ->
  has_dims zd vd m (latest log) ->
  exists r a, select_fn (MList (seq 0 (nth 0 zd 0))) d = Ok r /\ latest log "Z0" a /\ dcov r = Some a /\
    dexp r = dexp d /\ drsp r = drsp d.
Proof.
  intros V G m cpds s n g d g' log zd vd Es Hg Hd.
  destruct (z0_read m cpds s n g d g' log zd vd Es Hg Hd) as (r & c & a & Er & Ec & Ha & -> & Ee & Ey).
  exists r, a. repeat split; assumption.
Qed.
Print Assumptions C72_front_door_right.

(** with one dimension for all variables on the back-door paths, the columns that arm k reads for
    path i are those of the variable [read_var m k i], and that is never the variable it is named
    after *)
Theorem C72_back_door_wrong : forall (N G : Type) (o : numops N) big zd vd zc vc z0c m dim (cpds : sdict (cpd N G))
    limit units latex alg g0 e g1 n g d g' log k,
  generate_example o big zd vd zc vc z0c m cpds limit units latex alg g0 = (Ok e, g1) ->
  generate (logging (e_scm e)) n (g, []) = (Ok d, (g', log)) ->
  has_dims zd vd m (latest log) -> equal_dims zd vd m dim -> 1 <= dim -> k < 2 ^ m ->
  (forall i, 1 <= i <= m -> read_var m k i <> (if observes_v k i then Vn i else Zn i)) /\
  exists a r c, nth_error (e_arms e) (S k) = Some a /\
    select_fn (pa_mask a) d = Ok r /\ dcov r = Some c /\ List.length (arows c) = n_units d /\
    forall u, u < n_units d -> exists parts,
      Forall2 (fun i p => exists b, latest log (read_var m k i) b /\ p = row b u) (seq 1 m) parts /\
      row c u = List.concat parts.
Proof.
  intros N G o big zd vd zc vc z0c m dim cpds limit units latex alg g0 e g1 n g d g' log k He Hg Hd Heq Hdim Hk.
  split; [intros i Hi; now apply block_var_wrong|].
  apply generate_example_spec in He as (s & d0 & x & t & y & Es & Hz & Hv & _ & _ & _ & _ & ->). cbn [e_scm] in Hg.
  destruct (equal_read m cpds s n g d g' log zd vd dim k Es Hg Hd Heq Hdim ltac:(lia))
    as (r & c & Er & Ec & _ & _ & Hl & Hrows).
  cbn [e_arms]. unfold paper_arms. cbn [nth_error]. rewrite nth_error_map.
  rewrite (nth_error_nth' (seq 0 (2 ^ m)) 0) by now rewrite seq_length. rewrite seq_nth by exact Hk. cbn [option_map Nat.add].
  do 3 eexists. split; [reflexivity|]. cbn [pa_mask backdoor_arm]. repeat (split; [eassumption|]). exact Hrows.
Qed.
Print Assumptions C72_back_door_wrong.

(** whatever the (positive) dimensions, an arm named after Z_1 gets as its first covariate the
    first column of V_1 *)
Theorem C72_first_column : forall (N G : Type) (o : numops N) big zd vd zc vc z0c m (cpds : sdict (cpd N G))
    limit units latex alg g0 e g1 n g d g' log k,
  generate_example o big zd vd zc vc z0c m cpds limit units latex alg g0 = (Ok e, g1) ->
  generate (logging (e_scm e)) n (g, []) = (Ok d, (g', log)) ->
  has_dims zd vd m (latest log) -> List.length zd = S m -> List.length vd = S m -> nth 0 vd 0 = 0 ->
  (forall i, 1 <= i <= m -> 0 < nth i zd 0 /\ 0 < nth i vd 0) -> k < 2 ^ m -> observes_v k 1 = false ->
  exists a r c b, nth_error (e_arms e) (S k) = Some a /\
    select_fn (pa_mask a) d = Ok r /\ dcov r = Some c /\ latest log (Vn 1) b /\
    List.length (arows c) = n_units d /\ List.length (arows b) = n_units d /\
    forall u, u < n_units d -> exists v, hd_error (row c u) = Some v /\ hd_error (row b u) = Some v.
Proof.
  intros N G o big zd vd zc vc z0c m cpds limit units latex alg g0 e g1 n g d g' log k He Hg Hd Hz Hv H0 Hpos Hk Hb.
  apply generate_example_spec in He as (s & d0 & x & t & y & Es & Hm & _ & _ & _ & _ & _ & ->). cbn [e_scm] in Hg.
  destruct (first_read m cpds s n g d g' log zd vd k Es Hg Hd Hz Hv H0 Hpos ltac:(lia) Hb)
    as (r & c & b & Er & Ec & Ha & Hl & Hl' & Hrows).
  cbn [e_arms]. unfold paper_arms. cbn [nth_error]. rewrite nth_error_map.
  rewrite (nth_error_nth' (seq 0 (2 ^ m)) 0) by now rewrite seq_length. rewrite seq_nth by exact Hk. cbn [option_map Nat.add].
  do 4 eexists. split; [reflexivity|]. cbn [pa_mask backdoor_arm]. repeat (split; [eassumption|]). exact Hrows.
Qed.
Print Assumptions C72_first_column.

(** one path, all dimensions 1: the arm "Z_1" gets V_1 and the arm "V_1" gets Z_1 *)
Definition ex1_cpds (x t y z0 v z : nat) : sdict (cpd nat unit) :=
  [("X", const_vec t); ("Y", const_vec y); ("Z0", const_cpd [z0]); ("V1", const_cpd [v]); ("Z1", const_cpd [z])].
Example C72_case : exists s d log, paper_scm 1 (ex1_cpds 0 1 2 30 11 31) = Ok s /\
  generate (logging s) 2 (tt, []) = (Ok d, (tt, log)) /\
  has_dims [1; 1] [0; 1] 1 (latest log) /\ equal_dims [1; 1] [0; 1] 1 1 /\
  latest log "V1" (mkArr [1] [[11]; [11]]) /\ latest log "Z1" (mkArr [1] [[31]; [31]]) /\
  (exists r, select_fn (arm_mask [1; 1] [0; 1] 1 0) d = Ok r /\ dcov r = Some (mkArr [1] [[11]; [11]])) /\
  (exists r, select_fn (arm_mask [1; 1] [0; 1] 1 1) d = Ok r /\ dcov r = Some (mkArr [1] [[31]; [31]])).
Proof.
  do 3 eexists. split; [reflexivity|]. split; [reflexivity|].
  match goal with |- has_dims _ _ _ (latest ?log) /\ _ => set (lg := log) end.
  assert (HV : latest lg "V1" (mkArr [1] [[11]; [11]])).
  { exists []. do 2 eexists. split; [reflexivity|]. repeat (split; [reflexivity|]). cbn. intuition discriminate. }
  assert (HZ : latest lg "Z1" (mkArr [1] [[31]; [31]])).
  { eexists [_]. do 2 eexists. split; [reflexivity|]. repeat (split; [reflexivity|]). cbn. intuition discriminate. }
  assert (H0 : latest lg "Z0" (mkArr [1] [[30]; [30]])).
  { eexists [_; _; _]. do 2 eexists. split; [reflexivity|]. repeat (split; [reflexivity|]). cbn. intuition discriminate. }
  split; [|split; [|split; [exact HV|split; [exact HZ|]]]].
  - split; [|split].
    + intros a Ha. rewrite (latest_fun _ _ _ _ Ha H0). split; [reflexivity|repeat constructor].
    + intros i a Hi Ha. assert (i = 1) as -> by lia. rewrite (latest_fun _ _ _ _ Ha HZ). split; [reflexivity|repeat constructor].
    + intros i a Hi Ha. assert (i = 1) as -> by lia. rewrite (latest_fun _ _ _ _ Ha HV). split; [reflexivity|repeat constructor].
  - repeat split; assert (i = 1) as -> by lia; reflexivity.
  - split; eexists; split; reflexivity.
Qed.

(** ** C73: the causal graph *)
Theorem C73_accepted : forall (V G : Type) m (cpds : sdict (cpd V G)),
  (forall v, paper_var m v -> exists f, entry cpds v f) ->
  exists s, paper_scm m cpds = Ok s /\ constructed s /\ topological s /\ NoDup (s_vars s) /\
    (forall v, In v (s_vars s) <-> paper_var m v) /\ s_cov s = layout m /\ s_trt s = "X" /\ s_rsp s = "Y" /\
    s_cpds s = cpds /\ forall p v, paper_var m v -> (parent s p v <-> edge m p v).
Proof.
  intros V G m cpds Hc. destruct (paper_scm_ok m cpds Hc) as (s & Es & Hcon & Hv & Hcov & Ht & Hy & Hcp & _).
  exists s. split; [exact Es|]. split; [exact Hcon|]. split; [now apply paper_topological with m cpds|]. rewrite Hv.
  split; [apply NoDup_paper_vars|]. split; [apply paper_vars_in|]. repeat (split; [assumption|]).
  now apply paper_parents with cpds.
Qed.
Print Assumptions C73_accepted.

Theorem C73_missing_cpd : forall (V G : Type) m (cpds : sdict (cpd V G)) v,
  paper_var m v -> ~ (exists f, entry cpds v f) -> paper_scm m cpds = Err ValueError.
Proof. exact @paper_scm_missing. Qed.
Print Assumptions C73_missing_cpd.

Example C73_case : exists s, paper_scm 2 (ex_cpds 7) = Ok s /\
  s_vars s = ["V1"; "Z1"; "V2"; "Z2"; "X"; "Z0"; "Y"] /\
  edge 2 "V2" "X" /\ parent s "V2" "X" /\ ~ parent s "Z2" "X".
Proof.
  eexists. split; [reflexivity|]. split; [reflexivity|]. split; [exact (edge_VX 2 2 ltac:(lia))|].
  split.
  - exists ["V1"; "V2"]. split; [|right; now left]. exists [("Z0", ["X"])]. eexists. split; [reflexivity|].
    intros [H|[]]; discriminate.
  - intros (ps & He & Hp). apply entry_sget in He. cbn in He. injection He as <-. cbn in Hp. intuition discriminate.
Qed.

(** ** C74: the choice of the distributions of Z0 *)
Theorem C74_result : forall (N D G : Type) (o : numops N) (draw : G -> D * G) (effect : D -> N) fuel g c st,
  nltb o (nint o 0) (nint o 0) = false ->
  tau_selection o draw effect fuel g = Returned c st ->
  let d n := nth_draw draw g n in
  if nltb o (nint o 0) (effect (d 9))
  then exists j, c = Some (d (10 + j)) /\
         first_at (fun x => negb (nltb o (effect x) (effect (d 9)))) (fun i => d (10 + i)) j
  else c = Some (d 9).
Proof. intros. now apply tau_result with fuel st. Qed.
Print Assumptions C74_result.

Theorem C74_terminates : forall (N D G : Type) (o : numops N) (draw : G -> D * G) (effect : D -> N) g,
  nltb o (nint o 0) (nint o 0) = false ->
  let d n := nth_draw draw g n in
  (nltb o (nint o 0) (effect (d 9)) = false ->
     forall fuel, tau_selection o draw effect fuel g = Returned (Some (d 9)) (Some (d 9), state_after draw g 10)) /\
  (forall j, nltb o (nint o 0) (effect (d 9)) = true ->
     first_at (fun x => negb (nltb o (effect x) (effect (d 9)))) (fun i => d (10 + i)) j ->
     forall fuel, j < fuel -> exists st, tau_selection o draw effect fuel g = Returned (Some (d (10 + j))) st) /\
  (nltb o (nint o 0) (effect (d 9)) = true ->
     (forall i, nltb o (effect (d (10 + i))) (effect (d 9)) = true) ->
     forall fuel, exists st, tau_selection o draw effect fuel g = OutOfFuel st).
Proof.
  intros N D G o draw effect g Hz d. split; [intros; now apply tau_kept|]. split.
  - intros j H Hf fuel Hj. eexists. now apply tau_terminates.
  - intros; now apply tau_loops.
Qed.
Print Assumptions C74_terminates.

(** over the reals: a positive tenth effect is a lower bound for the effect returned *)
Theorem C74_bound : forall (D G : Type) (draw : G -> D * G) (effect : D -> R) fuel g c st,
  tau_selection xreal draw (fun d => Fin (effect d)) fuel g = Returned c st ->
  (0 < effect (nth_draw draw g 9) -> exists x, c = Some x /\ effect (nth_draw draw g 9) <= effect x)%R /\
  (effect (nth_draw draw g 9) <= 0 -> c = Some (nth_draw draw g 9))%R.
Proof.
  assert (Hlt : forall a b, nltb xreal (Fin a) (Fin b) = if Rlt_dec a b then true else false) by reflexivity.
  intros D G draw effect fuel g c st H. apply tau_result in H.
  2: { rewrite nint_x, Hlt. destruct (Rlt_dec 0 0); [lra|reflexivity]. }
  rewrite nint_x, Hlt in H. split; intro Hp.
  - destruct (Rlt_dec 0 (effect (nth_draw draw g 9))); [|lra]. destruct H as (j & -> & Hok & _).
    eexists. split; [reflexivity|]. rewrite Hlt in Hok.
    destruct (Rlt_dec (effect (nth_draw draw g (10 + j))) (effect (nth_draw draw g 9))); [discriminate|lra].
  - destruct (Rlt_dec 0 (effect (nth_draw draw g 9))); [lra|]. exact H.
Qed.
Print Assumptions C74_bound.

(** what is compared: the difference of the means of support.dot(beta0) under p1 and p0 *)
Theorem C74_effect : forall (p0 p1 : list R) (support : list (list R)) (beta : list R),
  List.length p0 = List.length support -> List.length p1 = List.length support ->
  Forall (fun r => List.length r = List.length beta) support ->
  z0_effect xreal (map (map Fin) support) (map Fin beta) (map Fin p0, map Fin p1) =
  Fin (rsum (map2 Rmult p1 (map (fun r => rsum (map2 Rmult r beta)) support)) -
       rsum (map2 Rmult p0 (map (fun r => rsum (map2 Rmult r beta)) support))).
Proof.
  intros p0 p1 S beta H0 H1 HS. unfold z0_effect. cbn [fst snd]. rewrite !mean_x by assumption. reflexivity.
Qed.
Print Assumptions C74_effect.

(** the threshold is not the maximum of the ten draws: effects 5, 1, ..., 1, then 2; the draw with
    effect 2 is returned *)
Definition ex_effect (n : nat) : R := match n with 0 => 5 | 10 => 2 | _ => 1 end.
Theorem C74_not_max_refuted : exists (draw : nat -> nat * nat) (effect : nat -> R) st,
  tau_selection xreal draw (fun d => Fin (effect d)) 1 0 = Returned (Some 10) st /\
  exists i, i < 10 /\ (effect 10%nat < effect (nth_draw draw 0%nat i))%R.
Proof.
  exists (fun n => (n, S n)), ex_effect.
  assert (Hlt : forall a b, nltb xreal (Fin a) (Fin b) = if Rlt_dec a b then true else false) by reflexivity.
  eexists. split.
  - apply (tau_terminates xreal (fun n => (n, S n)) (fun d => Fin (ex_effect d)) 1 0 0).
    + change (nth_draw (fun n => (n, S n)) 0 9) with 9. rewrite nint_x, Hlt. destruct (Rlt_dec 0 (ex_effect 9)); [reflexivity|].
      exfalso. cbn in n. lra.
    + lia.
    + split; [|intros; lia]. change (nth_draw (fun n => (n, S n)) 0 9) with 9. change (nth_draw (fun n => (n, S n)) 0 (10 + 0)) with 10.
      rewrite Hlt. destruct (Rlt_dec (ex_effect 10) (ex_effect 9)); [|reflexivity]. exfalso. cbn in r. lra.
  - exists 0. split; [lia|]. cbn. lra.
Qed.
Print Assumptions C74_not_max_refuted.

(** ** C81: when the example can be built, and how it is configured *)
Theorem C81_succeeds_iff : forall (N G : Type) (o : numops N) big zd vd zc vc z0c m (cpds : sdict (cpd N G))
    limit units latex alg g,
  (exists e g', generate_example o big zd vd zc vc z0c m cpds limit units latex alg g = (Ok e, g')) <->
  ((forall v, paper_var m v -> exists f, entry cpds v f) /\ 1 <= m < List.length zd /\ m < List.length vd /\
   exists s d g', paper_scm m cpds = Ok s /\ generate s big g = (Ok d, g')).
Proof.
  intros N G o big zd vd zc vc z0c m cpds limit units latex alg g. split.
  - intros (e & g' & H). apply generate_example_spec in H as (s & d & x & t & y & Es & Hz & Hv & Hg & _).
    split; [exact (proj1 (paper_scm_inv _ _ _ Es))|]. split; [exact Hz|]. split; [exact Hv|]. eauto.
  - intros (_ & Hz & Hv & s & d & g' & Es & Hg). destruct (generate_all s big g d g' Hg) as (x & t & y & Hx & Ht & Hy).
    eexists. exists g'. apply generate_example_spec. exists s, d, x, t, y. repeat (split; [assumption|]). reflexivity.
Qed.
Print Assumptions C81_succeeds_iff.

Theorem C81_configuration : forall (N G : Type) (o : numops N) big zd vd zc vc z0c m (cpds : sdict (cpd N G))
    limit units latex alg g e g',
  generate_example o big zd vd zc vc z0c m cpds limit units latex alg g = (Ok e, g') ->
  List.length (e_arms e) = S (2 ^ m) /\
  e_lucb e = mkConfig (flit 5 100) f0 None (LInt limit) units /\ e_se e = e_lucb e /\
  e_uniform e = mkConfig (flit 5 100) f0 (Some (flit 5 100)) (LInt limit) units /\
  paper_scm m cpds = Ok (e_scm e) /\
  exists d x t y, generate (e_scm e) big g = (Ok d, g') /\ dcov d = Some x /\ dexp d = Some t /\ drsp d = Some y /\
    let subg := nadd o (nadd o (nvar o (List.concat (arows t))) (nvar o (List.concat (arows x)))) (nvar o (List.concat (arows y))) in
    forall i a, nth_error (e_arms e) i = Some a ->
      so_ci (pa_opts a) = alg /\ so_stable (pa_opts a) = true /\ so_subg (pa_opts a) = subg /\
      so_eta_subg (pa_opts a) = nint o 1 /\ so_tau (pa_opts a) = nint o 2 /\ so_burn (pa_opts a) = nint o 1000 /\
      so_rho (pa_opts a) = nint o 1 /\
      match i with
      | 0 => pa_eta a = FrontDoor (mkFC (nth 0 zd 0) 5 (nlit o 1 4) (nint o 10))
      | S k => pa_eta a = Aipw (mkAC (arm_dim zd vd m k) 5 (nlit o 1 4))
      end.
Proof.
  intros N G o big zd vd zc vc z0c m cpds limit units latex alg g e g' H.
  apply generate_example_spec in H as (s & d & x & t & y & Es & _ & _ & Hg & Hx & Ht & Hy & ->).
  cbn [e_arms e_lucb e_se e_uniform e_scm]. split.
  { unfold paper_arms. cbn [List.length]. now rewrite map_length, seq_length. }
  repeat (split; [reflexivity || assumption|]). exists d, x, t, y. do 4 (split; [assumption|]).
  intros i a Ha. unfold paper_arms in Ha. destruct i as [|k]; cbn [nth_error] in Ha.
  - injection Ha as <-. repeat split.
  - rewrite nth_error_map in Ha. destruct (nth_error (seq 0 (2 ^ m)) k) as [k'|] eqn:En; [|discriminate]. cbn [option_map] in Ha.
    assert (Hk : k < 2 ^ m) by (rewrite <- (seq_length (2 ^ m) 0); apply nth_error_Some; congruence).
    rewrite (nth_error_nth' (seq 0 (2 ^ m)) 0), seq_nth in En by (rewrite ?seq_length; exact Hk). injection En as <-.
    injection Ha as <-. repeat (split; [reflexivity|]). cbn [pa_eta backdoor_arm Nat.add]. rewrite arm_mask_list, arm_columns_length.
    reflexivity.
Qed.
Print Assumptions C81_configuration.

Example C81_case : forall (N : Type) (o : numops N) (x : N), exists e,
  generate_example o 2 [1; 2; 1] [0; 1; 2] x x x 2 (ex_cpds x) 100 10 true FINITE_SAMPLE tt = (Ok e, tt) /\
  map (fun a => match pa_eta a with Aipw c => ac_dim c | FrontDoor c => fc_dim c end) (e_arms e) = [1; 3; 2; 4; 3].
Proof.
  intros N o x. eexists. split.
  - apply generate_example_spec. do 5 eexists. split; [reflexivity|]. split; [cbn; lia|]. split; [cbn; lia|].
    split; [reflexivity|]. repeat (split; [reflexivity|]). reflexivity.
  - reflexivity.
Qed.

(** ** C82: dimensions for which arms raise on every data set *)
(** two or more paths: a chosen variable of dimension 0 makes np.r_ produce floats *)
Theorem C82_zero_dimension : forall (N G : Type) (o : numops N) big zd vd zc vc z0c m (cpds : sdict (cpd N G))
    limit units latex alg g e g' k i (V : Type) (d : expdata V) x,
  generate_example o big zd vd zc vc z0c m cpds limit units latex alg g = (Ok e, g') ->
  2 <= m -> k < 2 ^ m -> 1 <= i <= m -> (if observes_v k i then nth i vd 0 else nth i zd 0) = 0 ->
  dcov d = Some x ->
  exists a, nth_error (e_arms e) (S k) = Some a /\ select_fn (pa_mask a) d = Err IndexError.
Proof.
  intros N G o big zd vd zc vc z0c m cpds limit units latex alg g e g' k i V d x He Hm Hk Hi H0 Hx.
  apply generate_example_spec in He as (s & d0 & x0 & t & y & Es & _ & _ & _ & _ & _ & _ & ->).
  cbn [e_arms]. unfold paper_arms. cbn [nth_error]. rewrite nth_error_map.
  rewrite (nth_error_nth' (seq 0 (2 ^ m)) 0) by now rewrite seq_length. rewrite seq_nth by exact Hk. cbn [option_map Nat.add].
  eexists. split; [reflexivity|]. cbn [pa_mask backdoor_arm]. apply empty_block_raises with x; trivial.
  destruct (blocks_nonempty zd vd m k) eqn:E; trivial. exfalso.
  apply (proj1 (blocks_nonempty_spec zd vd m k)) with (i := i) in E; [|exact Hi]. lia.
Qed.
Print Assumptions C82_zero_dimension.

(** a non-zero placeholder v_dim[0] shifts the masks of the V_i beyond the covariates *)
Theorem C82_placeholder : forall (N G : Type) (o : numops N) big zd vd zc vc z0c m (cpds : sdict (cpd N G))
    limit units latex alg g0 e g1 n g d g' log k,
  generate_example o big zd vd zc vc z0c m cpds limit units latex alg g0 = (Ok e, g1) ->
  generate (logging (e_scm e)) n (g, []) = (Ok d, (g', log)) ->
  has_dims zd vd m (latest log) -> List.length zd = S m -> List.length vd = S m ->
  0 < nth 0 vd 0 -> 0 < nth m vd 0 -> k < 2 ^ m -> observes_v k m = true ->
  exists a, nth_error (e_arms e) (S k) = Some a /\ select_fn (pa_mask a) d = Err IndexError.
Proof.
  intros N G o big zd vd zc vc z0c m cpds limit units latex alg g0 e g1 n g d g' log k He Hg Hd Hz Hv H0 Hp Hk Hb.
  apply generate_example_spec in He as (s & d0 & x0 & t & y & Es & Hm & _ & _ & _ & _ & _ & ->). cbn [e_scm] in Hg.
  destruct (run_facts m cpds s n g d g' log zd vd Es Hg Hd) as (cols & x & _ & _ & Hx & _ & _ & _ & Hat).
  cbn [e_arms]. unfold paper_arms. cbn [nth_error]. rewrite nth_error_map.
  rewrite (nth_error_nth' (seq 0 (2 ^ m)) 0) by now rewrite seq_length. rewrite seq_nth by exact Hk. cbn [option_map Nat.add].
  eexists. split; [reflexivity|]. cbn [pa_mask backdoor_arm]. apply placeholder_raises with x; trivial. lia.
Qed.
Print Assumptions C82_placeholder.

Example C82_case : forall (d : expdata nat) x, dcov d = Some x ->
  select_fn (arm_mask [1; 0; 1] [0; 1; 2] 2 0) d = Err IndexError /\
  (atail x = [3] -> select_fn (arm_mask [1; 1] [1; 1] 1 1) d = Err IndexError).
Proof.
  intros d x Hx. split; [cbn; now rewrite Hx|]. intro Ha. cbn. unfold mask_fn, mask_cov. rewrite Hx, Ha. reflexivity.
Qed.
