(** Proofs for C166 to C168 (devices, precisions, saved models). *)

From Coq Require Import Reals List Arith Bool Lia Lra.
From Verif Require Import Prelude DevModel DevSpec.
Import ListNotations.
Open Scope R_scope.

Lemma dtype_eqb_true : forall a b, dtype_eqb a b = true <-> a = b.
Proof. intros [] []; simpl; split; congruence. Qed.

Lemma device_eqb_true : forall a b, device_eqb a b = true <-> a = b.
Proof. intros [] []; simpl; split; congruence. Qed.

Lemma device_eqb_false : forall a b, device_eqb a b = false <-> a <> b.
Proof. intros [] []; simpl; split; congruence. Qed.

Lemma dtype_eqb_refl : forall a, dtype_eqb a a = true.
Proof. intros []; reflexivity. Qed.

Lemma device_eqb_refl : forall a, device_eqb a a = true.
Proof. intros []; reflexivity. Qed.

(** ** Loading *)

Lemma cuda_or_not : forall l,
  existsb (fun t => device_eqb (t_dev t) CUDA) l = false <-> List.Forall (fun t => t_dev t = CPU) l.
Proof.
  induction l as [|t l IH]; simpl; [split; auto|].
  rewrite orb_false_iff, IH. split.
  - intros [H1 H2]. constructor; [|exact H2]. destruct (t_dev t); [reflexivity|discriminate].
  - intros H. inversion H as [|? ? H1 H2]; subst. rewrite H1. auto.
Qed.

Lemma to_cpu_id : forall l, List.Forall (fun t => t_dev t = CPU) l ->
  map (fun t => Tensor (t_dt t) CPU (t_val t)) l = l.
Proof.
  induction l as [|[d e v] l IH]; intros H; simpl; [reflexivity|].
  inversion H as [|? ? H1 H2]; subst. simpl in H1. subst e. rewrite IH; auto.
Qed.

Lemma load_processor : forall w f, on_processor f -> load_parameters w f = Ok f.
Proof.
  intros w [c v] H. unfold on_processor in H. simpl in H. unfold load_parameters.
  destruct (p_gpu w) eqn:G.
  - unfold cpu_load. simpl. rewrite to_cpu_id by exact H. unfold with_tensors.
    destruct c; reflexivity.
  - unfold pickle_load. simpl. apply cuda_or_not in H. rewrite H. reflexivity.
Qed.

Lemma load_gpu : forall w f, p_gpu w = true ->
  exists g, load_parameters w f = Ok g /\ same_content f g /\ on_processor g.
Proof.
  intros w f G. unfold load_parameters. rewrite G. unfold cpu_load.
  eexists; split; [reflexivity|]. split.
  - unfold same_content, with_tensors. simpl.
    rewrite !map_map. simpl. repeat split; reflexivity.
  - unfold on_processor, with_tensors. simpl. apply Forall_forall.
    intros t H. apply in_map_iff in H. destruct H as (u & <- & _). reflexivity.
Qed.

Lemma load_fails : forall w f e,
  load_parameters w f = Err e <-> e = RuntimeError /\ p_gpu w = false /\ ~ on_processor f.
Proof.
  intros w f e. unfold load_parameters, cpu_load, pickle_load.
  destruct (p_gpu w) eqn:G; simpl.
  - split; [discriminate|]. intros (_ & H & _). discriminate.
  - rewrite andb_true_r.
    destruct (existsb _ _) eqn:E; simpl.
    + split.
      * intros H. injection H as <-. split; [reflexivity|]. split; [reflexivity|].
        unfold on_processor. rewrite <- cuda_or_not. rewrite E. discriminate.
      * intros (-> & _). reflexivity.
    + split; [discriminate|]. intros (_ & _ & H). exfalso. apply H. apply cuda_or_not. exact E.
Qed.

(** ** Parameters *)

(** All parameters have one precision and one device, and the sizes of the configuration. *)
Definition inv (c : config) (d : dtype) (e : device) (q : problem) : Prop :=
  q_cfg q = c /\
  List.Forall (fun t => t_dt t = d /\ t_dev t = e) (ops_parameters q) /\
  map (fun t => length (t_val t)) (q_own q) = own_sizes c /\
  option_map (map (fun t => length (t_val t))) (q_net q) = c_net c.

Lemma flat_length : forall l,
  length (flat_map t_val l) = list_sum (map (fun t => length (t_val t)) l).
Proof. induction l as [|t l IH]; simpl; [reflexivity|]. rewrite app_length, IH. reflexivity. Qed.

Lemma own_sum : forall c, list_sum (own_sizes c) = if c_pq c then 5%nat else 3%nat.
Proof. intros c. unfold own_sizes. destruct (c_pq c); reflexivity. Qed.

Lemma inv_count : forall c d e q, inv c d e q ->
  length (flat_map t_val (ops_parameters q)) = count c.
Proof.
  intros c d e q (Hc & _ & Ho & Hn). unfold ops_parameters, count.
  rewrite flat_map_app, app_length, flat_length, Ho, own_sum. f_equal.
  destruct (q_net q) as [l|]; simpl in Hn; rewrite <- Hn; [apply flat_length|reflexivity].
Qed.

Lemma own_nonempty : forall c d e q, inv c d e q -> exists t l, q_own q = t :: l.
Proof.
  intros c d e q (_ & _ & Ho & _). destruct (q_own q) as [|t l]; [|eauto].
  unfold own_sizes in Ho. destruct (c_pq c); discriminate.
Qed.

Lemma promote_uniform : forall d e t l,
  List.Forall (fun t => t_dt t = d /\ t_dev t = e) (t :: l) -> promote (t :: l) = d.
Proof.
  intros d e t l H. unfold promote. destruct d.
  - replace (existsb _ _) with false; [reflexivity|]. symmetry.
    induction H as [|u m [H1 _] _ IH]; simpl; [reflexivity|]. rewrite H1, IH. reflexivity.
  - inversion H as [|? ? [H1 _] H2]; subst. simpl. rewrite H1. reflexivity.
Qed.

Lemma get_ok : forall c d e q, inv c d e q ->
  get_parameters q = Ok (Array d (flat_map t_val (ops_parameters q))).
Proof.
  intros c d e q I. destruct (own_nonempty _ _ _ _ I) as (t & l & E).
  destruct I as (_ & Hu & _). unfold get_parameters.
  destruct (ops_parameters q) as [|u m] eqn:Eo; [unfold ops_parameters in Eo; rewrite E in Eo; discriminate|].
  cbv zeta. rewrite (promote_uniform d e) by exact Hu.
  replace (forallb _ m) with true; [reflexivity|]. symmetry. apply forallb_forall.
  intros x Hx. inversion Hu as [|? ? [_ H1] H2]; subst. rewrite Forall_forall in H2.
  destruct (H2 x Hx) as [_ H3]. apply device_eqb_true. exact H3.
Qed.

Lemma fill_uniform : forall v l vals,
  List.Forall (fun t => t_dt t = t_dt v /\ t_dev t = t_dev v) (fill v vals l).
Proof. induction l as [|t l IH]; intros vals; simpl; constructor; simpl; auto. Qed.

Lemma fill_values : forall v l vals,
  flat_map t_val (fill v vals l) = firstn (length (flat_map t_val l)) vals.
Proof.
  induction l as [|t l IH]; intros vals; simpl; [reflexivity|].
  rewrite IH, app_length. symmetry.
  rewrite <- (firstn_skipn (length (t_val t)) vals) at 1.
  rewrite firstn_app, firstn_firstn, firstn_length.
  replace (Nat.min (length (t_val t) + length (flat_map t_val l)) (length (t_val t)))
    with (length (t_val t)) by lia.
  f_equal.
  destruct (Nat.le_gt_cases (length (t_val t)) (length vals)) as [H|H].
  - f_equal. lia.
  - rewrite (skipn_all2 vals) by lia. rewrite !firstn_nil. reflexivity.
Qed.

Lemma fill_sizes : forall v l vals, (length (flat_map t_val l) <= length vals)%nat ->
  map (fun t => length (t_val t)) (fill v vals l) = map (fun t => length (t_val t)) l.
Proof.
  induction l as [|t l IH]; intros vals H; simpl; [reflexivity|].
  simpl in H. rewrite app_length in H. rewrite firstn_length. f_equal; [lia|].
  apply IH. rewrite skipn_length. lia.
Qed.

Lemma fill_inv : forall c d e q v, inv c d e q -> length (t_val v) = count c ->
  inv c (t_dt v) (t_dev v) (vector_to_parameters v q).
Proof.
  intros c d e q v I Hl. pose proof (inv_count _ _ _ _ I) as Hc.
  unfold ops_parameters in Hc. rewrite flat_map_app, app_length in Hc.
  destruct I as (H1 & _ & H3 & H4). unfold inv, vector_to_parameters. simpl.
  split; [exact H1|]. split; [|split].
  - unfold ops_parameters. simpl. apply Forall_app. split; [apply fill_uniform|].
    destruct (q_net q); [apply fill_uniform|constructor].
  - rewrite fill_sizes by lia. exact H3.
  - destruct (q_net q) as [l|]; simpl in *; [|exact H4].
    rewrite fill_sizes; [exact H4|]. rewrite skipn_length. lia.
Qed.

Lemma fill_all : forall c d e q v, inv c d e q -> length (t_val v) = count c ->
  flat_map t_val (ops_parameters (vector_to_parameters v q)) = t_val v.
Proof.
  intros c d e q v I Hl. pose proof (inv_count _ _ _ _ I) as Hc.
  unfold ops_parameters in *. rewrite flat_map_app, app_length in Hc.
  unfold vector_to_parameters. simpl. rewrite flat_map_app, fill_values.
  destruct (q_net q) as [l|]; simpl in *.
  - rewrite fill_values. rewrite (firstn_all2 (skipn _ _)).
    + apply firstn_skipn.
    + rewrite skipn_length. lia.
  - rewrite app_nil_r. apply firstn_all2. lia.
Qed.

Lemma as_tensor_dt : forall w v, t_dt (as_tensor w v) = vector_dt v.
Proof. intros w []; reflexivity. Qed.

Lemma as_tensor_val : forall w v, t_val (as_tensor w v) = vector_val v.
Proof. intros w []; reflexivity. Qed.

Lemma set_spec : forall c d e q w v, inv c d e q ->
  set_parameters w v q =
    if Nat.eqb (length (vector_val v)) (count c)
    then Ok (vector_to_parameters (as_tensor w v) q) else Err ValueError.
Proof.
  intros c d e q w v I. unfold set_parameters. rewrite (get_ok _ _ _ _ I). simpl.
  rewrite as_tensor_val, (inv_count _ _ _ _ I). reflexivity.
Qed.

Lemma fresh_uniform : forall w rnd s i,
  List.Forall (fun t => t_dt t = p_dt w /\ t_dev t = p_dev w) (fresh w rnd i s).
Proof. induction s as [|n s IH]; intros i; simpl; constructor; simpl; auto. Qed.

Lemma fresh_sizes : forall w rnd s i,
  map (fun t => length (t_val t)) (fresh w rnd i s) = s.
Proof.
  induction s as [|n s IH]; intros i; simpl; [reflexivity|].
  rewrite map_length, seq_length, IH. reflexivity.
Qed.

Definition positive (c : config) : Prop := 0 < c_L c /\ 0 < c_Gamma c /\ 0 < c_sigma c.

Lemma Rltb_true : forall x y, Rltb x y = true <-> x < y.
Proof. intros x y. unfold Rltb. destruct (Rlt_dec x y); split; auto; discriminate. Qed.

Lemma positive_test : forall c,
  Rltb 0 (c_L c) && Rltb 0 (c_Gamma c) && Rltb 0 (c_sigma c) = true <-> positive c.
Proof.
  intros c. rewrite !andb_true_iff, !Rltb_true. unfold positive. tauto.
Qed.

Lemma init_effect : forall w d w', init_device w d = Ok w' ->
  p_gpu w' = p_gpu w /\ p_dt w' = built_precision w d /\ p_dev w' = built_device w d.
Proof.
  intros w d w'. unfold init_device, built_precision, built_device.
  destruct d; intros H; try (injection H as <-; auto); try discriminate.
  destruct (p_gpu w) eqn:G; injection H as <-; simpl; auto.
Qed.

Lemma init_ok : forall w d, d <> N_other -> exists w', init_device w d = Ok w'.
Proof.
  intros w d H. unfold init_device. destruct d; eauto; [|contradiction].
  destruct (p_gpu w); eauto.
Qed.

Lemma log_scales_inv : forall w c d e q, inv c d e q -> positive c ->
  exists q', log_scales w q = Ok q' /\ inv c d (p_dev w) q'.
Proof.
  intros w c d e q I Hp. unfold log_scales.
  assert (Hq : q_cfg q = c) by (destruct I; assumption). rewrite Hq.
  destruct (positive_test c) as [_ Ht]. cbv zeta. rewrite (Ht Hp).
  rewrite (get_ok _ _ _ _ I). cbn [bind a_dt a_val].
  rewrite (set_spec _ _ _ _ _ _ I).
  assert (Hl : length (vector_val (VArray (Array d
     (ln (c_L c) :: ln (c_Gamma c) :: ln (c_sigma c) :: skipn 3 (flat_map t_val (ops_parameters q))))))
     = count c).
  { cbn [vector_val a_val length]. rewrite skipn_length, (inv_count _ _ _ _ I).
    assert (3 <= count c)%nat by (unfold count; destruct (c_pq c); lia). lia. }
  rewrite Hl, Nat.eqb_refl.
  eexists; split; [reflexivity|].
  match goal with |- inv _ _ _ (vector_to_parameters ?v q) => pose proof (fill_inv c d e q v I) as F end.
  rewrite as_tensor_val in F. exact (F Hl).
Qed.

Lemma construct_cases : forall w d c rnd,
  match init_device w d with
  | Err e => construct w d c rnd = Err e
  | Ok w' =>
      (~ positive c /\ construct w d c rnd = Err AssertionError) \/
      (positive c /\ exists q, construct w d c rnd = Ok (w', q) /\ inv c (p_dt w') (p_dev w') q
         /\ q_grid_dt q = p_dt w' /\ q_grid_dev q = p_dev w')
  end.
Proof.
  intros w d c rnd. unfold construct. destruct (init_device w d) as [w'|x]; cbn [bind]; [|reflexivity].
  destruct (Rltb 0 (c_L c) && Rltb 0 (c_Gamma c) && Rltb 0 (c_sigma c)) eqn:E.
  - right. apply positive_test in E. split; [exact E|]. cbv zeta.
    set (q0 := Problem _ _ _ _ _).
    assert (I : inv c (p_dt w') (p_dev w') q0).
    { unfold inv, q0. simpl. split; [reflexivity|]. split; [|split].
      - unfold ops_parameters. simpl. apply Forall_app. split; [apply fresh_uniform|].
        destruct (c_net c); [apply fresh_uniform|constructor].
      - apply fresh_sizes.
      - destruct (c_net c) as [s|]; simpl; [|reflexivity]. rewrite fresh_sizes. reflexivity. }
    destruct (log_scales_inv w' _ _ _ _ I E) as (q & Hq & Iq).
    rewrite Hq. cbn [bind]. exists q. split; [reflexivity|]. split; [exact Iq|].
    unfold log_scales in Hq. change (q_cfg q0) with c in Hq. cbv zeta in Hq.
    destruct (positive_test c) as [_ Ht]. rewrite (Ht E) in Hq.
    rewrite (get_ok _ _ _ _ I) in Hq. cbn [bind] in Hq.
    rewrite (set_spec _ _ _ _ _ _ I) in Hq.
    destruct (Nat.eqb _ _); [|discriminate]. injection Hq as <-. split; reflexivity.
  - left. split; [|reflexivity]. intros H. apply positive_test in H. congruence.
Qed.

Lemma construct_inv : forall w d c rnd w' q, construct w d c rnd = Ok (w', q) ->
  init_device w d = Ok w' /\ positive c /\ inv c (p_dt w') (p_dev w') q /\
  q_grid_dt q = p_dt w' /\ q_grid_dev q = p_dev w'.
Proof.
  intros w d c rnd w' q H. pose proof (construct_cases w d c rnd) as C.
  destruct (init_device w d) as [w1|x]; [|congruence].
  destruct C as [[_ C]|[P (q1 & C & I & G)]]; [congruence|].
  rewrite H in C. injection C as <- <-. auto.
Qed.

Lemma retouch_sizes : forall opt l i,
  map (fun t => length (t_val t)) (retouch opt i l) = map (fun t => length (t_val t)) l.
Proof.
  induction l as [|t l IH]; intros i; simpl; [reflexivity|].
  rewrite IH, firstn_length, app_length, repeat_length. f_equal. lia.
Qed.

Lemma retouch_uniform : forall opt d e l i,
  List.Forall (fun t => t_dt t = d /\ t_dev t = e) l ->
  List.Forall (fun t => t_dt t = d /\ t_dev t = e) (retouch opt i l).
Proof.
  induction l as [|t l IH]; intros i H; simpl; [constructor|].
  inversion H as [|? ? H1 H2]; subst. constructor; [exact H1|apply IH; exact H2].
Qed.

Lemma calibrate_inv : forall c d e q k1 opt q', inv c d e q -> calibrate k1 opt q = Ok q' ->
  inv c d e q' /\ q_grid_dt q' = q_grid_dt q /\ q_grid_dev q' = q_grid_dev q.
Proof.
  intros c d e q k1 opt q' (H1 & H2 & H3 & H4) H. unfold calibrate in H.
  destruct (ops_forward k1 q); [|discriminate]. cbn [bind] in H. injection H as <-. simpl.
  split; [|auto]. unfold inv. simpl. split; [exact H1|]. split; [|split].
  - unfold ops_parameters in *. simpl. apply Forall_app in H2. destruct H2 as [H5 H6].
    apply Forall_app. split; [apply retouch_uniform; exact H5|].
    destruct (q_net q); [apply retouch_uniform; exact H6|constructor].
  - rewrite retouch_sizes. exact H3.
  - destruct (q_net q) as [l|]; simpl in *; [|exact H4]. rewrite retouch_sizes. exact H4.
Qed.

Lemma acts_inv : forall l c d e w q w' q', inv c d e q -> acts (w, q) l = (w', q') ->
  (exists e', inv c (last_precision (count c) d l) e' q' /\ (only_calibrated l -> e' = e)) /\
  q_grid_dt q' = q_grid_dt q /\ q_grid_dev q' = q_grid_dev q.
Proof.
  unfold acts. induction l as [|a l IH]; intros c d e w q w' q' I H.
  - cbn [fold_left] in H. injection H as <- <-. split; [exists e; auto|auto].
  - cbn [fold_left] in H. destruct (act (w, q) a) as [w1 q1] eqn:Ea.
    assert (G : exists d1 e1, inv c d1 e1 q1 /\
              last_precision (count c) d (a :: l) = last_precision (count c) d1 l /\
              (only_calibrated (a :: l) -> e1 = e /\ only_calibrated l) /\
              q_grid_dt q1 = q_grid_dt q /\ q_grid_dev q1 = q_grid_dev q).
    { assert (Tl : only_calibrated (a :: l) -> only_calibrated l)
        by (intros O; inversion O; assumption).
      destruct a as [d1|n c1 rnd|v|k1 opt]; cbn [act] in Ea.
      - injection Ea as <- <-. exists d, e. split; [exact I|]. auto.
      - destruct (init_device w n); injection Ea as <- <-; exists d, e; (split; [exact I|]); auto.
      - rewrite (set_spec _ _ _ _ _ _ I) in Ea.
        cbn [last_precision].
        assert (No : ~ only_calibrated (SetParameters v :: l))
          by (intros O; inversion O; assumption).
        destruct (Nat.eqb (length (vector_val v)) (count c)) eqn:El.
        + injection Ea as <- <-. apply Nat.eqb_eq in El.
          exists (vector_dt v), (t_dev (as_tensor w v)).
          rewrite <- (as_tensor_dt w v). split; [|split; [reflexivity|split; [tauto|split; reflexivity]]].
          apply (fill_inv c d e); [exact I|]. rewrite as_tensor_val. exact El.
        + injection Ea as <- <-. exists d, e. split; [exact I|]. split; [reflexivity|]. tauto.
      - destruct (calibrate k1 opt q) as [q2|x] eqn:Ec; injection Ea as <- <-.
        + destruct (calibrate_inv _ _ _ _ _ _ _ I Ec) as (I2 & G1 & G2).
          exists d, e. split; [exact I2|]. auto.
        + exists d, e. split; [exact I|]. auto. }
    destruct G as (d1 & e1 & I1 & Hd & Ho & G1 & G2).
    destruct (IH c d1 e1 w1 q1 w' q' I1 H) as ((e' & I' & O') & G3 & G4).
    rewrite Hd. split; [|split; congruence].
    exists e'. split; [exact I'|]. intros O. destruct (Ho O) as [-> O2]. exact (O' O2).
Qed.

Lemma last_only : forall n l d, only_calibrated l -> last_precision n d l = d.
Proof.
  induction l as [|a l IH]; intros d O; [reflexivity|]. inversion O as [|? ? H1 H2]; subst.
  destruct a; try contradiction; cbn [last_precision]; apply IH; exact H2.
Qed.

Lemma saved_precision : forall w d c rnd w1 q1 l w2 q2,
  construct w d c rnd = Ok (w1, q1) -> acts (w1, q1) l = (w2, q2) ->
  exists f, save_model q2 = Ok f /\ s_cfg f = c /\
    a_dt (s_vec f) = last_precision (count c) (built_precision w d) l /\
    length (a_val (s_vec f)) = count c.
Proof.
  intros w d c rnd w1 q1 l w2 q2 H1 H2.
  destruct (construct_inv _ _ _ _ _ _ H1) as (Hi & _ & I & _).
  destruct (acts_inv _ _ _ _ _ _ _ _ I H2) as ((e & I2 & _) & _).
  destruct (init_effect _ _ _ Hi) as (_ & Hd & _). rewrite Hd in I2.
  unfold save_model. rewrite (get_ok _ _ _ _ I2). cbn [bind]. eexists; split; [reflexivity|].
  cbn [s_cfg s_vec a_dt a_val]. split; [apply I2|]. split; [reflexivity|].
  exact (inv_count _ _ _ _ I2).
Qed.

(** ** The generator *)

Lemma forward_uniform : forall d e k_dt k_dev n s l,
  List.Forall (fun t => t_dt t = d /\ t_dev t = e) l ->
  map (fun t => length (t_val t)) l = n :: s ->
  net_forward k_dt k_dev l =
    if dtype_eqb d k_dt && device_eqb e k_dev then Ok tt else Err RuntimeError.
Proof.
  intros d e k_dt k_dev n s l H Hl. unfold net_forward.
  destruct (dtype_eqb d k_dt && device_eqb e k_dev) eqn:E.
  - replace (forallb _ l) with true; [reflexivity|]. symmetry. apply forallb_forall.
    intros t Ht. rewrite Forall_forall in H. destruct (H t Ht) as [-> ->]. exact E.
  - destruct l as [|t l]; [discriminate|]. inversion H as [|? ? [H1 H2] H3]; subst.
    simpl. rewrite E. reflexivity.
Qed.

Lemma generator_from : forall w f g rnd n s,
  load_parameters w f = Ok g -> positive (s_cfg g) -> c_net (s_cfg g) = Some (n :: s) ->
  length (a_val (s_vec g)) = count (s_cfg g) ->
  (a_dt (s_vec g) = F32 -> drd_generator w f rnd = Err RuntimeError) /\
  (a_dt (s_vec g) = F64 -> exists w' q', drd_generator w f rnd = Ok (w', q') /\
     get_parameters q' = Ok (s_vec g)).
Proof.
  intros w f g rnd n s Hl Hp Hn Hc. unfold drd_generator. rewrite Hl. cbn [bind].
  set (nm := if p_gpu w then N_cuda else N_cpu).
  destruct (init_ok w nm) as (w' & Hi); [unfold nm; destruct (p_gpu w); discriminate|].
  pose proof (construct_cases w nm (s_cfg g) rnd) as C. rewrite Hi in C.
  destruct C as [[C _]|[_ (q & C & I & _)]]; [contradiction|]. rewrite C. cbn [bind].
  rewrite (set_spec _ _ _ _ _ _ I). cbn [vector_val]. rewrite Hc, Nat.eqb_refl. cbn [bind].
  set (v := as_tensor w' (VArray (s_vec g))).
  assert (I' : inv (s_cfg g) (a_dt (s_vec g)) (p_dev w') (vector_to_parameters v q)).
  { apply (fill_inv _ _ _ q v I). exact Hc. }
  destruct I' as (I1 & I2 & I3 & I4). rewrite Hn in I4.
  pose proof (get_ok (s_cfg g) (a_dt (s_vec g)) (p_dev w') (vector_to_parameters v q)) as Gt.
  pose proof (fill_all _ _ _ q v I Hc) as Fa.
  destruct (q_net (vector_to_parameters v q)) as [l|] eqn:En; [|discriminate].
  simpl in I4. injection I4 as I4.
  assert (Hu : List.Forall (fun t => t_dt t = a_dt (s_vec g) /\ t_dev t = p_dev w') l).
  { unfold ops_parameters in I2. rewrite En in I2. apply Forall_app in I2. apply I2. }
  rewrite (forward_uniform _ _ _ _ _ _ _ Hu I4). rewrite device_eqb_refl.
  split; intros Hd; rewrite Hd in *; cbn [dtype_eqb andb bind].
  - reflexivity.
  - exists w', (vector_to_parameters v q). split; [reflexivity|].
    rewrite Gt.
    + rewrite Fa. unfold v. cbn [as_tensor t_val]. rewrite <- Hd. destruct (s_vec g); reflexivity.
    + split; [exact I1|]. split; [exact I2|]. split; [exact I3|].
      rewrite En, Hn. simpl. rewrite I4. reflexivity.
Qed.

Lemma loaded_same : forall w f g, load_parameters w f = Ok g ->
  s_vec g = s_vec f /\ count (s_cfg g) = count (s_cfg f) /\ c_net (s_cfg g) = c_net (s_cfg f) /\
  (positive (s_cfg f) -> positive (s_cfg g)).
Proof.
  intros w f g. unfold load_parameters, cpu_load, pickle_load.
  destruct (p_gpu w).
  - intros H. injection H as <-. unfold positive, count. simpl. auto.
  - destruct (_ && _); intros H; [discriminate|]. injection H as <-. auto.
Qed.

Lemma usable : forall w d c rnd w1 q1 l w2 q2 f n s v rnd2,
  construct w d c rnd = Ok (w1, q1) -> acts (w1, q1) l = (w2, q2) ->
  save_model q2 = Ok f -> c_net c = Some (n :: s) ->
  (exists r, drd_generator v f rnd2 = Ok r) <->
  (last_precision (count c) (built_precision w d) l = F64 /\ (p_gpu v = true \/ on_processor f)).
Proof.
  intros w d c rnd w1 q1 l w2 q2 f n s v rnd2 H1 H2 H3 Hn.
  destruct (saved_precision _ _ _ _ _ _ _ _ _ H1 H2) as (f' & Hf & Hc & Hd & Hlen).
  rewrite H3 in Hf. injection Hf as <-. rewrite <- Hd.
  destruct (construct_inv _ _ _ _ _ _ H1) as (_ & Hp & _).
  destruct (load_parameters v f) as [g|x] eqn:E.
  - destruct (loaded_same _ _ _ E) as (L1 & L2 & L3 & L4). rewrite Hc in L2, L3, L4.
    destruct (generator_from v f g rnd2 n s E (L4 Hp)) as [B1 B2].
    + rewrite L3. exact Hn.
    + rewrite L1, L2. exact Hlen.
    + rewrite L1 in B1, B2. split.
      * intros [r Hr]. destruct (a_dt (s_vec f)) eqn:Ea.
        -- rewrite (B1 eq_refl) in Hr. discriminate.
        -- split; [reflexivity|]. destruct (p_gpu v) eqn:Eg; [left; reflexivity|right].
           apply cuda_or_not. unfold load_parameters, pickle_load in E. rewrite Eg in E. simpl in E.
           rewrite andb_true_r in E. destruct (existsb _ _); [discriminate|reflexivity].
      * intros [Ha _]. destruct (B2 Ha) as (w' & q' & Hg & _). eauto.
  - split.
    + intros [r Hr]. unfold drd_generator in Hr. rewrite E in Hr. discriminate.
    + intros [_ Hor]. apply load_fails in E. destruct E as (_ & G & N).
      destruct Hor as [Hor|Hor]; [congruence|contradiction].
Qed.

Lemma generator_values : forall w d c rnd w1 q1 l w2 q2 f v rnd2 v' q',
  construct w d c rnd = Ok (w1, q1) -> acts (w1, q1) l = (w2, q2) -> save_model q2 = Ok f ->
  drd_generator v f rnd2 = Ok (v', q') -> get_parameters q' = get_parameters q2.
Proof.
  intros w d c rnd w1 q1 l w2 q2 f v rnd2 v' q' H1 H2 H3 H4.
  destruct (saved_precision _ _ _ _ _ _ _ _ _ H1 H2) as (f' & Hf & Hc & Hd & Hlen).
  rewrite H3 in Hf. injection Hf as <-.
  destruct (construct_inv _ _ _ _ _ _ H1) as (_ & Hp & _).
  assert (Hg2 : get_parameters q2 = Ok (s_vec f)).
  { unfold save_model in H3. destruct (get_parameters q2); [|discriminate].
    cbn [bind] in H3. injection H3 as <-. reflexivity. }
  rewrite Hg2. unfold drd_generator in H4.
  destruct (load_parameters v f) as [g|x] eqn:E; [|discriminate]. cbn [bind] in H4.
  destruct (loaded_same _ _ _ E) as (L1 & L2 & L3 & L4). rewrite Hc in L2, L3, L4.
  destruct (construct v _ (s_cfg g) rnd2) as [[w3 q3]|x] eqn:C; [|discriminate]. cbn [bind] in H4.
  destruct (construct_inv _ _ _ _ _ _ C) as (_ & _ & I & _).
  rewrite (set_spec _ _ _ _ _ _ I) in H4. cbn [vector_val] in H4.
  destruct (Nat.eqb _ _) eqn:En; [|discriminate]. apply Nat.eqb_eq in En. cbn [bind] in H4.
  set (u := as_tensor w3 (VArray (s_vec g))) in *.
  assert (Hq : q' = vector_to_parameters u q3).
  { destruct (q_net (vector_to_parameters u q3)); [|discriminate].
    destruct (net_forward _ _ _); [|discriminate]. cbn [bind] in H4. injection H4 as _ <-. reflexivity. }
  subst q'. rewrite (get_ok (s_cfg g) (a_dt (s_vec g)) (p_dev w3)).
  - rewrite (fill_all _ _ _ q3 u I En). unfold u. cbn [as_tensor t_val]. rewrite L1.
    destruct (s_vec f); reflexivity.
  - apply (fill_inv _ _ _ q3 u I). exact En.
Qed.

(** ** Calibration *)

Lemma forward_spec : forall c d e q k1, inv c d e q ->
  (match c_net c with Some [] => False | _ => True end) ->
  ((exists u, ops_forward k1 q = Ok u) <->
   t_dt k1 = q_grid_dt q /\ t_dev k1 = q_grid_dev q /\
   (c_net c <> None -> t_dt k1 = d /\ t_dev k1 = e)) /\
  (forall x, ops_forward k1 q = Err x -> x = RuntimeError).
Proof.
  intros c d e q k1 (I1 & I2 & I3 & I4) Hne. unfold ops_forward.
  destruct (dtype_eqb (t_dt k1) (q_grid_dt q)) eqn:E1;
  destruct (device_eqb (t_dev k1) (q_grid_dev q)) eqn:E2; cbn [andb];
    try (split; [split; [intros [u Hu]; discriminate|]|intros x Hx; congruence];
         intros (A & B & _); rewrite A in E1; rewrite B in E2;
         rewrite ?dtype_eqb_refl, ?device_eqb_refl in *; discriminate).
  apply dtype_eqb_true in E1. apply device_eqb_true in E2.
  destruct (q_net q) as [l|] eqn:En; simpl in I4; rewrite <- I4 in Hne |- *.
  - destruct (map _ l) as [|n s] eqn:Em; [contradiction|].
    assert (Hu : List.Forall (fun t => t_dt t = d /\ t_dev t = e) l).
    { unfold ops_parameters in I2. rewrite En in I2. apply Forall_app in I2. apply I2. }
    rewrite (forward_uniform _ _ _ _ _ _ _ Hu Em).
    destruct (dtype_eqb d (t_dt k1)) eqn:F1; destruct (device_eqb e (t_dev k1)) eqn:F2; cbn [andb];
      (split; [|intros x Hx; congruence]).
    + apply dtype_eqb_true in F1. apply device_eqb_true in F2. subst d e.
      split; [intros _|intros _; eauto]. repeat split; auto.
    + split; [intros [u Hu2]; discriminate|]. intros (_ & _ & K).
      destruct K as [_ K2]; [discriminate|]. rewrite K2, device_eqb_refl in F2. discriminate.
    + split; [intros [u Hu2]; discriminate|]. intros (_ & _ & K).
      destruct K as [K1 _]; [discriminate|]. rewrite K1, dtype_eqb_refl in F1. discriminate.
    + split; [intros [u Hu2]; discriminate|]. intros (_ & _ & K).
      destruct K as [K1 _]; [discriminate|]. rewrite K1, dtype_eqb_refl in F1. discriminate.
  - split; [|intros x Hx; discriminate]. split; [intros _|intros _; eauto].
    repeat split; auto; congruence.
Qed.

Lemma calibrate_forward : forall k1 opt q,
  (exists q', calibrate k1 opt q = Ok q') <-> (exists u, ops_forward k1 q = Ok u).
Proof.
  intros k1 opt q. unfold calibrate. destruct (ops_forward k1 q) as [u|x]; cbn [bind].
  - split; eauto.
  - split; intros [y H]; discriminate.
Qed.

Lemma calibrate_precision : forall w d c rnd w1 q1 l w2 q2 k1 opt n s,
  construct w d c rnd = Ok (w1, q1) -> acts (w1, q1) l = (w2, q2) -> c_net c = Some (n :: s) ->
  (t_dt k1 <> built_precision w d \/
   last_precision (count c) (built_precision w d) l <> built_precision w d) ->
  calibrate k1 opt q2 = Err RuntimeError.
Proof.
  intros w d c rnd w1 q1 l w2 q2 k1 opt n s H1 H2 Hn Hor.
  destruct (construct_inv _ _ _ _ _ _ H1) as (Hi & _ & I & G1 & G2).
  destruct (acts_inv _ _ _ _ _ _ _ _ I H2) as ((e & I2 & _) & G3 & G4).
  destruct (init_effect _ _ _ Hi) as (_ & Hd & He). rewrite Hd in I2, G1. rewrite He in G2.
  assert (N : match c_net c with Some [] => False | _ => True end) by (rewrite Hn; exact Logic.I).
  destruct (forward_spec _ _ _ _ k1 I2 N) as (F & R1).
  unfold calibrate. destruct (ops_forward k1 q2) as [u|x] eqn:E; cbn [bind].
  - exfalso. destruct F as [F _]. destruct F as (A & _ & B); [eauto|].
    rewrite G3, G1 in A. destruct B as [B _]; [rewrite Hn; discriminate|].
    destruct Hor as [Hor|Hor]; [contradiction|]. apply Hor. congruence.
  - rewrite (R1 x eq_refl). reflexivity.
Qed.

Lemma calibrate_fits : forall w d c rnd w1 q1 l w2 q2 k1 opt,
  construct w d c rnd = Ok (w1, q1) -> acts (w1, q1) l = (w2, q2) -> only_calibrated l ->
  c_net c <> Some [] ->
  ((exists q', calibrate k1 opt q2 = Ok q') <->
   t_dt k1 = built_precision w d /\ t_dev k1 = built_device w d).
Proof.
  intros w d c rnd w1 q1 l w2 q2 k1 opt H1 H2 Ho Hn.
  destruct (construct_inv _ _ _ _ _ _ H1) as (Hi & _ & I & G1 & G2).
  destruct (acts_inv _ _ _ _ _ _ _ _ I H2) as ((e & I2 & Oe) & G3 & G4).
  destruct (init_effect _ _ _ Hi) as (_ & Hd & He).
  rewrite (Oe Ho), (last_only _ _ _ Ho) in I2. rewrite Hd, He in I2.
  rewrite Hd in G1. rewrite He in G2. rewrite calibrate_forward.
  assert (N : match c_net c with Some [] => False | _ => True end).
  { destruct (c_net c) as [[|]|]; auto. }
  destruct (forward_spec _ _ _ _ k1 I2 N) as (F & _). rewrite F, G3, G4, G1, G2.
  split; [tauto|]. intros [A B]. auto.
Qed.

(** ** Defaults of the process *)

Lemma defaults_kept : forall w d c rnd w' q, construct w d c rnd = Ok (w', q) ->
  (d <> N_cuda \/ p_gpu w = false) -> w' = w.
Proof.
  intros w d c rnd w' q H Hor. destruct (construct_inv _ _ _ _ _ _ H) as (Hi & _).
  unfold init_device in Hi. destruct d; try (injection Hi as <-; reflexivity); [|discriminate].
  destruct Hor as [Hor|Hor]; [contradiction|]. rewrite Hor in Hi. injection Hi as <-. reflexivity.
Qed.

Lemma built_there : forall w d c rnd w' q, construct w d c rnd = Ok (w', q) ->
  lives_on (built_device w d) q.
Proof.
  intros w d c rnd w' q H. destruct (construct_inv _ _ _ _ _ _ H) as (Hi & _ & I & _).
  destruct (init_effect _ _ _ Hi) as (_ & _ & He). rewrite He in I.
  unfold lives_on. destruct I as (_ & I & _). eapply Forall_impl; [|exact I].
  intros t [_ Ht]. exact Ht.
Qed.

(** ** A concrete problem *)

(** A network of one hidden layer of two nodes, a domain on `e`. *)
Definition demo (e : device) : config :=
  Config 1 1 1 true (Some [6; 6]%nat) [Tensor F32 e [1; 2]].

Lemma demo_positive : forall e, positive (demo e).
Proof. intros e. unfold positive, demo. simpl. lra. Qed.

Lemma demo_construct : forall w d e, d <> N_other ->
  exists w' q, construct w d (demo e) (fun _ => 0) = Ok (w', q).
Proof.
  intros w d e H. destruct (init_ok w d H) as (w' & Hi).
  pose proof (construct_cases w d (demo e) (fun _ => 0)) as C. rewrite Hi in C.
  destruct C as [[C _]|[_ (q & C & _)]]; [destruct (C (demo_positive e))|eauto].
Qed.

Lemma load_refuted : exists w c rnd w1 q1 f,
  p_gpu w = true /\ construct w N_cuda c rnd = Ok (w1, q1) /\ save_model q1 = Ok f /\
  forall v rnd2, p_gpu v = false ->
    load_parameters v f = Err RuntimeError /\ drd_generator v f rnd2 = Err RuntimeError.
Proof.
  destruct (demo_construct (Process true F64 CPU) N_cuda CUDA) as (w1 & q1 & C); [discriminate|].
  destruct (saved_precision _ _ _ _ _ _ [] _ _ C eq_refl) as (f & Hf & Hc & _).
  exists (Process true F64 CPU), (demo CUDA), (fun _ => 0), w1, q1, f.
  split; [reflexivity|]. split; [exact C|]. split; [exact Hf|].
  intros v rnd2 G.
  assert (E : load_parameters v f = Err RuntimeError).
  { apply load_fails. split; [reflexivity|]. split; [exact G|]. unfold on_processor. rewrite Hc.
    intros H. inversion H as [|? ? H1 _]; subst. discriminate. }
  split; [exact E|]. unfold drd_generator. rewrite E. reflexivity.
Qed.

Lemma single_unusable : forall w d c rnd w1 q1 l w2 q2 n s,
  construct w d c rnd = Ok (w1, q1) -> acts (w1, q1) l = (w2, q2) -> only_calibrated l ->
  built_precision w d = F32 -> c_net c = Some (n :: s) ->
  exists f, save_model q2 = Ok f /\ forall v rnd2, drd_generator v f rnd2 = Err RuntimeError.
Proof.
  intros w d c rnd w1 q1 l w2 q2 n s H1 H2 Ho Hb Hn.
  destruct (saved_precision _ _ _ _ _ _ _ _ _ H1 H2) as (f & Hf & Hc & Hd & Hlen).
  exists f. split; [exact Hf|]. intros v rnd2.
  destruct (construct_inv _ _ _ _ _ _ H1) as (_ & Hp & _).
  rewrite (last_only _ _ _ Ho), Hb in Hd.
  destruct (load_parameters v f) as [g|x] eqn:E.
  - destruct (loaded_same _ _ _ E) as (L1 & L2 & L3 & L4). rewrite Hc in L2, L3, L4.
    destruct (generator_from v f g rnd2 n s E (L4 Hp)) as [B1 _].
    + rewrite L3. exact Hn.
    + rewrite L1, L2. exact Hlen.
    + apply B1. rewrite L1. exact Hd.
  - unfold drd_generator. rewrite E. apply load_fails in E. destruct E as (-> & _). reflexivity.
Qed.
