(** Property theorems: problem objects through their life, model files step by step,
    loss plots (C117-C124). *)

From Coq Require Import String Reals List Arith ZArith Bool Lra Lia Permutation.
From Verif Require Import Prelude RdtModel SpectraModel OpsModel LossModel CalModel ProbModel.
From Verif Require Import CalSpec ProbSpec CalMore ProbProofs ProbFiles.
Import ListNotations.
Open Scope R_scope.

(** A session for the examples: the dictionary true can be fitted, false has no "k1". *)
Definition prep (epochs : nat) (d : bool) (_ : module_params) : res train_cfg :=
  if d then Ok (easy epochs) else Err KeyError.
Definition plain : module_params := MP 1 2 3 None None.
Definition fresh (m : module_params) : object bool := Object TWOTHIRD m None None.
Definition move_opt (v : list R) (_ : nat) (_ : tstate) : strategy := Finish v.
Definition keep_rate (_ : nat) (r : R) : R := r.

Lemma no_epochs_fit : forall o : object bool, mp_pq (ob_mod o) = None -> exists v,
  calibrate_op (prep 0) lazy_opt keep_rate true o = (Ok v, Object (ob_type o) (ob_mod o) (Some true) (Some v))
  /\ v = map exp (firstn 3 (get_parameters (ob_mod o))).
Proof.
  intros o Q. unfold calibrate_op, prep. cbn [easy tg_loss tg_k1 tg_zref tg_args0 tg_nepochs tg_lr].
  destruct (easy_eval agg_init) as (a & ->). cbn [train_run ts_mod]. unfold calibrated_params.
  destruct (ob_mod o) as [x y w pq net]. cbn in Q. subst pq. cbn [get_parameters tensors concat app mp_logL mp_logT mp_logM mp_pq mp_net].
  eexists. split; reflexivity.
Qed.

(** C117 *)

Theorem C117_raises_until_fit : forall D prepare l (o : object D) rs o', ob_calibrated o = None ->
  session prepare l o = (rs, o') -> (print_op o' = Err ValueError <-> no_fit l rs).
Proof. exact print_before_fit. Qed.
Print Assumptions C117_raises_until_fit.

Theorem C117_prints_latest_fit : forall D prepare before opt sched d after (o : object D) rs1 v rs2 o',
  session prepare (before ++ Calibrate opt sched d :: after) o = (rs1 ++ Ok v :: rs2, o') ->
  length rs1 = length before -> no_fit after rs2 -> print_op o' = Ok v.
Proof. exact print_last_fit. Qed.
Print Assumptions C117_prints_latest_fit.

Theorem C117_returned_values : forall D prepare opt sched d (o : object D),
  fst (calibrate_op prepare opt sched d o)
  = bind (prepare d (ob_mod o)) (fun c => bind (fst (calibrate c opt sched (ob_mod o))) (fun r => Ok (fst r))).
Proof. exact calibrate_op_refines. Qed.
Print Assumptions C117_returned_values.

Example C117_case : exists rs o',
  session (prep 0) [Print; Calibrate lazy_opt keep_rate false; Assign [1]; Print] (fresh plain) = (rs, o')
  /\ no_fit [Print; Calibrate lazy_opt keep_rate false; Assign [1]; Print] rs /\ print_op o' = Err ValueError.
Proof.
  eexists. eexists. split; [reflexivity|]. split; [|reflexivity].
  constructor; [exact I|]. constructor; [exists KeyError; reflexivity|]. repeat (constructor; [exact I|]). constructor.
Qed.

Example C117_latest_case : exists rs o',
  session (prep 0) ([Print] ++ Calibrate lazy_opt keep_rate true :: [Calibrate lazy_opt keep_rate false]) (fresh plain) = (rs, o')
  /\ print_op o' = Ok [exp 1; exp 2; exp 3].
Proof.
  destruct (no_epochs_fit (fresh plain) eq_refl) as (v & E & V).
  exists ([Err ValueError] ++ Ok v :: [Err KeyError]). eexists.
  assert (S : session (prep 0) ([Print] ++ Calibrate lazy_opt keep_rate true :: [Calibrate lazy_opt keep_rate false]) (fresh plain)
    = ([Err ValueError] ++ Ok v :: [Err KeyError], Object TWOTHIRD plain (Some false) (Some v))).
  { cbn [app session run_op print_op fresh ob_calibrated]. fold (fresh plain). rewrite E. reflexivity. }
  split; [exact S|]. rewrite (C117_prints_latest_fit _ _ _ _ _ _ _ _ _ _ _ _ S); [rewrite V; reflexivity|reflexivity|].
  constructor; [exists KeyError; reflexivity|constructor].
Qed.

(** C118 *)

Theorem C118_refuted : forall D prepare opt sched d (o : object D) v o1 w,
  calibrate_op prepare opt sched d o = (Ok v, o1) -> length w = length (get_parameters (ob_mod o1)) ->
  firstn 3 w <> firstn 3 (get_parameters (ob_mod o1)) ->
  exists o2, assign_op w o1 = (Ok [], o2) /\ get_parameters (ob_mod o2) = w
    /\ print_op o2 = Ok v /\ ~ describes v (ob_mod o2).
Proof. exact assign_stale. Qed.
Print Assumptions C118_refuted.

Theorem C118_after_fit_partial : forall D prepare opt sched d (o : object D) v o',
  calibrate_op prepare opt sched d o = (Ok v, o') -> describes v (ob_mod o').
Proof. exact fit_describes. Qed.
Print Assumptions C118_after_fit_partial.

Theorem C118_quiet_partial : forall D prepare l (o : object D) rs o', session prepare l o = (rs, o') ->
  Forall2 (fun p r => match p with
                      | Calibrate _ _ d => exists e, forall m, prepare d m = Err e
                      | Assign _ => exists e, r = Err e
                      | Print => True end) l rs ->
  ob_mod o' = ob_mod o /\ ob_calibrated o' = ob_calibrated o.
Proof. exact quiet_ops. Qed.
Print Assumptions C118_quiet_partial.

(** C118: after any session ending in an accepted assignment, the parameters are the ones
    assigned. *)
Theorem C118_assigned_partial : forall D prepare l w (o : object D) rs o',
  session prepare (l ++ [Assign w]) o = (rs ++ [Ok []], o') -> get_parameters (ob_mod o') = w.
Proof. exact assigned_last. Qed.
Print Assumptions C118_assigned_partial.

Example C118_assigned_case : exists rs o',
  session (prep 0) ([Assign [7]; Print] ++ [Assign [4; 5; 6]]) (fresh plain) = (rs ++ [Ok []], o') /\ get_parameters (ob_mod o') = [4; 5; 6].
Proof. exists [Err ValueError; Err ValueError]. eexists. split; [reflexivity|]. exact (C118_assigned_partial _ (prep 0) [Assign [7]; Print] [4; 5; 6] (fresh plain) [Err ValueError; Err ValueError] _ eq_refl). Qed.

Example C118_case : exists v o1 o2, calibrate_op (prep 0) lazy_opt keep_rate true (fresh plain) = (Ok v, o1)
  /\ assign_op [4; 5; 6] o1 = (Ok [], o2) /\ print_op o2 = Ok [exp 1; exp 2; exp 3]
  /\ ~ describes [exp 1; exp 2; exp 3] (ob_mod o2).
Proof.
  destruct (no_epochs_fit (fresh plain) eq_refl) as (v & E & V).
  destruct (C118_refuted _ _ _ _ _ _ _ _ [4; 5; 6] E) as (o2 & A & _ & P & N); [reflexivity|cbn; intros H; inversion H; lra|].
  exists v. eexists. exists o2. split; [exact E|]. split; [exact A|]. change [exp 1; exp 2; exp 3] with (map exp (firstn 3 (get_parameters plain))).
  cbn [fresh ob_mod] in V. rewrite <- V. split; assumption.
Qed.

Example C118_quiet_case : exists rs o', session (prep 0) [Calibrate lazy_opt keep_rate false; Assign [1]; Print] (fresh plain) = (rs, o')
  /\ ob_mod o' = plain.
Proof.
  eexists. eexists. split; [reflexivity|].
  refine (proj1 (C118_quiet_partial _ (prep 0) [Calibrate lazy_opt keep_rate false; Assign [1]; Print] (fresh plain) _ _ eq_refl _)).
  constructor; [exists KeyError; reflexivity|]. constructor; [exists ValueError; reflexivity|]. constructor; [exact I|constructor].
Qed.

(** C119 *)

Theorem C119_refuted : forall D prepare opt sched d (o : object D) c l a v,
  prepare d (ob_mod o) = Ok c -> mp_pq (ob_mod o) = None -> (1 <= tg_nepochs c)%nat ->
  agg_eval (tg_loss c) (tg_k1 c) (tg_zref c) agg_init (tg_args0 c (ob_mod o)) = (Ok l, a) ->
  (forall s, opt 1%nat s = Finish v) -> length v = length (get_parameters (ob_mod o)) ->
  exists o', calibrate_op prepare opt sched d o = (Err AttributeError, o') /\ get_parameters (ob_mod o') = v.
Proof. exact failed_moves. Qed.
Print Assumptions C119_refuted.

Theorem C119_kept_partial : forall D prepare opt sched d (o : object D) e o',
  calibrate_op prepare opt sched d o = (Err e, o') ->
  (forall n s, keeps_length (length (get_parameters (ob_mod o))) (opt n s)) ->
  ob_type o' = ob_type o /\ print_op o' = print_op o /\ ob_data o' = Some d
  /\ same_architecture (ob_mod o) (ob_mod o')
  /\ length (get_parameters (ob_mod o')) = length (get_parameters (ob_mod o)).
Proof. exact failed_keeps. Qed.
Print Assumptions C119_kept_partial.

Example C119_case : exists o', calibrate_op (prep 5) (move_opt [7; 8; 9]) keep_rate true (fresh plain) = (Err AttributeError, o')
  /\ get_parameters (ob_mod o') = [7; 8; 9] /\ get_parameters (ob_mod o') <> get_parameters plain
  /\ print_op o' = Err ValueError.
Proof.
  destruct (easy_eval agg_init) as (a & A).
  destruct (C119_refuted _ (prep 5) (move_opt [7; 8; 9]) keep_rate true (fresh plain) (easy 5) (Fin 0) a [7; 8; 9]) as (o' & E & G);
    [reflexivity|reflexivity|cbn; lia|exact A|reflexivity|reflexivity|].
  exists o'. split; [exact E|]. split; [exact G|]. split; [rewrite G; cbn; intros H; inversion H; lra|].
  apply C119_kept_partial in E; [|reflexivity]. destruct E as (_ & -> & _). reflexivity.
Qed.

(** C120 *)

Theorem C120_network_norm : forall D (o : object D), ob_type o = TAUNET ->
  exists x, norm_op o = Ok x
    /\ x = sqrt (Rsum (map (fun v => v^2) (skipn (physical_count (ob_mod o)) (get_parameters (ob_mod o)))))
    /\ 0 <= x
    /\ (x = 0 <-> List.Forall (fun v => v = 0) (skipn (physical_count (ob_mod o)) (get_parameters (ob_mod o))))
    /\ count_op o = Ok (length (get_parameters (ob_mod o)) - physical_count (ob_mod o))%nat.
Proof. exact norm_value. Qed.
Print Assumptions C120_network_norm.

Theorem C120_needs_network : forall D (o : object D), ob_type o <> TAUNET ->
  norm_op o = Err ValueError /\ count_op o = Err ValueError.
Proof. exact norm_needs_network. Qed.
Print Assumptions C120_needs_network.

Example C120_case : norm_op (Object TAUNET (MP 1 2 3 (Some (4, 2)) (Some ([[[3; 0]]; [[4]]], None))) (@None bool) None) = Ok 5
  /\ count_op (Object TAUNET demo (@None bool) None) = Ok 13%nat.
Proof.
  split.
  - destruct (C120_network_norm bool (Object TAUNET (MP 1 2 3 (Some (4, 2)) (Some ([[[3; 0]]; [[4]]], None))) None None) eq_refl)
      as (x & -> & -> & _). f_equal. cbn. unfold Rsum; cbn. replace (3 * (3 * 1) + (0 * (0 * 1) + (4 * (4 * 1) + 0))) with (5 * 5) by ring.
    apply sqrt_square. lra.
  - destruct (C120_network_norm bool (Object TAUNET demo None None) eq_refl) as (_ & _ & _ & _ & _ & E). rewrite E. reflexivity.
Qed.

Example C120_error_case : norm_op (fresh demo) = Err ValueError /\ count_op (fresh demo) = Err ValueError.
Proof. apply C120_needs_network. discriminate. Qed.

(** C121 *)

Theorem C121_refuted : forall B (z : B) dir t chunks pos f old,
  fs_file f (model_path dir t) = Some old -> old <> [] -> concat chunks <> [] ->
  exists n, let f' := snd (file_run z (firstn n (save_steps dir t chunks)) pos f) in
    fs_file f' (model_path dir t) <> Some old /\ fs_file f' (model_path dir t) <> Some (concat chunks).
Proof. exact crash_loses. Qed.
Print Assumptions C121_refuted.

Theorem C121_crash_states_partial : forall B (z : B) dir t chunks n pos f,
  let f' := snd (file_run z (firstn n (save_steps dir t chunks)) pos f) in
  (fs_file f' (model_path dir t) = fs_file f (model_path dir t)
   \/ exists written rest, fs_file f' (model_path dir t) = Some written /\ concat chunks = written ++ rest)
  /\ (forall p, p <> model_path dir t -> fs_file f' p = fs_file f p)
  /\ ((length (save_steps dir t chunks) <= n)%nat ->
      fs_file f' (model_path dir t) = Some (concat chunks) /\ fs_dir f' dir = true).
Proof. exact crash_states. Qed.
Print Assumptions C121_crash_states_partial.

Theorem C121_never_a_third_model_partial : forall B A (enc : A -> list B) dec (z : B) dir t chunks n pos f new,
  prefix_safe enc dec -> concat chunks = enc new ->
  let f' := snd (file_run z (firstn n (save_steps dir t chunks)) pos f) in
  read_file dec f' (model_path dir t) = read_file dec f (model_path dir t)
  \/ read_file dec f' (model_path dir t) = None \/ read_file dec f' (model_path dir t) = Some new.
Proof. exact crash_read. Qed.
Print Assumptions C121_never_a_third_model_partial.

Theorem C121_completed_partial : forall B A (enc : A -> list B) dec (z : B) dir t chunks pos f fa new,
  prefix_safe enc dec -> concat chunks = enc new -> (forall p, fs_file fa p = read_file dec f p) ->
  orb (fs_dir fa dir) (fs_creatable fa dir) = true ->
  exists fa', save_model fa (DStr dir) DNone t new = (Ok tt, fa')
    /\ forall p, fs_file fa' p = read_file dec (snd (file_run z (save_steps dir t chunks) pos f)) p.
Proof. exact complete_refines. Qed.
Print Assumptions C121_completed_partial.

(** Numbers written as that many ones and a final two. *)
Definition ones (n : nat) : list nat := repeat 1%nat n ++ [2%nat].
Fixpoint count_ones (l : list nat) : option nat :=
  match l with
  | 1%nat :: l' => option_map S (count_ones l')
  | [2%nat] => Some 0%nat
  | _ => None
  end.

Lemma ones_safe : prefix_safe ones count_ones.
Proof.
  split.
  - induction a as [|a IH]; [reflexivity|]. cbn [ones repeat app]. fold (ones a). cbn [count_ones]. rewrite IH. reflexivity.
  - induction a as [|a IH]; intros n H.
    + cbn in H. destruct n as [|n]; [reflexivity|lia].
    + destruct n as [|n]; [reflexivity|]. cbn [ones repeat app firstn]. fold (ones a). cbn [count_ones].
      rewrite IH; [reflexivity|]. cbn in H. unfold ones. lia.
Qed.

Definition disk : fs (list nat) := FS (fun _ => true) (fun _ => true) (fun p => if String.eqb p (model_path "out" TAUNET) then Some (ones 5) else None).

Example C121_case : exists n, let f' := snd (file_run 0%nat (firstn n (save_steps "out" TAUNET [[1; 1]; [2]]%nat)) 0 disk) in
  fs_file f' (model_path "out" TAUNET) <> Some (ones 5) /\ fs_file f' (model_path "out" TAUNET) <> Some (ones 2).
Proof. apply (C121_refuted _ _ _ _ [[1; 1]; [2]]%nat); [reflexivity|discriminate|discriminate]. Qed.

Example C121_prefix_case :
  read_file count_ones (snd (file_run 0%nat (firstn 3 (save_steps "out" TAUNET [[1; 1]; [2]]%nat)) 0 disk)) (model_path "out" TAUNET) = None
  /\ read_file count_ones (snd (file_run 0%nat (firstn 4 (save_steps "out" TAUNET [[1; 1]; [2]]%nat)) 0 disk)) (model_path "out" TAUNET) = Some 2%nat.
Proof. split; reflexivity. Qed.

Example C121_read_case : forall n, let f' := snd (file_run 0%nat (firstn n (save_steps "out" TAUNET [[1; 1]; [2]]%nat)) 0 disk) in
  read_file count_ones f' (model_path "out" TAUNET) = Some 5%nat
  \/ read_file count_ones f' (model_path "out" TAUNET) = None \/ read_file count_ones f' (model_path "out" TAUNET) = Some 2%nat.
Proof. intros n. exact (C121_never_a_third_model_partial _ _ ones count_ones 0%nat "out" TAUNET [[1; 1]; [2]]%nat n 0 disk 2%nat ones_safe eq_refl). Qed.

(** C122 *)

Theorem C122_distinct_files : forall B (z : B) d1 t1 c1 d2 t2 c2 l pos1 pos2 f,
  interleaving (save_steps d1 t1 c1) (save_steps d2 t2 c2) l -> d1 <> d2 \/ t1 <> t2 ->
  fs_file (file_race z l pos1 pos2 f) (model_path d1 t1) = Some (concat c1)
  /\ fs_file (file_race z l pos1 pos2 f) (model_path d2 t2) = Some (concat c2)
  /\ forall p, p <> model_path d1 t1 -> p <> model_path d2 t2 -> fs_file (file_race z l pos1 pos2 f) p = fs_file f p.
Proof. exact race_distinct. Qed.
Print Assumptions C122_distinct_files.

Theorem C122_same_content : forall B (z : B) d t c1 c2 l pos1 pos2 f,
  interleaving (save_steps d t c1) (save_steps d t c2) l -> concat c1 = concat c2 ->
  fs_file (file_race z l pos1 pos2 f) (model_path d t) = Some (concat c1).
Proof. exact race_same_content. Qed.
Print Assumptions C122_same_content.

Theorem C122_same_file_refuted : forall B (z : B) d t (a b : B) rest pos1 pos2 f, a <> b ->
  exists l, interleaving (save_steps d t [a :: rest ++ [a]]) (save_steps d t [[b]]) l
    /\ fs_file (file_race z l pos1 pos2 f) (model_path d t) = Some (b :: rest ++ [a])
    /\ b :: rest ++ [a] <> a :: rest ++ [a] /\ b :: rest ++ [a] <> [b].
Proof. exact race_mixes. Qed.
Print Assumptions C122_same_file_refuted.

Theorem C122_sequential : forall B (z : B) d t c1 c2 pos1 pos2 f,
  let l := map (pair true) (save_steps d t c1) ++ map (pair false) (save_steps d t c2) in
  interleaving (save_steps d t c1) (save_steps d t c2) l
  /\ fs_file (file_race z l pos1 pos2 f) (model_path d t) = Some (concat c2).
Proof. exact race_sequential. Qed.
Print Assumptions C122_sequential.

Example C122_case : exists l, interleaving (save_steps "out" MANN [[1; 1]; [2]]%nat) (save_steps "out" TAUNET [[1]; [2]]%nat) l
  /\ fs_file (file_race 0%nat l 0 0 disk) (model_path "out" MANN) = Some (ones 2)
  /\ fs_file (file_race 0%nat l 0 0 disk) (model_path "out" TAUNET) = Some (ones 1).
Proof.
  exists [(true, MakeDir "out"); (true, Open (model_path "out" MANN)); (false, MakeDir "out"); (true, Write (model_path "out" MANN) [1; 1]%nat);
    (false, Open (model_path "out" TAUNET)); (false, Write (model_path "out" TAUNET) [1]%nat); (true, Write (model_path "out" MANN) [2]%nat);
    (false, Write (model_path "out" TAUNET) [2]%nat)].
  assert (I : interleaving (save_steps "out" MANN [[1; 1]; [2]]%nat) (save_steps "out" TAUNET [[1]; [2]]%nat)
    [(true, MakeDir "out"); (true, Open (model_path "out" MANN)); (false, MakeDir "out"); (true, Write (model_path "out" MANN) [1; 1]%nat);
    (false, Open (model_path "out" TAUNET)); (false, Write (model_path "out" TAUNET) [1]%nat); (true, Write (model_path "out" MANN) [2]%nat);
    (false, Write (model_path "out" TAUNET) [2]%nat)]) by repeat constructor.
  split; [exact I|]. destruct (C122_distinct_files nat 0%nat _ _ _ _ _ _ _ 0 0 disk I) as (A & Bn & _); [right; discriminate|].
  split; [exact A|exact Bn].
Qed.

Example C122_same_content_case : exists l, interleaving (save_steps "out" TAUNET [ones 1]) (save_steps "out" TAUNET [ones 1]) l
  /\ fs_file (file_race 0%nat l 0 0 disk) (model_path "out" TAUNET) = Some (ones 1).
Proof.
  eexists. split; [exact (proj1 (C122_sequential nat 0%nat "out" TAUNET [ones 1] [ones 1] 0 0 disk))|].
  apply (C122_same_content nat 0%nat "out" TAUNET [ones 1] [ones 1]); [|reflexivity].
  exact (proj1 (C122_sequential nat 0%nat "out" TAUNET [ones 1] [ones 1] 0 0 disk)).
Qed.

Example C122_mixed_case : exists l, interleaving (save_steps "out" TAUNET [[1; 3; 1]]%nat) (save_steps "out" TAUNET [[2]]%nat) l
  /\ fs_file (file_race 0%nat l 0 0 disk) (model_path "out" TAUNET) = Some [2; 3; 1]%nat.
Proof.
  destruct (C122_same_file_refuted nat 0%nat "out" TAUNET 1%nat 2%nat [3%nat] 0 0 disk) as (l & I & E & _); [discriminate|].
  exists l. split; [exact I|exact E].
Qed.

(** C123 *)

Theorem C123_refuted : forall (A : Type) (series : list (string * list A)) name x y v, (2 <= length series)%nat -> List.Forall (fun s => snd s <> []) series ->
  In (name, x :: y :: v) series ->
  exists drawn, plot_loss_logs series = Ok drawn /\ In (name, v) drawn.
Proof. exact curves_lose. Qed.
Print Assumptions C123_refuted.

Theorem C123_single_term_refuted : forall (A : Type) (series : list (string * list A)),
  (series = [] -> plot_loss_logs series = Err ValueError)
  /\ (forall n v, series = [(n, v)] -> v <> [] -> plot_loss_logs series = Err TypeError).
Proof. exact curves_errors. Qed.
Print Assumptions C123_single_term_refuted.

Theorem C123_panels_partial : forall (A : Type) (series : list (string * list A)), (2 <= length series)%nat -> List.Forall (fun s => snd s <> []) series ->
  plot_loss_logs series = Ok (rev (map (fun s => (fst s, skipn 2 (snd s))) series)).
Proof. exact curves_value. Qed.
Print Assumptions C123_panels_partial.

Example C123_case : plot_loss_logs [("MSE Loss"%string, [5; 4; 3; 2]); ("Regularization"%string, [1; 1])]
  = Ok [("Regularization"%string, []); ("MSE Loss"%string, [3; 2])]
  /\ plot_loss_logs [("MSE Loss"%string, [5; 4; 3; 2])] = Err TypeError.
Proof.
  split.
  - apply C123_panels_partial; [cbn; lia|]. repeat (constructor; [discriminate|]). constructor.
  - eapply (proj2 (C123_single_term_refuted _ _)); [reflexivity|discriminate].
Qed.

(** C124 *)

Theorem C124_refuted : forall (A : Type) (log : string -> list (string * list A)) l i j a b, (i < j)%nat -> nth_error l i = Some a -> nth_error l j = Some b ->
  plot_loss_logs (log a) <> plot_loss_logs (log b) ->
  exists l', Permutation l l' /\ plot_losses log (Some l) (Z.of_nat i) <> plot_losses log (Some l') (Z.of_nat i).
Proof. exact losses_order. Qed.
Print Assumptions C124_refuted.

Theorem C124_listed_partial : forall (A : Type) (log : string -> list (string * list A)) l i name, nth_error l i = Some name ->
  plot_losses log (Some l) (Z.of_nat i) = plot_loss_logs (log name)
  /\ plot_losses log (Some l) (Z.of_nat i - Z.of_nat (length l)) = plot_loss_logs (log name).
Proof. exact losses_listed. Qed.
Print Assumptions C124_listed_partial.

Theorem C124_errors_partial : forall (A : Type) (log : string -> list (string * list A)) run,
  plot_losses log None run = Err AssertionError
  /\ forall l, (Z.of_nat (length l) <= run)%Z \/ (run < - Z.of_nat (length l))%Z -> plot_losses log (Some l) run = Err IndexError.
Proof. exact losses_errors. Qed.
Print Assumptions C124_errors_partial.

Definition two_logs (name : string) : list (string * list R) :=
  if String.eqb name "a" then [("m"%string, [1; 1; 1]); ("r"%string, [1; 1; 1])] else [("m"%string, [1; 1; 2]); ("r"%string, [1; 1; 1])].

Example C124_case : exists l', Permutation ["a"; "b"]%string l' /\ plot_losses two_logs (Some ["a"; "b"]%string) 0 <> plot_losses two_logs (Some l') 0.
Proof.
  apply (C124_refuted R two_logs ["a"; "b"]%string 0 1 "a"%string "b"%string); [lia|reflexivity|reflexivity|].
  unfold two_logs. cbn. intros H. inversion H. lra.
Qed.

Example C124_listed_case : plot_losses two_logs (Some ["a"; "b"]%string) (-1) = plot_loss_logs (two_logs "b")
  /\ plot_losses two_logs (Some ["a"; "b"]%string) 2 = Err IndexError.
Proof.
  split.
  - exact (proj2 (C124_listed_partial R two_logs ["a"; "b"]%string 1 "b"%string eq_refl)).
  - apply C124_errors_partial. left. cbn. lia.
Qed.
