(** Property theorems about calibration (C20, C23-C26, C32, C59, C60, C64, C82-C90). *)

From Coq Require Import String Reals Lra Lia List Arith ZArith Bool Sorted.
From Coquelicot Require Import Coquelicot.
From Verif Require Import Prelude RdtModel SpectraModel OpsModel OpsSpec LossModel CalModel CalSpec CalProofs CalMore CalExtra.
Import ListNotations.
Open Scope R_scope.

(** C20 *)

Theorem C20_read_write : forall s, set_parameters s (get_parameters s) = (Ok tt, s).
Proof. exact set_get. Qed.
Print Assumptions C20_read_write.

Theorem C20_write_read : forall s v, length v = length (get_parameters s) ->
  exists t, set_parameters s v = (Ok tt, t) /\ get_parameters t = v /\ same_architecture s t.
Proof. exact get_set. Qed.
Print Assumptions C20_write_read.

Theorem C20_wrong_length_raises : forall s v, length v <> length (get_parameters s) ->
  set_parameters s v = (Err ValueError, s).
Proof. exact set_wrong_length. Qed.
Print Assumptions C20_wrong_length_raises.

Theorem C20_order_of_entries : forall a b c pq net,
  get_parameters (MP a b c pq net)
  = [a; b; c] ++ match pq with Some (p, q) => [p; q] | None => [] end
    ++ match net with
       | Some (Ws, nu) => concat (map (@concat R) Ws) ++ match nu with Some v => [v] | None => [] end
       | None => []
       end.
Proof. exact get_parameters_layout. Qed.
Print Assumptions C20_order_of_entries.

Theorem C20_network_block_length : forall A (c : taunet_cfg A) Ws nu, net_matches c (Ws, nu) ->
  length (concat (map (@concat R) Ws) ++ match nu with Some v => [v] | None => [] end) = num_params c.
Proof. exact net_length. Qed.
Print Assumptions C20_network_block_length.

Example C20_case : length (get_parameters demo) = 18%nat
  /\ get_parameters demo = [1; 2; 3; 4; 2; 1; 2; 3; 4; 5; 6; 7; 8; 9; 10; 11; 12; -1/3]
  /\ set_parameters demo [1] = (Err ValueError, demo) /\ num_params demo_cfg = 13%nat
  /\ net_matches demo_cfg demo_net.
Proof.
  split; [reflexivity|]. split; [reflexivity|]. split; [apply C20_wrong_length_raises; discriminate|].
  split; [reflexivity|]. split; [|split; [discriminate|reflexivity]].
  repeat constructor.
Qed.

(** C23 *)

Theorem C23_calibrate_without_learnable_spectrum_refuted : forall c opt sched m, mp_pq m = None -> (1 <= tg_nepochs c)%nat ->
  forall v, fst (calibrate c opt sched m) <> Ok v.
Proof. exact calibrate_not_learnable. Qed.
Print Assumptions C23_calibrate_without_learnable_spectrum_refuted.

Example C23_case : forall v, fst (calibrate (easy 5) lazy_opt (fun _ r => r) (MP 1 2 3 None None)) <> Ok v.
Proof. apply C23_calibrate_without_learnable_spectrum_refuted; [reflexivity|cbn; lia]. Qed.

Theorem C23_no_epochs_no_failure : forall c opt sched m l, tg_nepochs c = 0%nat ->
  fst (agg_eval (tg_loss c) (tg_k1 c) (tg_zref c) agg_init (tg_args0 c m)) = Ok l ->
  exists v s, calibrate c opt sched m = (Ok (v, s), []) /\ ts_mod s = m.
Proof. exact calibrate_no_epochs. Qed.
Print Assumptions C23_no_epochs_no_failure.

Theorem C23_learnable_spectrum_no_attribute_error : forall c opt sched left n s,
  mp_pq (ts_mod s) <> None ->
  (forall n s e, run_strategy c (opt n s) s = Err e -> e <> AttributeError) ->
  fst (train c opt sched n left s) <> Err AttributeError.
Proof. exact train_no_attribute_error. Qed.
Print Assumptions C23_learnable_spectrum_no_attribute_error.

Example C23_companion_case :
  (exists v s, calibrate (easy 0) lazy_opt (fun _ r => r) (MP 1 2 3 None None) = (Ok (v, s), []) /\ ts_mod s = MP 1 2 3 None None)
  /\ fst (train (easy 5) lazy_opt (fun _ r => r) 1 5 (TS demo (Fin 0) agg_init 0 1 [])) <> Err AttributeError.
Proof.
  split.
  - destruct (easy_eval agg_init) as (a & E). apply (C23_no_epochs_no_failure _ _ _ _ (Fin 0)); [reflexivity|].
    cbn [easy tg_loss tg_k1 tg_zref tg_args0]. rewrite E. reflexivity.
  - apply C23_learnable_spectrum_no_attribute_error; [discriminate|apply easy_attr].
Qed.

(** C24 *)

Theorem C24_at_most_nepochs_steps : forall c opt sched m, (length (snd (calibrate c opt sched m)) <= tg_nepochs c)%nat.
Proof. exact calibrate_steps. Qed.
Print Assumptions C24_at_most_nepochs_steps.

Theorem C24_stops_and_returns_positive_scales : forall c opt sched m v s' ls,
  calibrate c opt sched m = (Ok (v, s'), ls) ->
  (length ls <= tg_nepochs c)%nat
  /\ (ls = [] -> tg_nepochs c = 0%nat)
  /\ (forall pre l, ls = pre ++ [l] ->
        List.Forall (not_converged (tg_tol c)) pre /\ ts_loss s' = l
        /\ exists r, l = Fin r /\ (r < tg_tol c \/ length ls = tg_nepochs c))
  /\ v = map exp (firstn 3 (get_parameters (ts_mod s')))
         ++ match mp_pq (ts_mod s') with Some (p, q) => [p; q] | None => [] end
  /\ exists L G S rest, v = L :: G :: S :: rest /\ 0 < L /\ 0 < G /\ 0 < S.
Proof. exact calibrate_ok. Qed.
Print Assumptions C24_stops_and_returns_positive_scales.

Theorem C24_nonfinite_loss_raises : forall c opt sched m r pre l, mp_pq m <> None ->
  calibrate c opt sched m = (r, pre ++ [l]) ->
  List.Forall (not_converged (tg_tol c)) pre /\ (xfinite l = false -> r = Err RuntimeError).
Proof. exact calibrate_nonfinite. Qed.
Print Assumptions C24_nonfinite_loss_raises.

Example C24_case : exists s, calibrate (easy 5) lazy_opt (fun _ r => r) demo = (Ok ([exp 1; exp 2; exp 3; 4; 2], s), [Fin 0])
  /\ List.Forall (not_converged 1) [] /\ ts_loss s = Fin 0.
Proof.
  destruct easy_run as (s & E). exists s. split; [exact E|].
  destruct (C24_stops_and_returns_positive_scales _ _ _ _ _ _ _ E) as (_ & _ & H & _).
  destruct (H [] (Fin 0) eq_refl) as (A & B & _). split; [exact A|exact B].
Qed.

(** C25 *)

Theorem C25_saved_file_holds_the_problem : forall A (f f' : fs A) save_dir output_dir t content,
  save_model f save_dir output_dir t content = (Ok tt, f') ->
  exists s, usable_dir f (save_target save_dir output_dir) s
  /\ fs_file f' (model_path s t) = Some content
  /\ (forall p, p <> model_path s t -> fs_file f' p = fs_file f p)
  /\ (forall d, fs_dir f d = true -> fs_dir f' d = true)
  /\ fs_creatable f' = fs_creatable f.
Proof. exact save_ok_inv. Qed.
Print Assumptions C25_saved_file_holds_the_problem.

Theorem C25_usable_directory_succeeds : forall A (f : fs A) save_dir output_dir t content s,
  usable_dir f (save_target save_dir output_dir) s ->
  exists f', save_model f save_dir output_dir t content = (Ok tt, f') /\ fs_file f' (model_path s t) = Some content.
Proof. exact save_usable. Qed.
Print Assumptions C25_usable_directory_succeeds.

Theorem C25_failure_writes_nothing : forall A (f f' : fs A) save_dir output_dir t content e,
  save_model f save_dir output_dir t content = (Err e, f') ->
  f' = f /\ (forall s, ~ usable_dir f (save_target save_dir output_dir) s)
  /\ (e = ValueError <-> save_target save_dir output_dir = DNone \/ exists s, save_target save_dir output_dir = DPath s).
Proof. exact save_err. Qed.
Print Assumptions C25_failure_writes_nothing.

Theorem C25_reload_restores : forall NN PB LO PH IP (build : NN -> PB -> PH -> IP -> res module_params)
    (p : problem NN PB LO PH IP) m,
  build (pb_nn p) (pb_prob p) (pb_phys p) (pb_int p) = Ok m -> same_architecture m (pb_mod p) ->
  reload build (content_of p) (pb_int p) = Ok p.
Proof. exact reload_exact. Qed.
Print Assumptions C25_reload_restores.

Definition empty_fs : fs (saved unit unit unit unit) := FS (fun _ => false) (fun d => String.eqb d "out") (fun _ => None).

Example C25_case : exists f', save_model empty_fs DNone (DStr "out") TAUNET (content_of (Problem tt tt tt tt tt demo)) = (Ok tt, f')
  /\ fs_file f' (model_path "out" TAUNET) = Some (Saved tt tt tt tt (get_parameters demo)).
Proof. apply C25_usable_directory_succeeds. left. split; [reflexivity|]. right. reflexivity. Qed.

Example C25_error_case : forall c, save_model empty_fs DNone DNone TAUNET c = (Err ValueError, empty_fs)
  /\ save_model empty_fs (DPath "elsewhere") DNone TAUNET c = (Err ValueError, empty_fs)
  /\ save_model empty_fs (DStr "elsewhere") DNone TAUNET c = (Err GenericException, empty_fs).
Proof. intros c. repeat split. Qed.

Example C25_reload_case :
  reload (fun _ _ _ _ => Ok (MP 0 0 0 (Some (0, 0)) (Some ([[[0; 0; 0]; [0; 0; 0]]; [[0; 0]; [0; 0]; [0; 0]]], Some 0))))
    (content_of (Problem tt tt tt tt tt demo)) tt = Ok (Problem tt tt tt tt tt demo).
Proof.
  eapply (C25_reload_restores unit unit unit unit unit _ (Problem tt tt tt tt tt demo)); [reflexivity|].
  split; [split; discriminate|]. split; [reflexivity|]. split; discriminate.
Qed.

(** C26 *)

Theorem C26_same_directory_refuted : forall A (f : fs A) save_dir output_dir t c1 c2 s,
  usable_dir f (save_target save_dir output_dir) s -> (forall p, fs_file f p <> Some c1) -> c1 <> c2 ->
  exists f1 f2, save_model f save_dir output_dir t c1 = (Ok tt, f1) /\ save_model f1 save_dir output_dir t c2 = (Ok tt, f2)
  /\ fs_file f1 (model_path s t) = Some c1 /\ forall p, fs_file f2 p <> Some c1.
Proof. exact overwrite_loses. Qed.
Print Assumptions C26_same_directory_refuted.

Theorem C26_distinct_type_or_directory : forall A (f f1 f2 : fs A) d1 o1 t1 c1 d2 o2 t2 c2 s1 s2,
  save_model f d1 o1 t1 c1 = (Ok tt, f1) -> save_model f1 d2 o2 t2 c2 = (Ok tt, f2) ->
  usable_dir f (save_target d1 o1) s1 -> usable_dir f1 (save_target d2 o2) s2 ->
  (s1 <> s2 \/ t1 <> t2) ->
  fs_file f2 (model_path s1 t1) = Some c1 /\ fs_file f2 (model_path s2 t2) = Some c2.
Proof. exact two_saves. Qed.
Print Assumptions C26_distinct_type_or_directory.

Definition nat_fs : fs nat := FS (fun _ => false) (fun _ => true) (fun _ => None).

Example C26_case : exists f1 f2, save_model nat_fs (DStr "out") DNone MANN 1%nat = (Ok tt, f1)
  /\ save_model f1 (DStr "out") DNone MANN 2%nat = (Ok tt, f2)
  /\ fs_file f1 (model_path "out" MANN) = Some 1%nat /\ forall p, fs_file f2 p <> Some 1%nat.
Proof.
  apply C26_same_directory_refuted; [left; split; [reflexivity|right; reflexivity]|discriminate|discriminate].
Qed.

Example C26_distinct_case : exists f1 f2, save_model nat_fs (DStr "out") DNone MANN 1%nat = (Ok tt, f1)
  /\ save_model f1 (DStr "out") DNone TAUNET 2%nat = (Ok tt, f2)
  /\ fs_file f2 (model_path "out" MANN) = Some 1%nat /\ fs_file f2 (model_path "out" TAUNET) = Some 2%nat.
Proof.
  eexists. eexists. split; [reflexivity|]. split; [reflexivity|].
  eapply (C26_distinct_type_or_directory nat nat_fs _ _ (DStr "out") DNone MANN 1%nat (DStr "out") DNone TAUNET 2%nat);
    [reflexivity|reflexivity| | |right; discriminate]; left; (split; [reflexivity|]); right; reflexivity.
Qed.

(** C32 *)

Theorem C32_three_phase_range : forall nepochs epoch, 1/10 <= three_phase nepochs epoch <= 2.
Proof. exact three_phase_range. Qed.
Print Assumptions C32_three_phase_range.

Theorem C32_three_phase_non_increasing : forall nepochs e e', (e <= e')%nat -> three_phase nepochs e' <= three_phase nepochs e.
Proof. exact three_phase_decreases. Qed.
Print Assumptions C32_three_phase_non_increasing.

Theorem C32_three_phase_ends : forall nepochs, (1 <= nepochs)%nat -> three_phase nepochs 0 = 2 /\ three_phase nepochs nepochs = 1/10.
Proof. exact three_phase_ends. Qed.
Print Assumptions C32_three_phase_ends.

Example C32_three_phase_case : three_phase 10 7 <= three_phase 10 4 /\ three_phase 10 10 = 1/10.
Proof. split; [apply C32_three_phase_non_increasing; lia|apply C32_three_phase_ends; lia]. Qed.

(** C59 *)

Theorem C59_cells_refuted :
  ~ (forall rows r a b ns nf g, consistent rows -> In r rows -> load_coherence rows = Ok (ns, nf, g) ->
     cell_of rows r a b -> g a b = Fin (cr_val r)).
Proof. exact loaded_cells_false. Qed.
Print Assumptions C59_cells_refuted.

Theorem C59_one_based_file_refuted :
  exists r g, In r one_based_rows /\ load_coherence one_based_rows = Ok (2%nat, 2%nat, g)
  /\ cell_of one_based_rows r 0 0 /\ g 0%nat 0%nat = NaN /\ g 1%nat 1%nat = Fin (cr_val r).
Proof. exact one_based_wrong. Qed.
Print Assumptions C59_one_based_file_refuted.

Theorem C59_separation_major_files : forall is js val rows,
  StronglySorted Z.lt is -> StronglySorted Z.lt js -> is <> [] -> js <> [] -> separation_major is js val rows ->
  exists g, load_coherence rows = Ok (length is, length js, g)
  /\ forall r a b, In r rows -> cell_of rows r a b -> g a b = Fin (cr_val r).
Proof. exact load_separation_major. Qed.
Print Assumptions C59_separation_major_files.

Theorem C59_incomplete_files : forall rows ns nf,
  zero_based (map cr_i rows) ns -> zero_based (map cr_j rows) nf ->
  NoDup (map (fun r => (cr_i r, cr_j r)) rows) -> length rows <> (ns * nf)%nat ->
  exists g, load_coherence rows = Ok (ns, nf, g)
  /\ (forall r a b, In r rows -> cell_of rows r a b -> g a b = Fin (cr_val r))
  /\ (forall a b, (forall r, In r rows -> ~ cell_of rows r a b) -> g a b = NaN).
Proof. exact load_incomplete. Qed.
Print Assumptions C59_incomplete_files.

Theorem C59_axes : forall rows r a b, consistent rows -> In r rows -> cell_of rows r a b ->
  nth_error (fst (coherence_axes rows)) a = Some (cr_sep r) /\ nth_error (snd (coherence_axes rows)) b = Some (cr_freq r).
Proof. exact axes_match. Qed.
Print Assumptions C59_axes.

Definition full_rows : list crow :=
  [CRow 2 1 5 (1/10) 10; CRow 2 4 5 (2/10) 20; CRow 3 1 7 (1/10) 30; CRow 3 4 7 (2/10) 40].
Definition gap_rows : list crow :=
  [CRow 0 0 5 (1/10) 10; CRow 1 1 7 (2/10) 20; CRow 1 0 7 (1/10) 30].

Example C59_case : exists g, load_coherence full_rows = Ok (2%nat, 2%nat, g)
  /\ forall r a b, In r full_rows -> cell_of full_rows r a b -> g a b = Fin (cr_val r).
Proof.
  apply (C59_separation_major_files [2; 3]%Z [1; 4]%Z
           (fun i j => if Z.eqb i 2 then if Z.eqb j 1 then 10 else 20 else if Z.eqb j 1 then 30 else 40));
    try discriminate; [repeat constructor; lia|repeat constructor; lia|reflexivity].
Qed.

Example C59_gap_case : exists g, load_coherence gap_rows = Ok (2%nat, 2%nat, g)
  /\ (forall r a b, In r gap_rows -> cell_of gap_rows r a b -> g a b = Fin (cr_val r))
  /\ (forall a b, (forall r, In r gap_rows -> ~ cell_of gap_rows r a b) -> g a b = NaN).
Proof.
  apply C59_incomplete_files.
  - intros z. cbn. lia.
  - intros z. cbn. lia.
  - cbn. repeat constructor; cbn; intuition discriminate.
  - discriminate.
Qed.

Example C59_axes_case : nth_error (fst (coherence_axes full_rows)) 1 = Some 7 /\ nth_error (snd (coherence_axes full_rows)) 0 = Some (1/10).
Proof.
  apply (C59_axes full_rows (CRow 3 1 7 (1/10) 30) 1 0).
  - intros r r' H H'. cbn [full_rows In] in H, H'.
    repeat (destruct H as [<-|H]; [repeat (destruct H' as [<-|H']; [cbn; split; intros E; (reflexivity || discriminate E)|]); contradiction|]).
    contradiction.
  - right. right. left. reflexivity.
  - split; apply rank_nth; reflexivity.
Qed.

(** C60 *)

Theorem C60_stored_data_panels_refuted :
  panel_data (plot_data_order_stored 6) 6 4 = Some (X1, X2) /\ nth_error model_order 4 = Some (X2, X3)
  /\ panel_data (plot_data_order_stored 6) 6 5 = Some (X2, X3) /\ nth_error model_order 5 = Some (X1, X2)
  /\ forall i, (i < 4)%nat -> panel_data (plot_data_order_stored 6) 6 i = nth_error model_order i.
Proof. exact panels_stored_swapped. Qed.
Print Assumptions C60_stored_data_panels_refuted.

Theorem C60_given_data_panels : forall nc i, (nc = 3 \/ nc = 4 \/ nc = 6)%Z -> (i < 6)%nat ->
  panel_data (plot_data_order_given nc) nc i
  = if (Z.of_nat i <? nc)%Z then nth_error model_order i else None.
Proof. exact panels_given. Qed.
Print Assumptions C60_given_data_panels.

Theorem C60_stored_data_panels_fewer : forall nc i, (nc = 3 \/ nc = 4)%Z -> (i < 6)%nat ->
  panel_data (plot_data_order_stored nc) nc i
  = if (Z.of_nat i <? nc)%Z then nth_error model_order i else None.
Proof. exact panels_stored. Qed.
Print Assumptions C60_stored_data_panels_fewer.

Example C60_case : panel_data (plot_data_order_given 6) 6 4 = Some (X2, X3) /\ panel_data (plot_data_order_stored 4) 4 4 = None.
Proof. split; [apply (C60_given_data_panels 6 4); [tauto|lia]|apply (C60_stored_data_panels_fewer 4 4); [tauto|lia]]. Qed.

(** C64 *)

Theorem C64_selected_separations : forall n, (1 <= n)%nat ->
  (forall i, In i (sep_indices n) -> (i < n)%nat)
  /\ Sorted le (sep_indices n)
  /\ length (sep_indices n) = 4%nat
  /\ nth 0 (sep_indices n) n = 0%nat /\ nth 3 (sep_indices n) n = (n - 1)%nat
  /\ ((4 <= n)%nat -> NoDup (sep_indices n)).
Proof. exact sep_indices_valid. Qed.
Print Assumptions C64_selected_separations.

Example C64_case : NoDup (sep_indices 6) /\ sep_indices 2 = [0; 0; 0; 1]%nat.
Proof. split; [apply C64_selected_separations; lia|reflexivity]. Qed.

(** C82 *)

Theorem C82_training_compares_like_with_like : forall nc e p1 p2 N k1s,
  (nc = 3 \/ nc = 4 \/ nc = 6)%nat ->
  data_rows (Z.of_nat nc) (length k1s) (fun n i j => ops_forward (entry i j) e p1 p2 N (nth n k1s 0))
  = Some (model_rows nc (ops_output e p1 p2 N k1s)).
Proof. exact rows_match. Qed.
Print Assumptions C82_training_compares_like_with_like.

Example C82_case : forall e, data_rows 6 2 (fun n i j => ops_forward (entry i j) e (-3) 3 10 (nth n [1; 2] 0))
  = Some (model_rows 6 (ops_output e (-3) 3 10 [1; 2])).
Proof. intros e. apply (C82_training_compares_like_with_like 6 e (-3) 3 10 [1; 2]). tauto. Qed.

(** C83 *)

Theorem C83_gradient_with_coherence_refuted : forall m K K' p1 p2 r theta, smooth_at (Some m) theta ->
  smooth_at p1 theta -> smooth_at p2 theta -> smooth_at r theta -> is_derive K theta K' -> K' <> 0 ->
  exists g, snd (grad_closure m (Some K) p1 p2 r theta) = Ok g
  /\ ~ is_derive (fun t => fst (grad_closure m (Some K) p1 p2 r t)) theta g
  /\ is_derive (fun t => fst (grad_closure m (Some K) p1 p2 r t)) theta (g + K').
Proof. exact gradient_with_coherence. Qed.
Print Assumptions C83_gradient_with_coherence_refuted.

Theorem C83_gradient_without_coherence : forall m p1 p2 r theta, smooth_at (Some m) theta ->
  smooth_at p1 theta -> smooth_at p2 theta -> smooth_at r theta ->
  exists g, snd (grad_closure m None p1 p2 r theta) = Ok g
  /\ is_derive (fun t => fst (grad_closure m None p1 p2 r t)) theta g.
Proof. exact gradient_without_coherence. Qed.
Print Assumptions C83_gradient_without_coherence.

Theorem C83_value : forall m K p1 p2 r theta,
  fst (grad_closure m K p1 p2 r theta)
  = fst m theta + match K with Some f => f theta | None => 0 end
    + at_or_zero p1 theta + at_or_zero p2 theta + at_or_zero r theta.
Proof. exact closure_value. Qed.
Print Assumptions C83_value.

Example C83_case : let id : term := (fun t => t, fun _ => 1) in
  (exists g, snd (grad_closure id (Some (fun t => t)) (Some id) None (Some id) 3) = Ok g
   /\ ~ is_derive (fun t => fst (grad_closure id (Some (fun t => t)) (Some id) None (Some id) t)) 3 g)
  /\ snd (grad_closure id None (Some id) None (Some id) 3) = Ok (1 + 1 + 1).
Proof.
  intros id. split; [|reflexivity].
  assert (HI : is_derive (fun t : R => t) 3 1) by apply (is_derive_id (K := R_AbsRing)).
  destruct (C83_gradient_with_coherence_refuted id (fun t => t) 1 (Some id) None (Some id) 3) as (g & A & B & _);
    try exact HI; [exact I|lra|].
  exists g. split; assumption.
Qed.

(** C84 *)

Theorem C84_saved_file_determines_spectra_refuted : forall NN PB LO PH (env : module_params -> ops_env)
    (p : problem NN PB LO PH (R * R * nat)) p1 p2 N k1,
  pb_int p = (p1, p2, N) -> 0 < k1 -> p1 < p2 -> (2 <= N)%nat ->
  exists q, content_of q = content_of p /\ pb_mod q = pb_mod p /\
    match pb_int q with (q1, q2, M) =>
      q1 < q2 /\ (2 <= M)%nat /\
      ops_forward phi11 (env (pb_mod q)) q1 q2 M k1 <> ops_forward phi11 (env (pb_mod p)) p1 p2 N k1
    end.
Proof. exact settings_not_saved. Qed.
Print Assumptions C84_saved_file_determines_spectra_refuted.

Example C84_case : forall env : module_params -> ops_env,
  exists q : problem unit unit unit unit (R * R * nat),
    content_of q = content_of (Problem tt tt tt tt (-3, 3, 100%nat) demo) /\ pb_mod q = demo /\
    match pb_int q with (q1, q2, M) =>
      q1 < q2 /\ (2 <= M)%nat /\ ops_forward phi11 (env demo) q1 q2 M 1 <> ops_forward phi11 (env demo) (-3) 3 100 1
    end.
Proof.
  intros env.
  destruct (C84_saved_file_determines_spectra_refuted unit unit unit unit env
             (Problem tt tt tt tt (-3, 3, 100%nat) demo) (-3) 3 100 1) as (q & A & B & C);
    [reflexivity|lra|lra|lia|]. exists q. split; [exact A|]. split; [exact B|].
  destruct (pb_int q) as [[q1 q2] M]. rewrite B in C. exact C.
Qed.

(** C85 *)

Theorem C85_adaptive_schedule_reacts_refuted :
  ~ (exists evals epoch,
     let h := fold_left (fun h v => record_history agg_attrs h (fst v) (snd v)) evals ([], []) in
     adaptive_factor (fst h) (snd h) epoch <> 1).
Proof. exact adaptive_reacts_never. Qed.
Print Assumptions C85_adaptive_schedule_reacts_refuted.

(** The factor for a supplied history follows from its last five values alone. *)
Theorem C85_supplied_history : forall ops1 ops2 coh1 coh2 epoch, length ops2 = 5%nat -> length coh2 = 5%nat ->
  let ratio := Rmean ops2 / (Rmean coh2 + / 10^8) in
  ((length ops1 < 5)%nat -> adaptive_factor (ops1 ++ ops2) (coh1 ++ coh2) epoch = 1)
  /\ ((5 <= length ops1)%nat -> 10 < ratio \/ ratio < 1/10 -> adaptive_factor (ops1 ++ ops2) (coh1 ++ coh2) epoch = 1/2)
  /\ ((5 <= length ops1)%nat -> 1/10 <= ratio <= 10 -> adaptive_factor (ops1 ++ ops2) (coh1 ++ coh2) epoch = powerRZ (95/100) (Z.of_nat epoch - 10)).
Proof. exact adaptive_cases. Qed.
Print Assumptions C85_supplied_history.

Theorem C85_supplied_history_bounded : forall ops coh epoch, (10 <= epoch)%nat -> 0 < adaptive_factor ops coh epoch <= 1.
Proof. exact adaptive_bounded. Qed.
Print Assumptions C85_supplied_history_bounded.

Example C85_case : adaptive_factor [1;1;1;1;1;50;50;50;50;50] [1;1;1;1;1;1;1;1;1;1] 12 = 1/2.
Proof.
  apply (C85_supplied_history [1;1;1;1;1] [50;50;50;50;50] [1;1;1;1;1] [1;1;1;1;1] 12 eq_refl eq_refl); [cbn; lia|]. left. unfold Rmean. cbn.
  replace (10 * (10 * (10 * (10 * (10 * (10 * (10 * (10 * 1)))))))) with 100000000 by ring.
  apply (Rmult_lt_reg_r ((1 + (1 + (1 + (1 + (1 + 0))))) / (1 + 1 + 1 + 1 + 1) + / 100000000)); [lra|].
  unfold Rdiv at 2. rewrite Rmult_assoc, Rinv_l by lra. lra.
Qed.

(** C87 *)

Theorem C87_model_coherence_per_frequency : forall coh factor U freqs,
  compute_model_coherence coh factor U freqs
  = map (fun f => if Rltb (/ 1000000) f then coh (factor * f / U) else 1) freqs.
Proof. exact coherence_per_frequency. Qed.
Print Assumptions C87_model_coherence_per_frequency.

Example C87_case : compute_model_coherence (fun k => exp (- k)) 2 10 [0; 5; 0; 20] = [1; exp (- (2 * 5 / 10)); 1; exp (- (2 * 20 / 10))].
Proof.
  rewrite C87_model_coherence_per_frequency. cbn [map]. unfold Rltb.
  destruct (Rlt_dec (/ 1000000) 0); [lra|]. destruct (Rlt_dec (/ 1000000) 5); [|lra].
  destruct (Rlt_dec (/ 1000000) 20); [|lra]. reflexivity.
Qed.

(** C88 *)

Theorem C88_noise_initialisation_refuted : forall nc L G S pq net s, calib_construct nc true L G S pq net <> Ok s.
Proof. exact construct_noise. Qed.
Print Assumptions C88_noise_initialisation_refuted.

Example C88_case : forall s, calib_construct 3 true 50 3 1 None None <> Ok s.
Proof. apply C88_noise_initialisation_refuted. Qed.

(** C89 *)

Theorem C89_constructor_accepts : forall nc L G S pq net, (nc = 3 \/ nc = 4 \/ nc = 6)%Z -> 0 < L -> 0 < G -> 0 < S ->
  calib_construct nc false L G S pq net = Ok (MP (ln L) (ln G) (ln S) pq net).
Proof. exact construct_ok. Qed.
Print Assumptions C89_constructor_accepts.

Theorem C89_constructor_rejects_components : forall nc noise L G S pq net, ~ (nc = 3 \/ nc = 4 \/ nc = 6)%Z ->
  calib_construct nc noise L G S pq net = Err ValueError.
Proof. exact construct_bad_components. Qed.
Print Assumptions C89_constructor_rejects_components.

Theorem C89_constructor_rejects_scales : forall nc noise L G S pq net, (nc = 3 \/ nc = 4 \/ nc = 6)%Z ->
  (L <= 0 \/ G <= 0 \/ S <= 0) -> calib_construct nc noise L G S pq net = Err AssertionError.
Proof. exact construct_bad_scale. Qed.
Print Assumptions C89_constructor_rejects_scales.

(** Writing the scales again later: their logarithms, and nothing else; refused unless positive. *)
Theorem C89_log_scales : forall L G S l t m pq net,
  (0 < L -> 0 < G -> 0 < S -> write_log_scales L G S (MP l t m pq net) = (Ok tt, MP (ln L) (ln G) (ln S) pq net))
  /\ (L <= 0 \/ G <= 0 \/ S <= 0 -> write_log_scales L G S (MP l t m pq net) = (Err ValueError, MP l t m pq net)).
Proof. exact log_scales_written. Qed.
Print Assumptions C89_log_scales.

Example C89_log_scales_case : write_log_scales 2 0 1 demo = (Err ValueError, demo) /\ fst (write_log_scales 2 3 1 demo) = Ok tt.
Proof. split; [apply C89_log_scales; lra|]. unfold demo. rewrite (proj1 (C89_log_scales 2 3 1 1 2 3 _ _)) by lra. reflexivity. Qed.

Example C89_case : calib_construct 4 false 50 3 1 None None = Ok (MP (ln 50) (ln 3) (ln 1) None None)
  /\ calib_construct 5 false 50 3 1 None None = Err ValueError
  /\ calib_construct 3 false 50 0 1 None None = Err AssertionError.
Proof.
  split; [apply C89_constructor_accepts; [tauto|lra|lra|lra]|].
  split; [apply C89_constructor_rejects_components; lia|apply C89_constructor_rejects_scales; [tauto|lra]].
Qed.

(** C90 *)

Theorem C90_parameter_sensitivity_refuted : forall out, eval_grad out = Err RuntimeError.
Proof. exact eval_grad_fails. Qed.
Print Assumptions C90_parameter_sensitivity_refuted.

Example C90_case : eval_grad 3 = Err RuntimeError.
Proof. apply C90_parameter_sensitivity_refuted. Qed.
