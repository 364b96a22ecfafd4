(** Property theorems: comments of log directories, balancing options, threads and
    directories (C179-C183). *)

From Coq Require Import String Ascii Reals List Arith ZArith Bool Lia Lra.
From Verif Require Import Prelude SpectraModel LossModel CalModel GenModel LogModel EnvModel EnvSpec GenDemo EnvProofs EnvMore.
Import ListNotations.
Open Scope R_scope.

(** C179 *)

Theorem C179_refuted : forall d c1 c2 now1 now2 host, writer_directory (Some d) c1 now1 host = writer_directory (Some d) c2 now2 host.
Proof. exact comment_ignored. Qed.
Print Assumptions C179_refuted.

Theorem C179_default_partial : forall c1 c2 now host, c1 <> c2 -> writer_directory None c1 now host <> writer_directory None c2 now host.
Proof. exact comment_distinguishes. Qed.
Print Assumptions C179_default_partial.

Example C179_case : writer_directory (Some "logs"%string) "_mann" "Nov16_10-00-00" "host" = "logs"%string
  /\ writer_directory None "_mann" "Nov16_10-00-00" "host" = "runs/Nov16_10-00-00_host_mann"%string /\ "_mann"%string <> "_net"%string.
Proof. split; [reflexivity|]. split; [reflexivity|discriminate]. Qed.

(** C180 *)

Theorem C180_refuted : forall p b1 n1 b2 n2 k1 zref h,
  let r1 := evaluations k1 zref h (new_aggregator (LossOptions p b1 n1)) in
  let r2 := evaluations k1 zref h (new_aggregator (LossOptions p b2 n2)) in
  fst r1 = fst r2 /\ ag_state (snd r1) = ag_state (snd r2) /\ ag_scales (snd r1) = None /\ ag_freq (snd r1) = 10%nat
  /\ length (fst r1) = length h
  /\ forall i a, nth_error h i = Some a ->
       nth_error (fst r1) i = Some (fst (agg_eval p k1 zref (agg_run p k1 zref agg_init (firstn i h)) a)).
Proof. exact balance_ignored. Qed.
Print Assumptions C180_refuted.

Example C180_case : lo_auto (LossOptions (LossParams 0 0 0 1) true 3) <> lo_auto (LossOptions (LossParams 0 0 0 1) false 10)
  /\ lo_freq (LossOptions (LossParams 0 0 0 1) true 3) <> lo_freq (LossOptions (LossParams 0 0 0 1) false 10).
Proof. split; discriminate. Qed.

(** C181 *)

Theorem C181_refuted : forall stored G seeded sampler C2 low_make plan a config w gn w' ns,
  construct_env stored G seeded sampler C2 low_make plan None a config w = Ok (gn, w') -> (2 <= length ns)%nat ->
  construct_env stored G seeded sampler C2 low_make plan (Some (omp_value ns)) a config w = Err ValueError.
Proof. exact generator_raises. Qed.
Print Assumptions C181_refuted.

Theorem C181_number_partial : forall pre n post, blank pre -> blank post ->
  thread_count (Some (pre ++ numeral n ++ post)%string) = Ok (Z.of_nat n)
  /\ thread_count (Some (pre ++ "+" ++ numeral n ++ post)%string) = Ok (Z.of_nat n)
  /\ thread_count (Some (pre ++ "-" ++ numeral n ++ post)%string) = Ok (- Z.of_nat n)%Z.
Proof. exact numeral_count. Qed.
Print Assumptions C181_number_partial.

Theorem C181_same_field_partial : forall stored G seeded sampler C2 low_make plan a config w pre n post, blank pre -> blank post ->
  plan (Z.of_nat n) = Ok tt -> plan 4%Z = Ok tt ->
  construct_env stored G seeded sampler C2 low_make plan (Some (pre ++ numeral n ++ post)%string) a config w
  = construct_env stored G seeded sampler C2 low_make plan None a config w
  /\ construct_env stored G seeded sampler C2 low_make plan None a config w = construct stored G seeded sampler C2 low_make a config w.
Proof. exact generator_same. Qed.
Print Assumptions C181_same_field_partial.

Theorem C181_foreign_partial : forall s c, In c (list_ascii_of_string s) -> ~ in_numbers c -> thread_count (Some s) = Err ValueError.
Proof. exact foreign_raises. Qed.
Print Assumptions C181_foreign_partial.

Theorem C181_exact_partial : forall s z, thread_count (Some s) = Ok z <-> integer_text s z.
Proof. exact count_exact. Qed.
Print Assumptions C181_exact_partial.

Example C181_exact_case : integer_text " +1_0" 10 /\ (forall z, ~ integer_text "1__0" z) /\ (forall z, ~ integer_text "1_" z).
Proof.
  split; [apply C181_exact_partial; reflexivity|].
  split; intros z H; apply C181_exact_partial in H; discriminate H.
Qed.

Example C181_case : omp_value [4; 12]%nat = "4,12"%string /\ thread_count (Some "4,12"%string) = Err ValueError
  /\ thread_count None = Ok 4%Z /\ thread_count (Some " 1_0 "%string) = Ok 10%Z /\ thread_count (Some "dynamic"%string) = Err ValueError
  /\ (exists gn w', construct_env (fun _ => Err FileNotFoundError) nat (fun _ => 0%nat) (fun _ _ _ x => x) unit (fun _ _ => Err RuntimeError)
       (fun _ => Ok tt) None (mann_args (Some 0%Z)) None (World nat 7%nat 9%nat) = Ok (gn, w'))
  /\ blank " " /\ ~ in_numbers "d".
Proof.
  split; [reflexivity|]. split; [reflexivity|]. split; [reflexivity|]. split; [reflexivity|]. split; [reflexivity|]. split.
  - destruct mann_demo as (cs & gn & w' & _ & _ & _ & H & _). exists gn, w'. rewrite <- H.
    destruct (C181_same_field_partial (fun _ => Err FileNotFoundError) nat (fun _ => 0%nat) (fun _ _ _ x => x) unit (fun _ _ => Err RuntimeError)
      (fun _ => Ok tt) (mann_args (Some 0%Z)) None (World nat 7%nat 9%nat) "" 2 "") as (_ & E); [constructor|constructor|reflexivity|reflexivity|exact E].
  - split; [constructor; [apply space_white; reflexivity|constructor]|].
    intros [H|[(d & D & H)|[H|[H|H]]]]; [apply space_white in H; discriminate H| |discriminate|discriminate|discriminate].
    assert (E : digit_of "d" = Some d) by (apply digit_decimal; split; assumption). discriminate E.
Qed.

(** C182 *)

Theorem C182_refuted : forall A imp t (h : list (action A)) s0 content r s1,
  let out := output_attribute imp None in
  let s := acts out t h s0 in
  absolute imp -> se_cwd s <> imp ->
  act out t (SaveModel DNone content) s = (r, s1) ->
  fs_file (se_fs s1) (model_file (se_cwd s ++ "/results") t) = fs_file (se_fs s) (model_file (se_cwd s ++ "/results") t).
Proof. exact default_elsewhere. Qed.
Print Assumptions C182_refuted.

Theorem C182_missing_refuted : forall A imp t (s : session_state A) content,
  absolute imp -> fs_dir (se_fs s) (imp ++ "/results") = false -> fs_creatable (se_fs s) (imp ++ "/results") = true ->
  act (output_attribute imp None) t (SaveModel DNone content) s = (Err ValueError, s)
  /\ exists s1, act (output_attribute imp (Some (DStr (imp ++ "/results")))) t (SaveModel DNone content) s = (Ok tt, s1)
     /\ fs_file (se_fs s1) (model_file (imp ++ "/results") t) = Some content.
Proof. exact default_missing. Qed.
Print Assumptions C182_missing_refuted.

Theorem C182_import_partial : forall A imp t (h : list (action A)) s0 content r s1,
  let out := output_attribute imp None in
  let s := acts out t h s0 in
  absolute imp ->
  act out t (SaveModel DNone content) s = (r, s1) ->
  (r = Ok tt <-> fs_dir (se_fs s) (imp ++ "/results") = true)
  /\ (r = Ok tt -> fs_file (se_fs s1) (model_file (imp ++ "/results") t) = Some content)
  /\ (r <> Ok tt -> r = Err ValueError /\ s1 = s)
  /\ forall p, p <> model_file (imp ++ "/results") t -> fs_file (se_fs s1) p = fs_file (se_fs s) p.
Proof. exact default_save. Qed.
Print Assumptions C182_import_partial.

Theorem C182_after_figure_partial : forall A imp t (s s1 : session_state A) base img h content,
  absolute imp -> let out := output_attribute imp None in
  act out t (SaveFigure DNone base img) s = (Ok tt, s1) ->
  exists s2, act out t (SaveModel DNone content) (acts out t h s1) = (Ok tt, s2)
  /\ fs_file (se_fs s2) (model_file (imp ++ "/results") t) = Some content.
Proof. exact figure_first. Qed.
Print Assumptions C182_after_figure_partial.

Theorem C182_figure_partial : forall A out t (s s1 : session_state A) dir name img r,
  act out t (SaveFigure (DStr dir) name img) s = (r, s1) -> absolute dir ->
  let file := figure_file dir (if String.eqb name "" then "drdmannturb_final_spectra_fit" else name) in
  (r = Ok tt <-> fs_dir (se_fs s) dir = true \/ fs_creatable (se_fs s) dir = true)
  /\ (r = Ok tt -> fs_file (se_fs s1) file = Some img /\ fs_dir (se_fs s1) dir = true)
  /\ (r <> Ok tt -> s1 = s)
  /\ forall p, p <> file -> fs_file (se_fs s1) p = fs_file (se_fs s) p.
Proof. exact figure_saved. Qed.
Print Assumptions C182_figure_partial.

(** A disk with the directories /, /home and /data, on which everything can be created. *)
Definition small_disk : fs nat :=
  FS (fun d => existsb (String.eqb d) [""; "/home"; "/data"]%string) (fun _ => true) (fun _ => None).

Example C182_case : let out := output_attribute "/home" None in
  let s0 := Sess "/home" small_disk in
  absolute "/home" /\ fst (act out MANN (SaveModel DNone 1%nat) s0) = Err ValueError
  /\ fst (act out MANN (SaveFigure DNone "" 5%nat) s0) = Ok tt
  /\ fst (act out MANN (SaveFigure (DStr "/data/new") "fit" 5%nat) s0) = Ok tt
  /\ se_cwd (acts out MANN [SaveFigure DNone "" 5%nat; Chdir "/data"] s0) = "/data"%string
  /\ fs_file (se_fs (acts out MANN [SaveFigure DNone "" 5%nat; Chdir "/data"; SaveModel DNone 1%nat] s0))
       "/home/results/EddyLifetimeType.MANN.pkl" = Some 1%nat
  /\ fs_file (se_fs (acts out MANN [SaveFigure DNone "" 5%nat; Chdir "/data"; SaveModel DNone 1%nat] s0))
       "/data/results/EddyLifetimeType.MANN.pkl" = None.
Proof. split; [eexists; reflexivity|]. repeat split; reflexivity. Qed.

(** C183 *)

Theorem C183_refuted : forall A name t (s : session_state A) d c1 c2,
  relative name -> absolute d -> d <> se_cwd s -> fs_dir (se_fs s) d = true ->
  fs_creatable (se_fs s) (se_cwd s ++ "/" ++ name) = true -> fs_creatable (se_fs s) (d ++ "/" ++ name) = true ->
  let s' := acts (DStr name) t [SaveModel DNone c1; Chdir d; SaveModel DNone c2] s in
  fs_file (se_fs s') (model_file (se_cwd s ++ "/" ++ name) t) = Some c1
  /\ fs_file (se_fs s') (model_file (d ++ "/" ++ name) t) = Some c2.
Proof. exact relative_moves. Qed.
Print Assumptions C183_refuted.

Theorem C183_empty_refuted : forall A t (s : session_state A) content, fs_dir (se_fs s) "" = true -> se_cwd s <> ""%string ->
  exists s1, act (DStr "") t (SaveModel DNone content) s = (Ok tt, s1)
  /\ fs_file (se_fs s1) ("/" ++ eddy_name t ++ ".pkl") = Some content
  /\ fs_file (se_fs s1) (model_file (se_cwd s) t) = fs_file (se_fs s) (model_file (se_cwd s) t).
Proof. exact empty_root. Qed.
Print Assumptions C183_empty_refuted.

Theorem C183_one_save_partial : forall A name t (s : session_state A) content,
  relative name -> (fs_dir (se_fs s) (se_cwd s ++ "/" ++ name) = true \/ fs_creatable (se_fs s) (se_cwd s ++ "/" ++ name) = true) ->
  exists s1, act (DStr name) t (SaveModel DNone content) s = (Ok tt, s1)
  /\ fs_file (se_fs s1) (model_file (se_cwd s ++ "/" ++ name) t) = Some content
  /\ forall p, p <> model_file (se_cwd s ++ "/" ++ name) t -> fs_file (se_fs s1) p = fs_file (se_fs s) p.
Proof. exact relative_save. Qed.
Print Assumptions C183_one_save_partial.

Example C183_case : relative "out" /\ absolute "/data" /\ "/data"%string <> se_cwd (Sess "/home" small_disk) /\ fs_dir small_disk "/data" = true
  /\ fs_dir small_disk "" = true
  /\ fs_file (se_fs (acts (DStr "out") TAUNET [SaveModel DNone 1%nat; Chdir "/data"; SaveModel DNone 2%nat] (Sess "/home" small_disk)))
       "/data/out/EddyLifetimeType.TAUNET.pkl" = Some 2%nat.
Proof.
  split; [eexists; eexists; split; [reflexivity|discriminate]|]. split; [eexists; reflexivity|]. split; [discriminate|]. repeat split; reflexivity.
Qed.
