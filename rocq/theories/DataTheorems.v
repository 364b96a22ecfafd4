(** Property theorems about generated and loaded data (C33-C36, C71, C86, C91). *)

From Coq Require Import String Reals Lra Lia List ZArith Bool.
From Coquelicot Require Import Coquelicot.
From Verif Require Import Prelude RdtModel OpsModel LossModel CalModel CalMore DataModel DataSpec DataProofs.
Import ListNotations.
Open Scope R_scope.

(** C33 *)

Theorem C33_signs : forall zref ustar k1, 0 < k1 -> 0 < zref -> ustar <> 0 ->
  exists f, finite_matrix (kaimal_at zref ustar k1) f
  /\ 0 < f X1 X1 /\ 0 < f X2 X2 /\ 0 < f X3 X3 /\ f X1 X3 < 0 /\ f X1 X2 = 0 /\ f X2 X3 = 0.
Proof. exact kaimal_signs. Qed.
Print Assumptions C33_signs.

Theorem C33_published_formulas : forall zref ustar k1, 0 < k1 -> 0 < zref ->
  let n := k1 * zref / (2 * PI) in
  finite_matrix (kaimal_at zref ustar k1) (fun i j => ustar^2 *
    match i, j with
    | X1, X1 => 52.5 * n / Rpower (1 + 33 * n) (5/3)
    | X2, X2 => 8.5 * n / Rpower (1 + 9.5 * n) (5/3)
    | X3, X3 => 1.05 * n / (1 + 5.3 * Rpower n (5/3))
    | X1, X3 => - (7 * n / Rpower (1 + 9.6 * n) 2.4)
    | _, _ => 0
    end).
Proof. exact kaimal_published. Qed.
Print Assumptions C33_published_formulas.

Theorem C33_friction_velocity : forall zref ustar c k1 f, 0 < k1 -> 0 < zref -> finite_matrix (kaimal_at zref ustar k1) f ->
  finite_matrix (kaimal_at zref (c * ustar) k1) (fun i j => c^2 * f i j).
Proof. exact kaimal_ustar. Qed.
Print Assumptions C33_friction_velocity.

Theorem C33_similarity : forall zref zref' ustar k1 k1', k1 * zref = k1' * zref' ->
  forall i j, kaimal_at zref ustar k1 i j = kaimal_at zref' ustar k1' i j.
Proof. exact kaimal_similar. Qed.
Print Assumptions C33_similarity.

Theorem C33_one_matrix_per_wave_number : forall zref ustar k1s i,
  nth_error (kaimal zref ustar k1s) i = option_map (kaimal_at zref ustar) (nth_error k1s i).
Proof. exact kaimal_rows. Qed.
Print Assumptions C33_one_matrix_per_wave_number.

Example C33_case : (exists f, finite_matrix (kaimal_at 1 1 1) f /\ 0 < f X1 X1) /\ 1 * 40 = 2 * 20.
Proof.
  split; [|lra]. destruct (C33_signs 1 1 1) as (f & F & P & _); try lra. exists f. split; assumption.
Qed.

(** C34 *)

Theorem C34_physical : forall L C k1, L <> 0 -> 0 < C -> 0 < k1 ->
  exists m f, von_karman_at L C k1 = Ok m /\ finite_matrix m f
  /\ 0 < f X1 X1 /\ 0 < f X2 X2 /\ f X3 X3 = f X2 X2
  /\ f X1 X2 = 0 /\ f X2 X1 = 0 /\ f X1 X3 = 0 /\ f X3 X1 = 0 /\ f X2 X3 = 0 /\ f X3 X2 = 0.
Proof. exact vk_physical. Qed.
Print Assumptions C34_physical.

Theorem C34_published_formulas : forall L C k1, L <> 0 -> exists m, von_karman_at L C k1 = Ok m
  /\ finite_matrix m (fun i j => k1 * match i, j with
     | X1, X1 => 9/55 * C / Rpower (/ L^2 + k1^2) (5/6)
     | X2, X2 | X3, X3 => 3/110 * C * (3 / L^2 + 8 * k1^2) / Rpower (/ L^2 + k1^2) (11/6)
     | _, _ => 0 end).
Proof. exact vk_published. Qed.
Print Assumptions C34_published_formulas.

Theorem C34_isotropy : forall L C k1, L <> 0 -> 0 < k1 ->
  exists d, is_derive (vk_data L C X1 X1) k1 d
  /\ vk_data L C X2 X2 k1 = (vk_data L C X1 X1 k1 - k1 * d) / 2.
Proof. exact vk_isotropic_data. Qed.
Print Assumptions C34_isotropy.

Theorem C34_magnitude : forall L C c k1 m f, L <> 0 -> von_karman_at L C k1 = Ok m -> finite_matrix m f ->
  exists m', von_karman_at L (c * C) k1 = Ok m' /\ finite_matrix m' (fun i j => c * f i j).
Proof. exact vk_magnitude. Qed.
Print Assumptions C34_magnitude.

Theorem C34_length_scale : forall L C k1 m f, 0 < L -> von_karman_at L C k1 = Ok m -> finite_matrix m f ->
  exists m', von_karman_at 1 C (L * k1) = Ok m' /\ forall i j, exists v, m' i j = Fin v /\ f i j = Rpower L (2/3) * v.
Proof. exact vk_similar. Qed.
Print Assumptions C34_length_scale.

Theorem C34_zero_length_raises : forall C k1, von_karman_at 0 C k1 = Err ZeroDivisionError.
Proof. exact vk_zero_length. Qed.
Print Assumptions C34_zero_length_raises.

Theorem C34_one_matrix_per_wave_number : forall L C k1s, L <> 0 ->
  exists l, von_karman L C k1s = Ok l /\ List.Forall2 (fun k1 m => von_karman_at L C k1 = Ok m) k1s l.
Proof. exact vk_list. Qed.
Print Assumptions C34_one_matrix_per_wave_number.

Example C34_case : exists m f, von_karman_at 50 3.2 0.01 = Ok m /\ finite_matrix m f /\ 0 < f X1 X1.
Proof.
  destruct (C34_physical 50 3.2 0.01) as (m & f & E & F & P & _); try lra. exists m, f. repeat split; assumption.
Qed.

(** C35.  False of the code: construction raises whatever the file. *)

Theorem C35_valid_file_refuted : forall f n, custom_loader f n <> Ok tt.
Proof. exact loader_never. Qed.
Print Assumptions C35_valid_file_refuted.

Theorem C35_missing_column : forall cols n,
  (custom_loader (Table cols) n = Err ValueError <-> exists name, required n name /\ ~ In name cols)
  /\ ((forall name, required n name -> In name cols) -> custom_loader (Table cols) n = Err AttributeError).
Proof. exact loader_value_error. Qed.
Print Assumptions C35_missing_column.

Theorem C35_missing_file : forall n, custom_loader Missing n = Err FileNotFoundError.
Proof. exact (fun n => eq_refl). Qed.
Print Assumptions C35_missing_file.

Example C35_case : custom_loader (Table ["freq"; "uu"; "vv"; "ww"]%string) 3 = Err AttributeError
  /\ custom_loader (Table ["freq"; "uu"; "vv"; "ww"]%string) 4 = Err ValueError.
Proof. split; reflexivity. Qed.

(** C36.  False of the code: construction raises whatever the arguments. *)

Theorem C36_construction_refuted : forall d l v, domain_parameters d l <> Ok v.
Proof. exact domain_never. Qed.
Print Assumptions C36_construction_refuted.

Theorem C36_wrong_length : forall k dims l, k <> KTuple ->
  (domain_parameters (k, dims) l = Err ValueError <-> length dims <> 3%nat).
Proof. exact domain_wrong_length. Qed.
Print Assumptions C36_wrong_length.

Example C36_case : domain_parameters (KList, [1; 2]) (KTuple, [3; 4; 5]%Z) = Err ValueError
  /\ domain_parameters (KTuple, [1; 2; 3]) (KTuple, [3; 4; 5]%Z) = Err AttributeError.
Proof. split; reflexivity. Qed.

(** C71.  False of Kaimal data: only the entry above the diagonal is written. *)

Theorem C71_kaimal_refuted : forall zref ustar k1, 0 < k1 -> 0 < zref -> ustar <> 0 ->
  ~ symmetric_matrix (kaimal_at zref ustar k1).
Proof. exact kaimal_not_symmetric. Qed.
Print Assumptions C71_kaimal_refuted.

Theorem C71_von_karman : forall L C k1 m, von_karman_at L C k1 = Ok m -> symmetric_matrix m.
Proof. exact vk_symmetric. Qed.
Print Assumptions C71_von_karman.

Example C71_case : ~ symmetric_matrix (kaimal_at 40 1.7 0.01) /\ exists m, von_karman_at 50 3.2 0.01 = Ok m /\ symmetric_matrix m.
Proof.
  split; [apply C71_kaimal_refuted; lra|].
  destruct (vk_form 50 3.2 0.01) as (m & E & _); [lra|]. exists m. split; [exact E|exact (C71_von_karman _ _ _ _ E)].
Qed.

(** C86.  False of the code: the zero cross spectra in the data make every loss
    non-finite. *)

Theorem C86_kaimal_six_refuted : forall c opt sched m env p1 p2 N k1s zref ustar d rows,
  (1 <= tg_nepochs c)%nat -> (1 <= length k1s)%nat -> holds (kaimal zref ustar k1s) d ->
  data_rows 6 (length k1s) d = Some rows -> calibrates_against c 6 env p1 p2 N k1s rows ->
  forall v, fst (calibrate c opt sched m) <> Ok v.
Proof. exact kaimal_six. Qed.
Print Assumptions C86_kaimal_six_refuted.

Theorem C86_von_karman_refuted : forall c opt sched m nc env p1 p2 N k1s L C mats d rows,
  (1 <= tg_nepochs c)%nat -> (1 <= length k1s)%nat -> (nc = 4 \/ nc = 6)%nat ->
  von_karman L C k1s = Ok mats -> holds mats d ->
  data_rows (Z.of_nat nc) (length k1s) d = Some rows -> calibrates_against c nc env p1 p2 N k1s rows ->
  forall v, fst (calibrate c opt sched m) <> Ok v.
Proof. exact vk_four_six. Qed.
Print Assumptions C86_von_karman_refuted.

Theorem C86_three_components_finite : forall e p1 p2 N k1s d rows, p1 < p2 -> (2 <= N)%nat -> (1 <= length k1s)%nat ->
  (forall k, In k k1s -> 0 < k) ->
  (forall n, (n < length k1s)%nat -> d n X1 X1 <> 0 /\ d n X2 X2 <> 0 /\ d n X3 X3 <> 0) ->
  data_rows 3 (length k1s) d = Some rows ->
  exists v, mse_term (concat (model_rows 3 (ops_output e p1 p2 N k1s))) (concat rows) = Ok (Fin v) /\ 0 <= v.
Proof. exact three_finite. Qed.
Print Assumptions C86_three_components_finite.

Example C86_case : exists c env rows d,
  tg_nepochs c = 10%nat /\ holds (kaimal 40 2 [1; 2]) d /\ data_rows 6 2 d = Some rows
  /\ calibrates_against c 6 env (-3) 3 100 [1; 2] rows
  /\ (forall n, (n < 2)%nat -> d n X1 X1 <> 0 /\ d n X2 X2 <> 0 /\ d n X3 X3 <> 0).
Proof.
  destruct (C33_signs 40 2 1) as (f1 & F1 & P1 & P2 & P3 & _); try lra.
  destruct (C33_signs 40 2 2) as (f2 & F2 & Q1 & Q2 & Q3 & _); try lra.
  set (d := fun n => match n with O => f1 | _ => f2 end).
  set (env := fun _ : module_params => OpsEnv 1 1 (fun x => x) (fun _ _ _ => 0)).
  set (rows := match data_rows 6 2 d with Some r => r | None => [] end).
  set (a := fun m => EvalArgs (model_rows 6 (ops_output (env m) (-3) 3 100 [1; 2])) rows ThNone 0 None).
  exists (TCfg (LossParams 0 0 0 0) [1; 2] 40 1 10 1 a (fun m _ => a m)), env, rows, d.
  split; [reflexivity|]. split; [|split; [reflexivity|split; [split; intros; split; reflexivity|]]].
  - intros [|[|n]] m E; cbn [kaimal map nth_error] in E; [injection E as <-; exact F1|injection E as <-; exact F2|].
    exfalso. destruct n; discriminate E.
  - intros [|n] _; cbn [d]; lra.
Qed.

(** C91 *)

Theorem C91_kaimal_coherent : forall zref ustar k1 f, 0 < k1 -> 0 < zref -> finite_matrix (kaimal_at zref ustar k1) f ->
  (f X1 X3)^2 <= f X1 X1 * f X3 X3.
Proof. exact kaimal_coherent. Qed.
Print Assumptions C91_kaimal_coherent.

Example C91_case : exists f, finite_matrix (kaimal_at 40 1.7 0.01) f /\ f X1 X3 < 0.
Proof. destruct (C33_signs 40 1.7 0.01) as (f & F & _ & _ & _ & N & _); try lra. exists f. split; assumption. Qed.
