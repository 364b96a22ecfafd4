(** Proofs about the field generator. *)

From Coq Require Import String Reals Lra Lia List Arith ZArith Bool FunctionalExtensionality.
From Verif Require Import Prelude SpectraModel OpsProofs GenModel GenSpec.
Import ListNotations.
Open Scope R_scope.

(** ** Slices, rolls, windows *)

Lemma window_length : forall A (s : nat -> A) a n, length (window s a n) = n.
Proof. intros. unfold window. rewrite map_length, seq_length. reflexivity. Qed.

Lemma window_app : forall A (s : nat -> A) a n m, window s a (n + m) = window s a n ++ window s (a + n) m.
Proof.
  intros A s a n m. unfold window. rewrite seq_app, map_app. f_equal. cbn [Nat.add].
  revert n. induction m as [|m IH]; intros n; [reflexivity|]. cbn [seq map]. f_equal; [f_equal; lia|].
  rewrite <- seq_shift, map_map. rewrite <- (seq_shift m 0), map_map.
  transitivity (map (fun i => s (a + S n + i)%nat) (seq 0 m)).
  - rewrite <- IH. rewrite <- seq_shift, map_map. reflexivity.
  - apply map_ext. intros i. f_equal. lia.
Qed.

Lemma skipn_window : forall A (s : nat -> A) a n k, (k <= n)%nat -> skipn k (window s a n) = window s (a + k) (n - k).
Proof.
  intros A s a n k H. replace n with (k + (n - k))%nat at 1 by lia. rewrite window_app.
  rewrite skipn_app, window_length, Nat.sub_diag. rewrite skipn_all2 by (rewrite window_length; lia). reflexivity.
Qed.

Lemma firstn_window : forall A (s : nat -> A) a n k, (k <= n)%nat -> firstn k (window s a n) = window s a k.
Proof.
  intros A s a n k H. replace n with (k + (n - k))%nat by lia. rewrite window_app.
  rewrite firstn_app, window_length, Nat.sub_diag. rewrite firstn_all2 by (rewrite window_length; lia).
  cbn [firstn]. apply app_nil_r.
Qed.

Lemma window_nth : forall A (s : nat -> A) a n i, (i < n)%nat -> nth_error (window s a n) i = Some (s (a + i)%nat).
Proof.
  intros A s a n i H. unfold window. rewrite nth_error_map. rewrite nth_error_nth' with (d := 0%nat) by (rewrite seq_length; lia).
  rewrite seq_nth by lia. reflexivity.
Qed.

Lemma pyslice_from_pos : forall A (a : Z) (l : list A), (0 <= a)%Z -> (Z.to_nat a <= length l)%nat ->
  pyslice_from a l = skipn (Z.to_nat a) l.
Proof.
  intros A a l Ha Hl. unfold pyslice_from, slice_pos. replace (a <? 0)%Z with false by (symmetry; apply Z.ltb_ge; lia).
  rewrite Nat.min_l by lia. reflexivity.
Qed.

Lemma pyslice_inner : forall A (a b : Z) (l : list A), (0 <= a)%Z -> (0 < b)%Z -> (Z.to_nat a + Z.to_nat b <= length l)%nat ->
  pyslice a (- b) l = firstn (length l - Z.to_nat b - Z.to_nat a) (skipn (Z.to_nat a) l).
Proof.
  intros A a b l Ha Hb Hl. unfold pyslice, slice_pos.
  replace (a <? 0)%Z with false by (symmetry; apply Z.ltb_ge; lia).
  replace (- b <? 0)%Z with true by (symmetry; apply Z.ltb_lt; lia).
  rewrite Nat.min_l by lia. f_equal. lia.
Qed.

Lemma pyslice_empty : forall A (l : list A), pyslice 0 (-0) l = [].
Proof. intros. unfold pyslice, slice_pos. cbn. reflexivity. Qed.

(** ** Streams *)

Lemma draw_many_window : forall G A (one : G -> A * G) n g,
  draw_many one n g = (window (stream one g) 0 n, after one g n).
Proof.
  intros G A one n. induction n as [|n IH]; intros g; [reflexivity|].
  cbn [draw_many after]. destruct (one g) as [x g1] eqn:E. rewrite IH. cbn [snd].
  f_equal. unfold window. cbn [seq map stream Nat.add]. rewrite E. cbn [fst]. f_equal.
  rewrite <- seq_shift, map_map. apply map_ext. intros i. cbn [stream Nat.add]. rewrite E. reflexivity.
Qed.

Lemma stream_after : forall G A (one : G -> A * G) a r g, stream one (after one g a) r = stream one g (a + r).
Proof.
  intros G A one a. induction a as [|a IH]; intros r g; [reflexivity|]. cbn [after Nat.add stream]. apply IH.
Qed.

Lemma after_after : forall G A (one : G -> A * G) a b g, after one (after one g a) b = after one g (a + b).
Proof. intros G A one a. induction a as [|a IH]; intros b g; [reflexivity|]. cbn [after Nat.add]. apply IH. Qed.

Lemma window_after : forall G A (one : G -> A * G) a n g, window (stream one (after one g a)) 0 n = window (stream one g) a n.
Proof. intros. unfold window. apply map_ext. intros i. rewrite stream_after. reflexivity. Qed.

Lemma draw_many_length : forall G A (one : G -> A * G) n g, length (fst (draw_many one n g)) = n.
Proof. intros. rewrite draw_many_window. apply window_length. Qed.

Lemma stream_In : forall G A (one : G -> A * G) (P : A -> Prop), (forall g, P (fst (one g))) -> forall r g, P (stream one g r).
Proof. intros G A one P H r. induction r as [|r IH]; intros g; cbn [stream]; [apply H|apply IH]. Qed.


Lemma draw_plane_ok : forall G (gauss : G -> R * G) std ny nz g, plane_ok ny nz (fst (draw_plane gauss std ny nz g)).
Proof.
  intros G gauss std ny nz g. unfold draw_plane, plane_ok. rewrite draw_many_window. cbn [fst]. split; [apply window_length|].
  apply Forall_forall. intros c Hc. unfold window in Hc. apply in_map_iff in Hc. destruct Hc as (i & <- & _).
  apply (stream_In G (list (R*R*R)) _ (fun c => length c = nz)). intros g'. apply draw_many_length.
Qed.

Lemma stream_plane_ok : forall G (gauss : G -> R * G) std ny nz g r, plane_ok ny nz (stream (draw_plane gauss std ny nz) g r).
Proof. intros. apply (stream_In _ _ _ (plane_ok ny nz)). intros. apply draw_plane_ok. Qed.

Lemma window_shaped : forall G (gauss : G -> R * G) std ny nz g a n,
  shaped n ny nz (window (stream (draw_plane gauss std ny nz) g) a n).
Proof.
  intros. split; [apply window_length|]. apply Forall_forall. intros p Hp. unfold window in Hp. apply in_map_iff in Hp.
  destruct Hp as (i & <- & _). apply stream_plane_ok.
Qed.

(** ** Sizes *)

Lemma sound_rows : forall g, sound g ->
  rows g = (g_Nx g + 2 * Z.to_nat (g_nb g) + Z.to_nat (Z.max 0 (g_blend g - 1)))%nat
  /\ cols g = (g_Ny g + 2 * Z.to_nat (g_my g))%nat /\ layers g = (g_Nz g + 2 * Z.to_nat (g_mz g))%nat
  /\ Z.to_nat (new_part_start g) = (2 * Z.to_nat (g_nb g) + Z.to_nat (Z.max 0 (g_blend g - 1)))%nat
  /\ (0 <= new_part_start g)%Z.
Proof.
  intros g (Hx & Hy & _ & Hb & Hmy & Hmz). unfold rows, cols, layers, noise_shape, buffer_extension, new_part_start.
  destruct (0 <? g_blend g)%Z eqn:E; [apply Z.ltb_lt in E|apply Z.ltb_ge in E]; repeat split; lia.
Qed.

Lemma shape_nonneg : forall g, sound g ->
  (let '(nx, ny, nz) := noise_shape g in ((nx <? 0) || (ny <? 0) || (nz <? 0))%Z%bool) = false.
Proof.
  intros g (Hx & Hy & _ & Hb & Hmy & Hmz). unfold noise_shape, buffer_extension.
  destruct (0 <? g_blend g)%Z eqn:E; [apply Z.ltb_lt in E|apply Z.ltb_ge in E];
    repeat (apply orb_false_intro); apply Z.ltb_ge; lia.
Qed.

Lemma roll_assign : forall A (s : nat -> A) a Nx ext (v : list A), (0 < Nx)%nat -> length v = Nx ->
  assign_from (Z.of_nat ext) v (roll_left Nx (window s a (Nx + ext))) = Ok (window s (a + Nx) ext ++ v).
Proof.
  intros A s a Nx ext v HN Hv.
  assert (Hroll : exists r, roll_left Nx (window s a (Nx + ext)) = r /\ length r = (Nx + ext)%nat /\ firstn ext r = window s (a + Nx) ext).
  { eexists. split; [reflexivity|]. unfold roll_left.
    destruct (window s a (Nx + ext)) as [|x l] eqn:E.
    { pose proof (window_length _ s a (Nx + ext)) as W. rewrite E in W. cbn in W. lia. }
    rewrite <- E. rewrite window_length. split.
    - rewrite app_length, skipn_length, firstn_length, window_length.
      pose proof (Nat.mod_upper_bound Nx (Nx + ext) ltac:(lia)). lia.
    - destruct ext as [|e].
      + rewrite firstn_O. reflexivity.
      + rewrite Nat.mod_small by lia. rewrite skipn_window by lia. replace (Nx + S e - Nx)%nat with (S e) by lia.
        rewrite firstn_app, window_length, Nat.sub_diag, firstn_O, app_nil_r. apply firstn_window. lia. }
  destruct Hroll as (r & -> & Hl & Hf). unfold assign_from. rewrite pyslice_from_pos by lia.
  rewrite skipn_length, Hl, Hv. replace (Nx + ext - Z.to_nat (Z.of_nat ext))%nat with Nx by lia.
  rewrite Nat.eqb_refl. f_equal. f_equal. rewrite <- Hf. f_equal. unfold slice_pos.
  replace (Z.of_nat ext <? 0)%Z with false by (symmetry; apply Z.ltb_ge; lia). lia.
Qed.

Section Gen.

Variable G : Type.
Variable gauss : G -> R * G.
Variable geo : geometry.
Variable std : R.

Local Notation noises := (noise_stream gauss geo std).
Local Notation one := (draw_plane gauss std (cols geo) (layers geo)).

(** Noise and random generator after [k] attempted blocks. *)
Definition at_block (g0 : G) (k : nat) (s : gstate G) : Prop :=
  match k with
  | O => s_noise s = None /\ s_rng s = g0
  | S t => s_noise s = Some (window (noises g0) (t * g_Nx geo) (rows geo))
           /\ s_rng s = after one g0 (rows geo + t * g_Nx geo)
  end.

Lemma next_noise_at : forall g0 k s, sound geo -> at_block g0 k s ->
  next_noise gauss geo std s
  = (Ok (window (noises g0) (k * g_Nx geo) (rows geo)), after one g0 (rows geo + k * g_Nx geo)).
Proof.
  intros g0 k s Hs Hk. pose proof (shape_nonneg geo Hs) as Hn. unfold next_noise.
  pose proof (sound_rows geo Hs) as (Hr & Hc & Hl & Hp & Hp0).
  unfold at_block, noise_stream in *. unfold rows, cols, layers in *. destruct (noise_shape geo) as [[nx ny] nz]. rewrite Hn.
  destruct k as [|t]; destruct Hk as [-> ->].
  - unfold sample_noise. rewrite draw_many_window. rewrite Nat.mul_0_l, Nat.add_0_r. reflexivity.
  - unfold sample_noise. rewrite draw_many_window. rewrite window_after, after_after.
    set (ext := (2 * Z.to_nat (g_nb geo) + Z.to_nat (Z.max 0 (g_blend geo - 1)))%nat) in *.
    replace (new_part_start geo) with (Z.of_nat ext) by lia.
    assert (Hx : Z.to_nat nx = (g_Nx geo + ext)%nat) by (unfold ext; lia). rewrite Hx.
    destruct Hs as (Hx2 & _). rewrite roll_assign; [|lia|apply window_length].
    f_equal; [|f_equal; cbn [Nat.mul]; lia]. f_equal.
    replace (g_Nx geo + ext)%nat with (ext + g_Nx geo)%nat by lia.
    replace (S t * g_Nx geo)%nat with (t * g_Nx geo + g_Nx geo)%nat by (cbn; lia).
    rewrite window_app. f_equal. f_equal. lia.
Qed.

Variable correlate : field R -> field R.

Definition delivered_block (g0 : G) (k : nat) : field R :=
  trim geo (central_part geo (correlate (window (noises g0) (k * g_Nx geo) (rows geo)))).

Lemma generate_block_at : forall g0 k s, sound geo -> at_block g0 k s ->
  exists s', generate_block gauss geo std correlate s = (Ok (delivered_block g0 k), s')
  /\ at_block g0 (S k) s' /\ s_total s' = s_total s.
Proof.
  intros g0 k s Hs Hk. unfold generate_block. rewrite (next_noise_at g0 k s Hs Hk).
  eexists. split; [reflexivity|]. split; [|reflexivity]. cbn [at_block s_noise s_rng]. split; reflexivity.
Qed.

(** Extents of a delivered block. *)

Lemma Forall_firstn : forall A (P : A -> Prop) n l, Forall P l -> Forall P (firstn n l).
Proof.
  intros A P n l H. rewrite <- (firstn_skipn n l) in H. apply Forall_app in H. tauto.
Qed.
Lemma Forall_skipn : forall A (P : A -> Prop) n l, Forall P l -> Forall P (skipn n l).
Proof.
  intros A P n l H. rewrite <- (firstn_skipn n l) in H. apply Forall_app in H. tauto.
Qed.

Lemma central_crop : forall f, sound geo -> shaped (rows geo) (cols geo) (layers geo) f ->
  central_part geo f = map (crop geo) (firstn (rows geo - 2 * Z.to_nat (g_nb geo)) (skipn (Z.to_nat (g_nb geo)) f)).
Proof.
  intros f Hs [Hl Hp]. pose proof (sound_rows geo Hs) as (Hr & Hc & Hly & _). destruct Hs as (Hx & Hy & Hz & Hb & Hmy & Hmz).
  unfold central_part. rewrite pyslice_inner by lia. rewrite Hl.
  replace (rows geo - Z.to_nat (g_nb geo) - Z.to_nat (g_nb geo))%nat with (rows geo - 2 * Z.to_nat (g_nb geo))%nat by lia.
  apply map_ext_in. intros p Hin. assert (Hq : plane_ok (cols geo) (layers geo) p).
  { assert (F : Forall (plane_ok (cols geo) (layers geo)) (firstn (rows geo - 2 * Z.to_nat (g_nb geo)) (skipn (Z.to_nat (g_nb geo)) f))).
    { apply Forall_firstn, Forall_skipn. exact Hp. }
    rewrite Forall_forall in F. apply F. exact Hin. }
  destruct Hq as [Hq1 Hq2]. unfold crop. rewrite pyslice_inner by lia.
  replace (length p - Z.to_nat (g_my geo) - Z.to_nat (g_my geo))%nat with (g_Ny geo) by lia.
  apply map_ext_in. intros c Hcin. assert (Hlc : length c = layers geo).
  { apply (Forall_firstn _ _ (g_Ny geo)) in Hq2 as Q1. pose proof (Forall_skipn _ _ (Z.to_nat (g_my geo)) _ Hq2) as Q2.
    apply (Forall_firstn _ _ (g_Ny geo)) in Q2. rewrite Forall_forall in Q2. apply Q2. exact Hcin. }
  rewrite pyslice_inner by lia. cbn [Z.to_nat skipn]. f_equal. lia.
Qed.

Lemma crop_ok : forall p, sound geo -> plane_ok (cols geo) (layers geo) p -> plane_ok (g_Ny geo) (g_Nz geo) (crop geo p).
Proof.
  intros p Hs [Hl Hc]. pose proof (sound_rows geo Hs) as (_ & Hcl & Hly & _). unfold crop, plane_ok.
  rewrite map_length, firstn_length, skipn_length. split; [lia|].
  apply Forall_forall. intros c H. apply in_map_iff in H. destruct H as (c' & <- & Hin).
  assert (Hlc : length c' = layers geo).
  { pose proof (Forall_skipn _ _ (Z.to_nat (g_my geo)) _ Hc) as Q2. apply (Forall_firstn _ _ (g_Ny geo)) in Q2.
    rewrite Forall_forall in Q2. apply Q2. exact Hin. }
  rewrite firstn_length. lia.
Qed.

Lemma trim_firstn : forall (w : field R), (length w = g_Nx geo + Z.to_nat (Z.max 0 (g_blend geo - 1)))%nat ->
  trim geo w = firstn (g_Nx geo) w.
Proof.
  intros w Hl. unfold trim. destruct (1 <? g_blend geo)%Z eqn:E; [apply Z.ltb_lt in E|apply Z.ltb_ge in E].
  - rewrite pyslice_inner by lia. cbn [Z.to_nat skipn]. f_equal. lia.
  - rewrite firstn_all2 by lia. reflexivity.
Qed.

Lemma block_form : forall f, sound geo -> shaped (rows geo) (cols geo) (layers geo) f ->
  trim geo (central_part geo f) = map (crop geo) (firstn (g_Nx geo) (skipn (Z.to_nat (g_nb geo)) f)).
Proof.
  intros f Hs Hf. rewrite central_crop by assumption. pose proof (sound_rows geo Hs) as (Hr & _). destruct Hf as [Hl _].
  rewrite trim_firstn.
  - rewrite firstn_map, firstn_firstn. f_equal. f_equal. lia.
  - rewrite map_length, firstn_length, skipn_length. lia.
Qed.

Lemma block_shaped : forall f, sound geo -> shaped (rows geo) (cols geo) (layers geo) f ->
  shaped (g_Nx geo) (g_Ny geo) (g_Nz geo) (trim geo (central_part geo f)).
Proof.
  intros f Hs Hf. rewrite block_form by assumption. pose proof (sound_rows geo Hs) as (Hr & _). destruct Hf as [Hl Hp].
  split.
  - rewrite map_length, firstn_length, skipn_length. lia.
  - apply Forall_forall. intros p Hin. apply in_map_iff in Hin. destruct Hin as (q & <- & Hq). apply crop_ok; [exact Hs|].
    apply (Forall_skipn _ _ (Z.to_nat (g_nb geo))), (Forall_firstn _ _ (g_Nx geo)) in Hp.
    rewrite Forall_forall in Hp. apply Hp. exact Hq.
Qed.

Lemma delivered_shaped : forall g0 k, sound geo -> shape_preserving correlate ->
  shaped (g_Nx geo) (g_Ny geo) (g_Nz geo) (delivered_block g0 k).
Proof. intros g0 k Hs Hc. apply block_shaped; [exact Hs|]. apply Hc. apply window_shaped. Qed.

End Gen.
