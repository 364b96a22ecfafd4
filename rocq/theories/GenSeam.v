(** Seams between blocks, low-frequency contribution, divergence. *)

From Coq Require Import String Reals Lra Lia List Arith ZArith Bool.
From Verif Require Import Prelude SpectraModel OpsProofs GenModel GenSpec GenProofs GenMore GenApi GenPhys.
Import ListNotations.
Open Scope R_scope.

(** ** Blocks of a local sampler *)

Lemma raw_blocks_at : forall G (gauss : G -> R * G) geo std correlate n g0 k s, sound geo -> at_block G gauss geo std g0 k s ->
  raw_blocks gauss geo std correlate n s = map (raw_block gauss geo std correlate g0) (seq k n).
Proof.
  intros G gauss geo std correlate n. induction n as [|n IH]; intros g0 k s Hs Hk; [reflexivity|]. cbn [raw_blocks seq map].
  destruct (generate_block_at G gauss geo std correlate g0 k s Hs Hk) as (s' & E & Hk' & _). rewrite E. f_equal. apply IH; assumption.
Qed.

Lemma nth_error_ext : forall A (l l' : list A), (forall i, nth_error l i = nth_error l' i) -> l = l'.
Proof.
  intros A l. induction l as [|x l IH]; intros [|y l'] H; [reflexivity|specialize (H 0%nat); discriminate|specialize (H 0%nat); discriminate|].
  f_equal; [specialize (H 0%nat); cbn in H; congruence|]. apply IH. intros i. exact (H (S i)).
Qed.

Lemma nth_firstn : forall A n (l : list A) i, (i < n)%nat -> nth_error (firstn n l) i = nth_error l i.
Proof.
  intros A n. induction n as [|n IH]; intros l i H; [lia|]. destruct l as [|x l]; [reflexivity|]. destruct i as [|i]; [reflexivity|].
  cbn. apply IH. lia.
Qed.
Lemma nth_skipn : forall A k (l : list A) i, nth_error (skipn k l) i = nth_error l (k + i).
Proof.
  intros A k. induction k as [|k IH]; intros l i; [reflexivity|]. destruct l as [|x l]; [destruct i; reflexivity|]. cbn. apply IH.
Qed.

Lemma local_rows : forall geo correlate K (s : nat -> list (list (R * R * R))) a, sound geo -> local_sampler geo correlate K ->
  firstn (g_Nx geo) (skipn (Z.to_nat (g_nb geo)) (correlate (window s a (rows geo))))
  = map (fun i => K (window s (a + i) (2 * Z.to_nat (g_nb geo) + 1))) (seq 0 (g_Nx geo)).
Proof.
  intros geo correlate K s a Hs HK. pose proof (sound_rows geo Hs) as (Hr & _).
  destruct (HK (window s a (rows geo)) (window_length _ _ _ _)) as [HL HW]. rewrite window_length in HL, HW.
  apply nth_error_ext. intros i. destruct (Nat.lt_ge_cases i (g_Nx geo)) as [H|H].
  - rewrite nth_firstn by exact H. rewrite nth_skipn. rewrite (Nat.add_comm _ i). rewrite HW by lia.
    rewrite nth_error_map. rewrite nth_error_nth' with (d := 0%nat) by (rewrite seq_length; lia). rewrite seq_nth by lia.
    cbn [option_map Nat.add]. f_equal. f_equal. rewrite skipn_window by lia. apply firstn_window. lia.
  - transitivity (@None (list (list (R * R * R)))); [|symmetry]; apply nth_error_None.
    + rewrite firstn_length, skipn_length, HL. lia.
    + rewrite map_length, seq_length. exact H.
Qed.

Lemma map_seq_shift : forall A (f : nat -> A) a m, map f (seq a m) = map (fun i => f (a + i)%nat) (seq 0 m).
Proof.
  intros A f a m. induction m as [|m IH]; [reflexivity|]. rewrite !seq_S, !map_app, IH. reflexivity.
Qed.

Lemma local_block : forall G (gauss : G -> R * G) geo std correlate K g0 t, sound geo -> shape_preserving correlate ->
  local_sampler geo correlate K ->
  raw_block gauss geo std correlate g0 t
  = map (fun j => crop geo (K (window (noise_stream gauss geo std g0) j (2 * Z.to_nat (g_nb geo) + 1)))) (seq (t * g_Nx geo) (g_Nx geo)).
Proof.
  intros G gauss geo std correlate K g0 t Hs Hc HK. unfold raw_block. rewrite block_form; [|exact Hs|apply Hc; apply window_shaped].
  rewrite (local_rows geo correlate K _ _ Hs HK). rewrite map_map.
  rewrite (map_seq_shift _ _ (t * g_Nx geo)). apply map_ext. intros i. reflexivity.
Qed.

Lemma seq_concat : forall A (f : nat -> A) n m k, concat (map (fun t => map f (seq (t * m) m)) (seq k n)) = map f (seq (k * m) (n * m)).
Proof.
  intros A f n. induction n as [|n IH]; intros m k; [reflexivity|]. cbn [seq map concat]. rewrite IH.
  cbn [Nat.mul]. rewrite seq_app, map_app. f_equal. f_equal. f_equal. lia.
Qed.

Lemma no_seam : forall G (gauss : G -> R * G) geo std correlate K n g0 tot bl, sound geo -> shape_preserving correlate ->
  local_sampler geo correlate K ->
  concat (raw_blocks gauss geo std correlate n (GState None tot g0 bl))
  = map (fun j => crop geo (K (window (noise_stream gauss geo std g0) j (2 * Z.to_nat (g_nb geo) + 1)))) (seq 0 (n * g_Nx geo)).
Proof.
  intros G gauss geo std correlate K n g0 tot bl Hs Hc HK. rewrite (raw_blocks_at G gauss geo std correlate n g0 0); [|exact Hs|split; reflexivity].
  rewrite (map_ext _ _ (fun t => local_block G gauss geo std correlate K g0 t Hs Hc HK)). rewrite seq_concat. reflexivity.
Qed.


Lemma nth_window_list : forall A (d : A) (l : list A) i n, (i + n <= length l)%nat ->
  map (fun r => nth (i + r) l d) (seq 0 n) = firstn n (skipn i l).
Proof.
  intros A d l i n H. apply nth_error_ext. intros j. destruct (Nat.lt_ge_cases j n) as [Hj|Hj].
  - rewrite nth_firstn, nth_skipn by exact Hj. rewrite nth_error_map. rewrite nth_error_nth' with (d := 0%nat) by (rewrite seq_length; lia).
    rewrite seq_nth by lia. cbn [option_map Nat.add]. symmetry. apply nth_error_nth'. lia.
  - transitivity (@None A); [|symmetry]; apply nth_error_None; [rewrite map_length, seq_length; exact Hj|].
    rewrite firstn_length. lia.
Qed.

Lemma cyclic_local : forall geo K, sound geo -> local_sampler geo (cyclic_filter (Z.to_nat (g_nb geo)) K) K.
Proof.
  intros geo K Hs f Hf. pose proof (sound_rows geo Hs) as (Hr & _). set (nb := Z.to_nat (g_nb geo)) in *. unfold cyclic_filter.
  split; [rewrite map_length, seq_length; reflexivity|]. intros i Hi. rewrite nth_error_map.
  rewrite nth_error_nth' with (d := 0%nat) by (rewrite seq_length; lia). rewrite seq_nth by lia. cbn [option_map Nat.add]. f_equal. f_equal.
  rewrite <- (nth_window_list _ [] f i (2 * nb + 1)) by lia. apply map_ext_in. intros r Hin. apply in_seq in Hin. f_equal.
  replace (i + nb + length f + r - nb)%nat with (i + r + 1 * length f)%nat by lia. rewrite Nat.mod_add by lia. apply Nat.mod_small. lia.
Qed.

Lemma cyclic_shape : forall nb K, (forall w ny nz, Forall (fun p => plane_ok ny nz p) w -> length w = (2 * nb + 1)%nat -> plane_ok ny nz (K w)) ->
  shape_preserving (cyclic_filter nb K).
Proof.
  intros nb K HK nx ny nz f [Hl Hp]. unfold cyclic_filter. split; [rewrite map_length, seq_length; exact Hl|].
  apply Forall_forall. intros p Hin. apply in_map_iff in Hin. destruct Hin as (i & <- & Hi). apply in_seq in Hi. apply HK.
  - apply Forall_forall. intros q Hq. apply in_map_iff in Hq. destruct Hq as (r & <- & _).
    rewrite Forall_forall in Hp. apply Hp. apply nth_In. apply Nat.mod_upper_bound. lia.
  - rewrite map_length, seq_length. reflexivity.
Qed.

(** ** Low-frequency contribution *)

Lemma low_restart : forall G (gauss : G -> R * G) (gn : generator G) lv interp g0 a,
  usable gn -> fresh gn g0 -> gen_low G gn = Some lv -> lv_interp lv = Some interp -> ~ bad_profile a ->
  nonzero (raw_block gauss (gen_geo G gn) (gen_std G gn) (gen_correlate G gn) g0 0) ->
  nonzero (raw_block gauss (gen_geo G gn) (gen_std G gn) (gen_correlate G gn) g0 1) ->
  exists b0 b1,
    shaped (g_Nx (gen_geo G gn)) (g_Ny (gen_geo G gn)) (g_Nz (gen_geo G gn)) b0
    /\ shaped (g_Nx (gen_geo G gn)) (g_Ny (gen_geo G gn)) (g_Nz (gen_geo G gn)) b1
    /\ normalize_block (gen_geo G gn) a (raw_block gauss (gen_geo G gn) (gen_std G gn) (gen_correlate G gn) g0 0) = Ok b0
    /\ normalize_block (gen_geo G gn) a (raw_block gauss (gen_geo G gn) (gen_std G gn) (gen_correlate G gn) g0 1) = Ok b1
    /\ (let at_block i b := add_slice interp (block_x (gen_geo G gn) i (g_Nx (gen_geo G gn))) (block_y (gen_geo G gn) (lv_L2 lv)) b in
        fst (gen_call G gauss 2 a gn) = Ok (at_block 0%nat b0 ++ at_block 1%nat b1)
        /\ fst (gen_call G gauss 1 a (snd (gen_call G gauss 1 a gn))) = Ok (at_block 0%nat b0 ++ at_block 0%nat b1)).
Proof.
  intros G gauss gn lv interp g0 a [Hs Hc] Hf Hlow Hint B N0 N1.
  set (geo := gen_geo G gn) in *. set (std := gen_std G gn) in *. set (cor := gen_correlate G gn) in *.
  destruct (normalize_good geo a _ _ _ B N0 (block_shape G gauss geo std cor Hs Hc g0 0)) as (prof0 & sd0 & HP0 & _ & _ & E0).
  destruct (normalize_good geo a _ _ _ B N1 (block_shape G gauss geo std cor Hs Hc g0 1)) as (prof1 & sd1 & HP1 & _ & _ & E1).
  set (b0 := with_profile prof0 _) in E0. set (b1 := with_profile prof1 _) in E1.
  assert (S0 : shaped (g_Nx geo) (g_Ny geo) (g_Nz geo) b0).
  { apply with_profile_shaped; [rewrite (Nz_nodes geo Hs); eapply mean_profile_length; exact HP0|].
    apply fmap_shaped. rewrite (Nz_nodes geo Hs). apply block_shape; assumption. }
  assert (S1 : shaped (g_Nx geo) (g_Ny geo) (g_Nz geo) b1).
  { apply with_profile_shaped; [rewrite (Nz_nodes geo Hs); eapply mean_profile_length; exact HP1|].
    apply fmap_shaped. rewrite (Nz_nodes geo Hs). apply block_shape; assumption. }
  exists b0, b1. split; [exact S0|]. split; [exact S1|]. split; [exact E0|]. split; [exact E1|]. cbv zeta.
  assert (AL : forall i b, shaped (g_Nx geo) (g_Ny geo) (g_Nz geo) b -> add_low geo (Some lv) i b
    = Ok (add_slice interp (block_x geo i (g_Nx geo)) (block_y geo (lv_L2 lv)) b)
    /\ fits (g_Ny geo) (g_Nz geo) (add_slice interp (block_x geo i (g_Nx geo)) (block_y geo (lv_L2 lv)) b) = true).
  { intros i b Hb. split.
    - unfold add_low. rewrite Hint. replace (forallb _ b) with true.
      + destruct Hb as [-> _]. reflexivity.
      + symmetry. apply forallb_forall. intros p Hin. apply Nat.eqb_eq. destruct Hb as [_ Hb]. rewrite Forall_forall in Hb. apply (Hb p Hin).
    - eapply shaped_fits. apply add_slice_shaped; [apply block_x_length|apply block_y_length|exact Hb]. }
  assert (ST : forall i k s b, at_block G gauss geo std g0 k s -> normalize_block geo a (delivered_block G gauss geo std cor g0 k) = Ok b ->
    shaped (g_Nx geo) (g_Ny geo) (g_Nz geo) b ->
    exists s', generate_one gauss geo std cor (Some lv) a i s = (Ok tt, s') /\ at_block G gauss geo std g0 (S k) s'
    /\ s_total s' = s_total s ++ add_slice interp (block_x geo i (g_Nx geo)) (block_y geo (lv_L2 lv)) b).
  { intros i k s b Hk En Hb. destruct (generate_block_at G gauss geo std cor g0 k s Hs Hk) as (s1 & E & Hk1 & Ht).
    unfold generate_one. rewrite E, En. cbn [bind]. destruct (AL i b Hb) as [-> ->]. eexists. split; [reflexivity|]. split; [exact Hk1|].
    cbn [s_total]. rewrite Ht. reflexivity. }
  pose proof (fresh_at G gauss gn g0 Hf) as Hk. fold geo std in Hk.
  destruct (ST 0%nat 0%nat _ b0 Hk E0 S0) as (s1 & G1 & Hk1 & T1).
  destruct (ST 1%nat 1%nat _ b1 Hk1 E1 S1) as (s2 & G2 & Hk2 & T2).
  destruct (ST 0%nat 1%nat _ b1 Hk1 E1 S1) as (s2' & G2' & Hk2' & T2').
  red in Hf. rewrite Hf in T1. cbn [s_total app] in T1.
  unfold gen_call, generate. fold geo std cor. rewrite Hlow.
  change (Z.to_nat 2) with 2%nat. change (Z.to_nat 1) with 1%nat. cbn [generate_loop]. rewrite G1. rewrite G2.
  cbn [fst snd gen_geo gen_std gen_correlate gen_low gen_state]. rewrite G2'. cbn [fst]. split.
  - rewrite T2, T1. reflexivity.
  - rewrite T2', T1. reflexivity.
Qed.

(** ** Divergence *)

Lemma grad_affine : forall n h f c0 c1 i, h <> 0 -> (2 <= n)%nat -> (i < n)%nat ->
  (forall t, (t < n)%nat -> f t = c0 + c1 * (INR t * h)) -> np_gradient n h f i = Fin c1.
Proof.
  intros n h f c0 c1 i Hh Hn Hi Hf. unfold np_gradient.
  assert (D : forall x, x <> 0 -> forall y, xdiv (Fin y) (Fin x) = Fin (y / x)).
  { intros x Hx y. cbn [xdiv]. unfold Reqb. destruct (Req_EM_T x 0); [contradiction|reflexivity]. }
  destruct (Nat.eqb_spec i 0) as [->|H0]; [|destruct (Nat.eqb_spec i (n - 1)) as [->|H1]].
  - rewrite D by exact Hh. f_equal. rewrite !Hf by lia. cbn [INR]. field. exact Hh.
  - rewrite D by exact Hh. f_equal. rewrite !Hf by lia. rewrite !minus_INR by lia. cbn [INR]. field. exact Hh.
  - rewrite D by lra. f_equal. rewrite !Hf by lia. rewrite plus_INR, minus_INR by lia. cbn [INR]. field. exact Hh.
Qed.

Lemma grad_ext : forall n h f g i, (2 <= n)%nat -> (i < n)%nat -> (forall t, (t < n)%nat -> f t = g t) -> np_gradient n h f i = np_gradient n h g i.
Proof.
  intros n h f g i Hn Hi H. unfold np_gradient. destruct (Nat.eqb_spec i 0) as [->|H0]; [|destruct (Nat.eqb_spec i (n - 1)) as [->|H1]];
    rewrite !H by lia; reflexivity.
Qed.

Lemma grad_linear : forall n h f g al be i, h <> 0 -> (2 <= n)%nat -> (i < n)%nat ->
  exists u v, np_gradient n h f i = Fin u /\ np_gradient n h g i = Fin v /\ np_gradient n h (fun t => al * f t + be * g t) i = Fin (al * u + be * v).
Proof.
  intros n h f g al be i Hh Hn Hi. unfold np_gradient.
  assert (D : forall x, x <> 0 -> forall y, xdiv (Fin y) (Fin x) = Fin (y / x)).
  { intros x Hx y. cbn [xdiv]. unfold Reqb. destruct (Req_EM_T x 0); [contradiction|reflexivity]. }
  destruct (Nat.eqb_spec i 0) as [->|H0]; [|destruct (Nat.eqb_spec i (n - 1)) as [->|H1]].
  - rewrite !D by exact Hh. do 2 eexists. split; [reflexivity|]. split; [reflexivity|]. f_equal. field. exact Hh.
  - rewrite !D by exact Hh. do 2 eexists. split; [reflexivity|]. split; [reflexivity|]. f_equal. field. exact Hh.
  - rewrite !D by lra. do 2 eexists. split; [reflexivity|]. split; [reflexivity|]. f_equal. field. exact Hh.
Qed.


Lemma div_ok : forall hx hy hz f, grid_ok f -> evaluate_divergence [hx; hy; hz] f
  = Ok (fun i j k =>
        xadd (xadd (np_gradient (ar_nx f) hx (fun t => ar_at f t j k 0%nat) i)
                   (np_gradient (ar_ny f) hy (fun t => ar_at f i t k 1%nat) j))
             (np_gradient (ar_nz f) hz (fun t => ar_at f i j t 2%nat) k)).
Proof.
  intros hx hy hz f (Hx & Hy & Hz & Hc). unfold evaluate_divergence. rewrite Hc. cbn [Nat.eqb negb].
  replace ((ar_nx f <? 2) || (ar_ny f <? 2) || (ar_nz f <? 2))%nat%bool with false; [reflexivity|].
  symmetry. repeat (apply orb_false_intro); apply Nat.ltb_ge; assumption.
Qed.

Lemma div_raises : forall spacing f, evaluate_divergence spacing f = Err ValueError <-> (length spacing <> 3%nat \/ ~ grid_ok f).
Proof.
  intros spacing f. unfold evaluate_divergence, grid_ok.
  destruct spacing as [|hx [|hy [|hz [|hw l]]]]; cbn [length]; try (split; [intros _; left; lia|reflexivity]).
  destruct (Nat.eqb_spec (ar_nc f) 3) as [E|E]; cbn [negb]; [|split; [tauto|reflexivity]].
  destruct (Nat.ltb_spec (ar_nx f) 2) as [A|A]; cbn [orb]; [split; [intros _; right; lia|reflexivity]|].
  destruct (Nat.ltb_spec (ar_ny f) 2) as [A2|A2]; cbn [orb]; [split; [intros _; right; lia|reflexivity]|].
  destruct (Nat.ltb_spec (ar_nz f) 2) as [A3|A3]; cbn [orb]; [split; [intros _; right; lia|reflexivity]|].
  split; [discriminate|]. intros [H|H]; [lia|]. exfalso. apply H. tauto.
Qed.

Lemma div_affine : forall hx hy hz f (c : nat -> R) (m : nat -> nat -> R), hx <> 0 -> hy <> 0 -> hz <> 0 -> grid_ok f ->
  (forall i j k q, inside f i j k -> (q < 3)%nat ->
     ar_at f i j k q = c q + m q 0%nat * (INR i * hx) + m q 1%nat * (INR j * hy) + m q 2%nat * (INR k * hz)) ->
  exists d, evaluate_divergence [hx; hy; hz] f = Ok d
  /\ forall i j k, inside f i j k -> d i j k = Fin (m 0%nat 0%nat + m 1%nat 1%nat + m 2%nat 2%nat).
Proof.
  intros hx hy hz f c m Hx Hy Hz Hg Hf. eexists. split; [apply div_ok; exact Hg|]. intros i j k (Hi & Hj & Hk). destruct Hg as (Gx & Gy & Gz & _).
  rewrite (grad_affine _ hx _ (c 0%nat + m 0%nat 1%nat * (INR j * hy) + m 0%nat 2%nat * (INR k * hz)) (m 0%nat 0%nat)); try assumption.
  2: { intros t Ht. rewrite Hf; [ring|repeat split; assumption|lia]. }
  rewrite (grad_affine _ hy _ (c 1%nat + m 1%nat 0%nat * (INR i * hx) + m 1%nat 2%nat * (INR k * hz)) (m 1%nat 1%nat)); try assumption.
  2: { intros t Ht. rewrite Hf; [ring|repeat split; assumption|lia]. }
  rewrite (grad_affine _ hz _ (c 2%nat + m 2%nat 0%nat * (INR i * hx) + m 2%nat 1%nat * (INR j * hy)) (m 2%nat 2%nat)); try assumption.
  2: { intros t Ht. rewrite Hf; [ring|repeat split; assumption|lia]. }
  reflexivity.
Qed.

Lemma div_linear : forall hx hy hz f g al be, hx <> 0 -> hy <> 0 -> hz <> 0 -> grid_ok f ->
  ar_nx g = ar_nx f -> ar_ny g = ar_ny f -> ar_nz g = ar_nz f -> ar_nc g = ar_nc f ->
  exists df dg ds, evaluate_divergence [hx; hy; hz] f = Ok df /\ evaluate_divergence [hx; hy; hz] g = Ok dg
  /\ evaluate_divergence [hx; hy; hz] (GArray (ar_nx f) (ar_ny f) (ar_nz f) (ar_nc f) (fun i j k q => al * ar_at f i j k q + be * ar_at g i j k q)) = Ok ds
  /\ forall i j k, inside f i j k -> exists u v, df i j k = Fin u /\ dg i j k = Fin v /\ ds i j k = Fin (al * u + be * v).
Proof.
  intros hx hy hz f g al be Hx Hy Hz Hg E1 E2 E3 E4. assert (Hg' : grid_ok g) by (red; rewrite E1, E2, E3, E4; exact Hg).
  do 3 eexists. split; [apply div_ok; exact Hg|]. split; [apply div_ok; exact Hg'|]. split; [apply div_ok; exact Hg|].
  intros i j k (Hi & Hj & Hk). destruct Hg as (Gx & Gy & Gz & _). cbn [ar_nx ar_ny ar_nz ar_at]. rewrite E1, E2, E3.
  destruct (grad_linear (ar_nx f) hx (fun t => ar_at f t j k 0%nat) (fun t => ar_at g t j k 0%nat) al be i Hx Gx Hi) as (u1 & v1 & -> & -> & ->).
  destruct (grad_linear (ar_ny f) hy (fun t => ar_at f i t k 1%nat) (fun t => ar_at g i t k 1%nat) al be j Hy Gy Hj) as (u2 & v2 & -> & -> & ->).
  destruct (grad_linear (ar_nz f) hz (fun t => ar_at f i j t 2%nat) (fun t => ar_at g i j t 2%nat) al be k Hz Gz Hk) as (u3 & v3 & -> & -> & ->).
  cbn [xadd]. do 2 eexists. split; [reflexivity|]. split; [reflexivity|]. f_equal. ring.
Qed.

Lemma div_profile : forall hx hy hz f (p : nat -> R), hx <> 0 -> hy <> 0 -> hz <> 0 -> grid_ok f ->
  exists d d', evaluate_divergence [hx; hy; hz] f = Ok d
  /\ evaluate_divergence [hx; hy; hz] (GArray (ar_nx f) (ar_ny f) (ar_nz f) (ar_nc f)
       (fun i j k q => if (q =? 0)%nat then ar_at f i j k q + p k else ar_at f i j k q)) = Ok d'
  /\ forall i j k, inside f i j k -> d' i j k = d i j k.
Proof.
  intros hx hy hz f p Hx Hy Hz Hg. do 2 eexists. split; [apply div_ok; exact Hg|]. split; [apply div_ok; exact Hg|].
  intros i j k (Hi & Hj & Hk). destruct Hg as (Gx & Gy & Gz & _). cbn [ar_nx ar_ny ar_nz ar_at Nat.eqb]. f_equal. f_equal.
  destruct (grad_linear (ar_nx f) hx (fun t => ar_at f t j k 0%nat) (fun t => p k) 1 1 i Hx Gx Hi) as (u1 & v1 & E1 & E2 & E3).
  rewrite (grad_affine _ hx (fun t => p k) (p k) 0) in E2; try assumption; [|intros; ring]. assert (v1 = 0) by (injection E2; auto). subst v1.
  rewrite E1. rewrite <- (Rplus_0_r u1). replace (u1 + 0) with (1 * u1 + 1 * 0) by ring. rewrite <- E3. apply grad_ext; try assumption. intros t _. ring.
Qed.
