(** The concrete sampler of a generator, on arrays. *)

From Coq Require Import String Reals List ZArith Lia Lra Permutation Bool.
From Coquelicot Require Import Complex.
From Verif Require Import Prelude RdtModel RdtSpec RdtProofs GenModel GenSpec GenProofs GenDemo DftModel DftSpec DftProofs DftMore DftCov.
Import ListNotations.
Open Scope R_scope.

Lemma tabulate_shaped : forall nx ny nz u, shaped nx ny nz (tabulate (nx, ny, nz) u).
Proof.
  intros nx ny nz u. unfold tabulate, shaped. rewrite map_length, seq_length. split; [reflexivity|].
  apply List.Forall_forall. intros p Hp. rewrite in_map_iff in Hp. destruct Hp as (i & <- & _). rewrite map_length, seq_length. split; [reflexivity|].
  apply List.Forall_forall. intros c Hc. rewrite in_map_iff in Hc. destruct Hc as (j & <- & _). rewrite map_length, seq_length. reflexivity.
Qed.

Lemma extents_shaped : forall nx ny nz f, (0 < nx)%nat -> (0 < ny)%nat -> shaped nx ny nz f -> extents_of f = (nx, ny, nz).
Proof.
  intros nx ny nz f Hx Hy [Hl Hp]. unfold extents_of. destruct f as [|p f]; [cbn in Hl; lia|].
  apply List.Forall_inv in Hp. destruct Hp as [Hp Hc]. cbn [hd]. destruct p as [|c p]; [cbn in Hp; lia|].
  apply List.Forall_inv in Hc. cbn [hd]. rewrite Hl, Hp, Hc. reflexivity.
Qed.

Lemma vf_shape_preserving : forall hyp net h_ref model cs geo, shape_preserving (vf_sampler hyp net h_ref model cs geo).
Proof.
  intros hyp net h_ref model cs geo nx ny nz f Hf.
  destruct (Nat.eq_dec nx 0) as [->|Hx].
  { destruct Hf as [Hl _]. unfold vf_sampler, extents_of. unfold field in *. rewrite Hl. split; [reflexivity|constructor]. }
  destruct (Nat.eq_dec ny 0) as [->|Hy].
  { destruct Hf as [Hl Hp]. unfold vf_sampler. destruct f as [|p f]; [cbn in Hl; lia|].
    apply List.Forall_inv in Hp. destruct Hp as [Hp _]. apply length_zero_iff_nil in Hp. subst p.
    unfold extents_of, tabulate. cbn [hd length]. cbn [length] in Hl. split.
    - rewrite map_length, seq_length. exact Hl.
    - apply List.Forall_forall. intros p Hq. rewrite in_map_iff in Hq. destruct Hq as (i & <- & _). cbn [seq map length].
      split; [reflexivity|constructor]. }
  unfold vf_sampler. rewrite (extents_shaped nx ny nz f) by (assumption || lia). apply tabulate_shaped.
Qed.

Lemma nth_map_seq : forall A (g : nat -> A) n p dflt, (p < n)%nat -> nth p (map g (seq 0 n)) dflt = g p.
Proof.
  intros A g n p dflt Hp. rewrite (nth_indep _ dflt (g 0%nat)) by (rewrite map_length, seq_length; exact Hp).
  rewrite map_nth, seq_nth by exact Hp. reflexivity.
Qed.

Lemma at_tabulate : forall d u i x, on_grid d x -> at_node (tabulate d u) i x = u i x.
Proof.
  intros [[nx ny] nz] u i [[p q] r] (Hp & Hq & Hr). unfold at_node, tabulate. rewrite !nth_map_seq by assumption. destruct i; reflexivity.
Qed.

Lemma tabulate_ext : forall d u v, (forall i x, on_grid d x -> u i x = v i x) -> tabulate d u = tabulate d v.
Proof.
  intros [[nx ny] nz] u v H. unfold tabulate. apply map_ext_in. intros p Hp. apply map_ext_in. intros q Hq. apply map_ext_in. intros r Hr.
  rewrite in_seq in *. rewrite !H by (unfold on_grid; lia). reflexivity.
Qed.

Lemma map_nth_seq : forall A (l : list A) dflt, l = map (fun p => nth p l dflt) (seq 0 (length l)).
Proof.
  intros A l dflt. apply (nth_ext _ _ dflt dflt); [rewrite map_length, seq_length; reflexivity|].
  intros n Hn. rewrite nth_map_seq by exact Hn. reflexivity.
Qed.

Lemma tabulate_at : forall nx ny nz f, shaped nx ny nz f -> tabulate (nx, ny, nz) (at_node f) = f.
Proof.
  intros nx ny nz f [Hl Hp]. unfold tabulate. symmetry. rewrite (map_nth_seq _ f []) at 1. rewrite Hl.
  apply map_ext_in. intros p Hi. rewrite in_seq in Hi.
  rewrite List.Forall_forall in Hp. destruct (Hp (nth p f [])) as [Hq Hc]; [apply nth_In; unfold field in *; lia|].
  rewrite (map_nth_seq _ (nth p f []) []) at 1. rewrite Hq. apply map_ext_in. intros q Hj. rewrite in_seq in Hj.
  rewrite List.Forall_forall in Hc. specialize (Hc (nth q (nth p f []) [])).
  rewrite (map_nth_seq _ (nth q (nth p f []) []) (0, 0, 0)) at 1. rewrite Hc by (apply nth_In; unfold field in *; lia).
  apply map_ext_in. intros r Hk. unfold at_node. destruct (nth r (nth q (nth p f []) []) (0, 0, 0)) as [[a b] c]. reflexivity.
Qed.

(** Rolling along the first axis. *)
Lemma nth_roll : forall A s (l : list A) p dflt, (p < length l)%nat -> nth p (roll_left s l) dflt = nth ((p + s) mod length l) l dflt.
Proof.
  intros A s l p dflt Hp. destruct l as [|a l]; [cbn in Hp; lia|]. unfold roll_left. set (l' := a :: l) in *. set (n := length l') in *.
  assert (Hn : n <> 0%nat) by lia. set (k := (s mod n)%nat). assert (Hk : (k < n)%nat) by (apply Nat.mod_upper_bound; exact Hn).
  replace ((p + s) mod n)%nat with ((p + k) mod n)%nat by (unfold k; rewrite Nat.add_mod_idemp_r by exact Hn; reflexivity).
  assert (Hsk : length (skipn k l') = (n - k)%nat) by (rewrite skipn_length; reflexivity).
  assert (Hnth : forall (l0 : list A) m j, nth j (skipn m l0) dflt = nth (m + j) l0 dflt).
  { clear. intros l0 m. revert l0. induction m as [|m IH]; intros l0 j; [reflexivity|]. destruct l0 as [|b l0]; [destruct j; reflexivity|]. cbn [skipn plus nth]. apply IH. }
  destruct (Nat.lt_ge_cases p (n - k)) as [H|H].
  - rewrite app_nth1 by lia. rewrite Hnth, Nat.mod_small by lia. f_equal. lia.
  - rewrite app_nth2 by lia. rewrite Hsk. replace ((p + k) mod n)%nat with (p - (n - k))%nat.
    + assert (Hf : forall m j (l0 : list A), (j < m)%nat -> nth j (firstn m l0) dflt = nth j l0 dflt).
      { clear. induction m as [|m IH]; intros j l0 Hj; [lia|]. destruct l0 as [|b l0]; [destruct j; reflexivity|]. destruct j as [|j]; [reflexivity|]. cbn [firstn nth]. apply IH. lia. }
      apply Hf. lia.
    + symmetry. replace (p + k)%nat with ((p - (n - k)) + 1 * n)%nat by lia. rewrite Nat.mod_add by exact Hn. apply Nat.mod_small. lia.
Qed.

Lemma roll_length : forall A s (l : list A), length (roll_left s l) = length l.
Proof.
  intros A s l. destruct l as [|a l]; [reflexivity|]. unfold roll_left. rewrite app_length, skipn_length, firstn_length.
  pose proof (Nat.mod_upper_bound s (length (a :: l)) ltac:(cbn; lia)). lia.
Qed.

Lemma roll_shaped : forall A nx ny nz s (f : field A), shaped nx ny nz f -> shaped nx ny nz (roll_left s f).
Proof.
  intros A nx ny nz s f [Hl Hp]. split; [rewrite roll_length; exact Hl|].
  rewrite List.Forall_forall in *. intros p Hi. apply Hp. destruct f as [|a f]; [exact Hi|]. unfold roll_left in Hi.
  rewrite in_app_iff in Hi. set (k := (s mod length (a :: f))%nat) in *. rewrite <- (firstn_skipn k (a :: f)). rewrite in_app_iff. tauto.
Qed.

Lemma vf_roll : forall hyp net h_ref model cs geo nx ny nz s f, shaped nx ny nz f -> (0 < nz)%nat ->
  vf_sampler hyp net h_ref model cs geo (roll_left s f) = roll_left s (vf_sampler hyp net h_ref model cs geo f).
Proof.
  intros hyp net h_ref model cs geo nx ny nz s f Hf Hnz.
  destruct (Nat.eq_dec nx 0) as [->|Hx].
  { destruct Hf as [Hl _]. apply length_zero_iff_nil in Hl. subst f. reflexivity. }
  pose proof (roll_shaped _ nx ny nz s f Hf) as Hr.
  pose proof (vf_shape_preserving hyp net h_ref model cs geo nx ny nz f Hf) as Hv.
  pose proof (vf_shape_preserving hyp net h_ref model cs geo nx ny nz _ Hr) as Hvr.
  pose proof (roll_shaped _ nx ny nz s _ Hv) as Hrv.
  destruct (Nat.eq_dec ny 0) as [->|Hy].
  { assert (Hu : forall g : field R, shaped nx 0 nz g -> g = repeat [] nx).
    { intros g [Hl Hp]. unfold field in *. apply (nth_ext _ _ [] []); [rewrite repeat_length; exact Hl|]. intros n Hn.
      rewrite nth_repeat. rewrite List.Forall_forall in Hp. destruct (Hp (nth n g [])) as [H0 _]; [apply nth_In; exact Hn|].
      apply length_zero_iff_nil. exact H0. }
    rewrite (Hu _ Hvr), (Hu _ Hrv). reflexivity. }
  rewrite <- (tabulate_at nx ny nz _ Hvr), <- (tabulate_at nx ny nz _ Hrv). apply tabulate_ext.
  intros i [[p q] r] (Hp & Hq & Hk). unfold vf_sampler. rewrite (extents_shaped nx ny nz _) by (assumption || lia).
  rewrite at_tabulate by (repeat split; assumption).
  rewrite (extents_shaped nx ny nz f) by (assumption || lia).
  assert (Hlen : length f = nx) by (destruct Hf as [Hl _]; exact Hl).
  set (u := sample_vf _ _ _ (at_node f)).
  transitivity (u i (translate (nx, ny, nz) (s, 0, 0)%nat (p, q, r))).
  - unfold u. rewrite <- sample_shift by (unfold nonempty; lia). apply sample_ext. intros j [[a b] c] (Ha & Hb & Hc).
    unfold at_node, translate. rewrite nth_roll by (unfold field in *; lia). unfold field in *. rewrite Hlen, !Nat.add_0_r, (Nat.mod_small b ny), (Nat.mod_small c nz) by assumption. reflexivity.
  - unfold at_node. pose proof (tabulate_shaped nx ny nz u) as [Ht _]. rewrite nth_roll by (unfold field in *; lia). unfold field in *. rewrite Ht.
    change (u i (translate (nx, ny, nz) (s, 0%nat, 0%nat) (p, q, r)) = at_node (tabulate (nx, ny, nz) u) i (((p + s) mod nx)%nat, q, r)).
    rewrite at_tabulate by (repeat split; [apply Nat.mod_upper_bound; lia|exact Hq|exact Hk]).
    unfold translate. rewrite !Nat.add_0_r, (Nat.mod_small q), (Nat.mod_small r) by assumption. reflexivity.
Qed.

(** ** Kernels of the generator *)

Lemma solenoidal_1j : forall A : R -> R -> R -> mat3, (forall k1 k2 k3 j, kernel_div (vec k1 k2 k3) (times_1j (A k1 k2 k3)) j = RtoC 0) ->
  solenoidal (fun k1 k2 k3 i j => Cmult (RtoC (A k1 k2 k3 i j)) Ci).
Proof. intros A H k1 k2 k3 j. exact (H k1 k2 k3 j). Qed.

Lemma model_solenoidal : forall hyp net h_ref model cs, solenoidal (model_kernel hyp net h_ref model cs).
Proof.
  intros hyp net h_ref model cs. unfold model_kernel. destruct (String.eqb model "VK"); [|destruct (String.eqb model "Mann")]; apply solenoidal_1j.
  - apply vk_kernel_divfree.
  - intros. apply sim_kernel_divfree.
  - intros. apply sim_kernel_divfree.
Qed.

Lemma model_hermitian : forall hyp net h_ref model cs, (forall k1 k2 k3, net (- k1) (- k2) (- k3) = net k1 k2 k3) ->
  hermitian_kernel (model_kernel hyp net h_ref model cs).
Proof.
  intros hyp net h_ref model cs Hn. unfold model_kernel. destruct (String.eqb model "VK"); [|destruct (String.eqb model "Mann")].
  - apply vk_kernel_hermitian.
  - apply mann_kernel_hermitian.
  - apply (sim_kernel_hermitian (cs_E0 cs) (cs_L cs) (drd_sim_tau net (cs_Gamma cs) h_ref)). intros k1 k2 k3. unfold drd_sim_tau.
    replace (- k1 * h_ref) with (- (k1 * h_ref)) by ring. replace (- k2 * h_ref) with (- (k2 * h_ref)) by ring.
    replace (- k3 * h_ref) with (- (k3 * h_ref)) by ring. rewrite Hn. reflexivity.
Qed.

Lemma odd_hermitian : forall G L d k i j, all_odd d -> hermitian_kernel G -> on_grid d k ->
  spectrum_at G L d (mirror d k) i j = Cconj (spectrum_at G L d k i j).
Proof. intros. apply spectrum_hermitian; try assumption. apply odd_regular. assumption. Qed.

(** With the default blending of ten nodes the noise has an even number of rows. *)
Lemma default_rows_even : forall dims lx ly lz L T g, make_geometry dims (S lx, ly, lz) L T 10 = Ok g ->
  exists m, fst (fst (noise_shape g)) = (2 * m)%Z.
Proof.
  intros [[Lx Ly] Lz] lx ly lz L T g H. unfold make_geometry in H.
  assert (Hg : g_Nx g = nodes (S lx) /\ g_blend g = 10%Z).
  { repeat match type of H with (if ?b then _ else _) = _ => destruct b end; try discriminate H; injection H as <-; split; reflexivity. }
  destruct Hg as [HN HB]. unfold noise_shape, buffer_extension. rewrite HN, HB. cbn [fst snd Z.ltb Z.compare]. unfold nodes.
  exists (Z.of_nat (2 ^ lx) + g_nb g + 5)%Z. cbn [Nat.pow]. lia.
Qed.

Lemma concrete_usable : forall hyp net h_ref stored G (seeded : Z -> G) C2 (low_make : C2 -> G -> res (low_view * G)) a config w gn w' cs Lx Ly Lz,
  ga_dims a = (Lx, Ly, Lz) -> 0 < Lx -> 0 < Ly -> 0 < Lz -> scales_of stored a = Ok cs -> 0 < cs_L cs -> 0 < cs_Gamma cs ->
  construct stored G seeded (vf_sampler hyp net h_ref) C2 low_make a config w = Ok (gn, w') ->
  usable gn /\ fresh gn (match ga_seed a with Some s => seeded s | None => w_entropy G w end).
Proof.
  intros hyp net h_ref stored G seeded C2 low_make a config w gn w' cs Lx Ly Lz ED HLx HLy HLz Hcs HL HT HC.
  pose proof (constructed stored G seeded (vf_sampler hyp net h_ref) C2 low_make a config w gn w' cs HC Hcs) as K.
  rewrite ED in K. destruct (ga_levels a) as [[lx ly] lz]. destruct (K HLx HLy HLz HL HT (fun geo => vf_shape_preserving hyp net h_ref _ cs geo)) as (Hu & Hf & _).
  split; assumption.
Qed.

(** ** Closing lemmas of the property theorems *)

Lemma imaginary_dropped : forall E0 Lk Lx Ly Lz m ny nz, 0 < E0 -> 0 < Lx -> (0 < m)%nat -> (3 <= ny)%nat -> (0 < nz)%nat ->
  let d := ((2 * m)%nat, ny, nz) in
  let G := fun k1 k2 k3 => times_1j (vk_kernel E0 Lk k1 k2 k3) in
  hermitian_kernel G
  /\ exists noise, ~ (forall x, on_grid d x -> Im (full_sum d (correlated G (Lx, Ly, Lz) d noise X2) x) = 0).
Proof.
  intros E0 Lk Lx Ly Lz m ny nz HE Hx Hm Hny Hnz d G. split; [apply vk_kernel_hermitian|].
  exists (impulse X3 (0, 0, 0)%nat). apply nyq_imaginary; assumption.
Qed.

Lemma nyquist_divergence : forall E0 Lk Lx Ly Lz m ny nz, 0 < E0 -> 0 < Lx -> 0 < Ly -> 0 < Lz -> (0 < m)%nat -> (3 <= ny)%nat -> (0 < nz)%nat ->
  let d := ((2 * m)%nat, ny, nz) in
  let G := fun k1 k2 k3 => times_1j (vk_kernel E0 Lk k1 k2 k3) in
  solenoidal G
  /\ exists noise k, on_grid d k /\ spectral_divergence (Lx, Ly, Lz) d (sample_vf G (Lx, Ly, Lz) d noise) k <> RtoC 0.
Proof.
  intros E0 Lk Lx Ly Lz m ny nz HE Hx Hy Hz Hm Hny Hnz d G. split; [apply solenoidal_1j, vk_kernel_divfree|].
  exists (impulse X3 (0, 0, 0)%nat), (m, 1%nat, 0%nat). split; [apply nyq_on_grid; assumption|]. apply nyq_divergence; assumption.
Qed.

Lemma nothing_dropped_spec : forall G L d n i x, nonempty d ->
  (forall k i j, on_grid d k -> kernel_at G L d (mirror d k) i j = Cconj (kernel_at G L d k i j)) ->
  RtoC (sample_vf G L d n i x) = Cmult (RtoC (/ (count d * transform_norm L))) (full_sum d (correlated G L d n i) x).
Proof.
  intros G L d n i x Hd HG. apply nothing_dropped; [exact Hd|]. intros k a b Hk. rewrite <- !kernel_at_spectrum by exact Hd. apply HG, Hk.
Qed.

Lemma model_hermitian_grid : forall hyp net h_ref model cs L d k i j, (forall k1 k2 k3, net (- k1) (- k2) (- k3) = net k1 k2 k3) ->
  all_odd d -> on_grid d k ->
  kernel_at (model_kernel hyp net h_ref model cs) L d (mirror d k) i j = Cconj (kernel_at (model_kernel hyp net h_ref model cs) L d k i j).
Proof.
  intros hyp net h_ref model cs L d k i j Hn Ho Hk. rewrite !kernel_at_spectrum by (apply odd_nonempty; exact Ho).
  apply odd_hermitian; [exact Ho|apply model_hermitian; exact Hn|exact Hk].
Qed.

Lemma physical_k_sq : forall L n a, (a < n)%nat -> (physical_k L n ((n - a) mod n))^2 = (physical_k L n a)^2.
Proof.
  intros L n a Ha. destruct (Nat.eq_dec (2 * a) n) as [E|Hne].
  - replace ((n - a) mod n)%nat with a; [reflexivity|]. rewrite Nat.mod_small by lia. lia.
  - rewrite <- !wave_number_physical by lia. rewrite wave_number_mirror by assumption. ring.
Qed.

Lemma even_kernel_case : nonempty (2, 3, 4)%nat
  /\ (forall k i j, on_grid (2, 3, 4)%nat k ->
        kernel_at (fun k1 k2 k3 a b => RtoC (delta a b / (1 + k1^2 + k2^2 + k3^2))) (1, 2, 3) (2, 3, 4)%nat (mirror (2, 3, 4)%nat k) i j
        = Cconj (kernel_at (fun k1 k2 k3 a b => RtoC (delta a b / (1 + k1^2 + k2^2 + k3^2))) (1, 2, 3) (2, 3, 4)%nat k i j)).
Proof.
  split; [cbn; lia|]. intros [[a b] c] i j (Ha & Hb & Hc). unfold kernel_at, mirror. rewrite Cconj_R. f_equal. f_equal.
  rewrite !physical_k_sq by assumption. reflexivity.
Qed.

Lemma samplers_differ : forall L d n x, positive_box L -> nonempty d -> 1 < count d -> on_grid d x -> n x <> 0 ->
  sample_fftw (fun _ => RtoC 1) L d n x <> sample_fft (fun _ => RtoC 1) L d n x.
Proof.
  intros L d n x HL Hd HN Hx Hn. rewrite fftw_fft by (try exact Hd; intros; symmetry; apply Cconj_R).
  replace (sample_fft (fun _ => Cconj (RtoC 1)) L d n x) with (sample_fft (fun _ => RtoC 1) L d n x) by (rewrite Cconj_R; reflexivity).
  rewrite fft_white by assumption.
  assert (HT : 0 < transform_norm L).
  { destruct L as [[Lx Ly] Lz], HL as (H1 & H2 & H3). unfold transform_norm. apply sqrt_lt_R0.
    apply Rmult_lt_0_compat; [apply Rmult_lt_0_compat|]; assumption. }
  assert (Hs : 1 < sqrt (count d)) by (rewrite <- sqrt_1; apply sqrt_lt_1; lra).
  intros E. assert (Hv : n x / transform_norm L <> 0) by (apply Rmult_integral_contrapositive_currified; [exact Hn|apply Rinv_neq_0_compat; lra]).
  set (v := n x / transform_norm L) in *. assert ((sqrt (count d) - 1) * v = 0) by lra. apply Rmult_integral in H. lra.
Qed.
