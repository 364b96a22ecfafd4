(** The complex-to-real transform, mirror images of modes, shifts and linearity. *)

From Coq Require Import String Reals List ZArith Lia Lra Permutation Bool.
From Coquelicot Require Import Complex.
From Verif Require Import Prelude RdtModel RdtSpec GenModel DftModel DftSpec DftProofs.
Import ListNotations.
Open Scope R_scope.

(** ** Phases depend on mode numbers modulo the extents *)

Definition congr (d : extents) (k l : mode3) : Prop :=
  let '(nx, ny, nz) := d in let '(a, b, c) := k in let '(a', b', c') := l in
  (exists z, a = a' + z * Z.of_nat nx)%Z /\ (exists z, b = b' + z * Z.of_nat ny)%Z /\ (exists z, c = c' + z * Z.of_nat nz)%Z.

Lemma cis_congr : forall d k l x, nonempty d -> congr d k l -> cis (thetaZ d k x) = cis (thetaZ d l x).
Proof.
  intros [[nx ny] nz] [[a b] c] [[a' b'] c'] [[p q] r] (Hx & Hy & Hz) ([za Ha] & [zb Hb] & [zc Hc]). unfold thetaZ.
  apply lt_0_INR in Hx, Hy, Hz.
  rewrite <- (cis_period (Z.of_nat p * za + Z.of_nat q * zb + Z.of_nat r * zc) (INR p * (2 * PI * IZR a' / INR nx) + _ + _)). f_equal.
  subst a b c. rewrite !plus_IZR, !mult_IZR, <- !INR_IZR_INZ. field. lra.
Qed.

Lemma mirror_congr : forall d k, nonempty d -> on_grid d k -> congr d (of_node (mirror d k)) (oppm (of_node k)).
Proof.
  intros [[nx ny] nz] [[a b] c] (Hx & Hy & Hz) (Ha & Hb & Hc). unfold mirror, of_node, oppm, congr.
  assert (Hm : forall n m, (m < n)%nat -> exists z, (Z.of_nat ((n - m) mod n) = - Z.of_nat m + z * Z.of_nat n)%Z).
  { intros n m H. destruct (Nat.eq_dec m 0) as [->|Hn].
    - exists 0%Z. rewrite Nat.sub_0_r, Nat.mod_same by lia. lia.
    - exists 1%Z. rewrite Nat.mod_small by lia. lia. }
  repeat split; apply Hm; assumption.
Qed.

Lemma cis_mirror : forall d k x, nonempty d -> on_grid d k -> cis (theta d (mirror d k) x) = cis (- theta d k x).
Proof.
  intros d k x Hd Hk. rewrite !theta_Z, <- thetaZ_opp. apply cis_congr; [exact Hd|]. apply mirror_congr; assumption.
Qed.

Lemma translate_congr : forall d s x, nonempty d -> congr d (of_node (translate d s x)) (addm (of_node x) (of_node s)).
Proof.
  intros [[nx ny] nz] [[a b] c] [[p q] r] (Hx & Hy & Hz). unfold translate, of_node, addm, congr.
  assert (Hm : forall n m, (0 < n)%nat -> exists z, (Z.of_nat (m mod n) = Z.of_nat m + z * Z.of_nat n)%Z).
  { intros n m H. exists (- Z.of_nat (m / n))%Z. pose proof (Nat.div_mod_eq m n). lia. }
  rewrite <- !Nat2Z.inj_add. repeat split; apply Hm; assumption.
Qed.

Lemma cis_translate : forall d k s x, nonempty d -> cis (theta d k (translate d s x)) = Cmult (cis (theta d k x)) (cis (theta d k s)).
Proof.
  intros d k s x Hd. rewrite !(theta_sym d k). rewrite theta_Z, (cis_congr d _ (addm (of_node x) (of_node s)) k Hd).
  - rewrite thetaZ_add, <- !theta_Z, cis_plus. reflexivity.
  - apply translate_congr. exact Hd.
Qed.

(** ** Reindexing *)

Lemma mirror_on_grid : forall d k, nonempty d -> on_grid d (mirror d k).
Proof. intros [[nx ny] nz] [[a b] c] (Hx & Hy & Hz). unfold mirror, on_grid. repeat split; apply Nat.mod_upper_bound; lia. Qed.

Lemma mirror_mod : forall n m, (m < n)%nat -> ((n - (n - m) mod n) mod n = m)%nat.
Proof.
  intros n m H. destruct (Nat.eq_dec m 0) as [->|Hn].
  - rewrite Nat.sub_0_r, Nat.mod_same, Nat.sub_0_r, Nat.mod_same by lia. reflexivity.
  - rewrite (Nat.mod_small (n - m)) by lia. rewrite Nat.mod_small by lia. lia.
Qed.

Lemma mirror_invol : forall d k, on_grid d k -> mirror d (mirror d k) = k.
Proof. intros [[nx ny] nz] [[a b] c] (Hx & Hy & Hz). unfold mirror. rewrite !mirror_mod by assumption. reflexivity. Qed.

Lemma csum_reindex : forall d (h g : node -> node) f, (forall x, on_grid d x -> on_grid d (h x)) -> (forall x, on_grid d x -> on_grid d (g x)) ->
  (forall x, on_grid d x -> g (h x) = x) -> (forall x, on_grid d x -> h (g x) = x) ->
  csum (grid d) (fun x => f (h x)) = csum (grid d) f.
Proof.
  intros d h g f Hh Hg Hgh Hhg. rewrite <- csum_map. apply csum_perm. apply NoDup_Permutation.
  - pose proof (grid_NoDup d) as Hn.
    assert (Hall : forall x, In x (grid d) -> on_grid d x) by (intros; apply grid_In; assumption).
    induction (grid d) as [|a l IH]; [constructor|]. cbn [map]. apply NoDup_cons_iff in Hn. destruct Hn as [Ha Hn]. constructor.
    + rewrite in_map_iff. intros (b & Hb & Hi). apply Ha. apply (f_equal g) in Hb.
      rewrite !Hgh in Hb by (apply Hall; [left; reflexivity|right; exact Hi] || (apply Hall; right; exact Hi) || (apply Hall; left; reflexivity)). congruence.
    + apply IH; [exact Hn|]. intros x Hx. apply Hall. right. exact Hx.
  - apply grid_NoDup.
  - intros x. rewrite in_map_iff, grid_In. split.
    + intros (y & <- & Hy). apply Hh, grid_In, Hy.
    + intros Hx. exists (g x). split; [apply Hhg, Hx|]. apply grid_In, Hg, Hx.
Qed.

Lemma csum_mirror : forall d f, nonempty d -> csum (grid d) (fun x => f (mirror d x)) = csum (grid d) f.
Proof.
  intros d f Hd. apply (csum_reindex d (mirror d) (mirror d)); intros x Hx;
    try (apply mirror_on_grid; exact Hd); apply mirror_invol; exact Hx.
Qed.

(** Translation back. *)
Definition back (d : extents) (s : node) : node :=
  let '(nx, ny, nz) := d in let '(a, b, c) := s in ((nx - a mod nx)%nat, (ny - b mod ny)%nat, (nz - c mod nz)%nat).

Lemma translate_on_grid : forall d s x, nonempty d -> on_grid d (translate d s x).
Proof. intros [[nx ny] nz] [[a b] c] [[p q] r] (Hx & Hy & Hz). unfold translate, on_grid. repeat split; apply Nat.mod_upper_bound; lia. Qed.

Lemma mod_back : forall n a p, (p < n)%nat -> (((p + a) mod n + (n - a mod n)) mod n = p)%nat /\ (((p + (n - a mod n)) mod n + a) mod n = p)%nat.
Proof.
  intros n a p Hp. assert (Hn : n <> 0%nat) by lia. pose proof (Nat.mod_upper_bound a n Hn) as Ha.
  assert (Ea := Nat.div_mod_eq a n). split.
  - rewrite Nat.add_mod_idemp_l by exact Hn. replace (p + a + (n - a mod n))%nat with (p + (a / n + 1) * n)%nat by nia.
    rewrite Nat.mod_add by exact Hn. apply Nat.mod_small; exact Hp.
  - rewrite Nat.add_mod_idemp_l by exact Hn. replace (p + (n - a mod n) + a)%nat with (p + (a / n + 1) * n)%nat by nia.
    rewrite Nat.mod_add by exact Hn. apply Nat.mod_small; exact Hp.
Qed.

Lemma csum_translate : forall d s f, nonempty d -> csum (grid d) (fun x => f (translate d s x)) = csum (grid d) f.
Proof.
  intros d s f Hd. apply (csum_reindex d (translate d s) (translate d (back d s))); intros x Hx; try (apply translate_on_grid; exact Hd).
  - destruct d as [[nx ny] nz], s as [[a b] c], x as [[p q] r]. destruct Hx as (Hp & Hq & Hr). unfold translate, back.
    rewrite (proj1 (mod_back nx a p Hp)), (proj1 (mod_back ny b q Hq)), (proj1 (mod_back nz c r Hr)). reflexivity.
  - destruct d as [[nx ny] nz], s as [[a b] c], x as [[p q] r]. destruct Hx as (Hp & Hq & Hr). unfold translate, back.
    rewrite (proj2 (mod_back nx a p Hp)), (proj2 (mod_back ny b q Hq)), (proj2 (mod_back nz c r Hr)). reflexivity.
Qed.

(** ** The complex-to-real transform *)

Lemma csum_half : forall d f, nonempty d ->
  csum (half d) f = csum (grid d) (fun k => if (2 * snd k <=? snd d)%nat then f k else RtoC 0).
Proof.
  intros [[nx ny] nz] f (_ & _ & Hz). unfold half. rewrite !csum_grid. cbn [snd].
  apply csum_ext. intros p _. apply csum_ext. intros q _.
  assert (Hsplit : seq 0 nz = seq 0 (nz / 2 + 1) ++ seq (nz / 2 + 1) (nz - (nz / 2 + 1))).
  { transitivity (seq 0 ((nz / 2 + 1) + (nz - (nz / 2 + 1)))); [|exact (seq_app (nz / 2 + 1) (nz - (nz / 2 + 1)) 0)].
    f_equal. assert (Hd := Nat.div_mod_eq nz 2). assert (Hm := Nat.mod_upper_bound nz 2 ltac:(lia)). lia. }
  rewrite Hsplit, csum_app. assert (Hd := Nat.div_mod_eq nz 2). assert (Hm := Nat.mod_upper_bound nz 2 ltac:(lia)).
  rewrite (csum_ext _ (seq (nz / 2 + 1) _) _ (fun _ => RtoC 0)), csum_zero.
  - rewrite Cplus_0_r. apply csum_ext. intros r Hr. apply in_seq in Hr.
    destruct (Nat.leb_spec (2 * r) nz) as [_|H]; [reflexivity|lia].
  - intros r Hr. apply in_seq in Hr. destruct (Nat.leb_spec (2 * r) nz) as [H|_]; [lia|reflexivity].
Qed.

(** Share of the half-spectrum value of a mode in the full spectrum. *)
Definition share (nz kz : nat) : R := if (2 * kz <=? nz)%nat then weight nz kz / 2 else 0.

Definition extended (d : extents) (h : node -> C) (k : node) : C :=
  Cplus (Cmult (RtoC (share (snd d) (snd k))) (h k))
        (Cmult (RtoC (share (snd d) (snd (mirror d k)))) (Cconj (h (mirror d k)))).

Lemma share_total : forall d k, on_grid d k -> share (snd d) (snd k) + share (snd d) (snd (mirror d k)) = 1.
Proof.
  intros [[nx ny] nz] [[a b] c] (_ & _ & Hc). unfold mirror. cbn [snd]. unfold share, weight.
  destruct (Nat.eq_dec c 0) as [->|Hn].
  - rewrite Nat.sub_0_r, Nat.mod_same by lia. cbn. lra.
  - rewrite (Nat.mod_small (nz - c)) by lia.
    destruct (Nat.leb_spec (2 * c) nz), (Nat.leb_spec (2 * (nz - c)) nz), (Nat.eqb_spec c 0), (Nat.eqb_spec (nz - c) 0),
      (Nat.eqb_spec (2 * c) nz), (Nat.eqb_spec (2 * (nz - c)) nz); cbn [orb]; try lia; lra.
Qed.

Lemma irfftn_extended : forall d h x, nonempty d -> RtoC (irfftn d h x) = ifftn d (extended d h) x.
Proof.
  intros d h x Hd. unfold irfftn, ifftn. rewrite RtoC_mult. f_equal.
  assert (E1 : RtoC (Rsum (map (fun k => weight (snd d) (snd k) * Re (Cmult (h k) (cis (theta d k x)))) (half d)))
             = csum (half d) (fun k => RtoC (weight (snd d) (snd k) * Re (Cmult (h k) (cis (theta d k x)))))).
  { induction (half d) as [|a l IH]; [reflexivity|]. cbn [map csum fold_right]. unfold Rsum; cbn [fold_right].
    rewrite RtoC_plus. f_equal. exact IH. }
  rewrite E1, csum_half by exact Hd.
  rewrite (csum_ext _ _ _ (fun k => Cplus (Cmult (Cmult (RtoC (share (snd d) (snd k))) (h k)) (cis (theta d k x)))
     (Cmult (Cmult (RtoC (share (snd d) (snd k))) (Cconj (h k))) (cis (theta d (mirror d k) x))))).
  - rewrite csum_plus.
    pose proof (csum_mirror d (fun k => Cmult (Cmult (RtoC (share (snd d) (snd k))) (Cconj (h k))) (cis (theta d (mirror d k) x))) Hd) as Em.
    rewrite <- Em, <- csum_plus. apply csum_ext. intros k Hk. rewrite grid_In in Hk. unfold extended. rewrite mirror_invol by exact Hk. ring.
  - intros k Hk. rewrite grid_In in Hk. rewrite cis_mirror by assumption. unfold share.
    destruct (2 * snd k <=? snd d)%nat.
    + replace (weight (snd d) (snd k) * Re (Cmult (h k) (cis (theta d k x))))
        with (weight (snd d) (snd k) / 2 * (2 * Re (Cmult (h k) (cis (theta d k x))))) by lra.
      rewrite RtoC_mult, Re_half, Cconj_mult, cis_neg. ring.
    + ring.
Qed.

(** Fourier coefficients of the complex-to-real transform. *)
Lemma fourier_irfftn : forall d h k, nonempty d -> on_grid d k -> fourier d (irfftn d h) k = extended d h k.
Proof.
  intros d h k Hd Hk. rewrite fourier_fftn. transitivity (fftn d (ifftn d (extended d h)) k).
  - unfold fftn. apply csum_ext. intros x _. rewrite irfftn_extended by exact Hd. reflexivity.
  - apply fftn_ifftn; assumption.
Qed.

Definition hermitian_modes (d : extents) (h : node -> C) : Prop := forall k, on_grid d k -> h (mirror d k) = Cconj (h k).

Lemma extended_hermitian : forall d h k, on_grid d k -> hermitian_modes d h -> extended d h k = h k.
Proof.
  intros d h k Hk Hh. unfold extended. rewrite Hh by exact Hk. rewrite Cconj_conj, <- Cmult_plus_distr_r, <- RtoC_plus, share_total by exact Hk. ring.
Qed.

Lemma irfftn_hermitian : forall d h x, nonempty d -> hermitian_modes d h -> RtoC (irfftn d h x) = ifftn d h x.
Proof.
  intros d h x Hd Hh. rewrite irfftn_extended by exact Hd. unfold ifftn. f_equal. apply csum_ext. intros k Hk.
  rewrite grid_In in Hk. rewrite extended_hermitian by assumption. reflexivity.
Qed.

(** ** Transforms of real arrays *)

Lemma fftn_real_mirror : forall d (u : node -> R) k, nonempty d -> on_grid d k ->
  fftn d (fun x => RtoC (u x)) (mirror d k) = Cconj (fftn d (fun x => RtoC (u x)) k).
Proof.
  intros d u k Hd Hk. unfold fftn. rewrite csum_conj. apply csum_ext. intros x _. rewrite Cconj_mult, Cconj_R.
  f_equal. rewrite !cis_neg, cis_mirror, cis_neg by assumption. reflexivity.
Qed.

Lemma fftn_linear : forall d (f g : node -> C) (a b : C) k,
  fftn d (fun x => Cplus (Cmult a (f x)) (Cmult b (g x))) k = Cplus (Cmult a (fftn d f k)) (Cmult b (fftn d g k)).
Proof.
  intros. unfold fftn. rewrite <- !csum_scal, <- csum_plus. apply csum_ext. intros; ring.
Qed.

Lemma fftn_shift : forall d f s k, nonempty d ->
  fftn d (fun x => f (translate d s x)) k = Cmult (cis (theta d k s)) (fftn d f k).
Proof.
  intros d f s k Hd. unfold fftn.
  rewrite <- (csum_translate d s (fun x => Cmult (f x) (cis (- theta d k x))) Hd).
  rewrite <- csum_scal. apply csum_ext. intros x _.
  assert (E : cis (- theta d k x) = Cmult (cis (theta d k s)) (cis (- theta d k (translate d s x)))).
  { rewrite !cis_neg, cis_translate, Cconj_mult, <- !cis_neg by exact Hd.
    transitivity (Cmult (cis (- theta d k x)) (Cmult (cis (theta d k s)) (cis (- theta d k s)))); [rewrite cis_inv; ring|ring]. }
  rewrite E. ring.
Qed.

Lemma irfftn_ext : forall d h g x, (forall k, on_grid d k \/ In k (half d) -> h k = g k) -> irfftn d h x = irfftn d g x.
Proof.
  intros d h g x H. unfold irfftn. f_equal. f_equal. apply map_ext_in. intros k Hk. rewrite H by (right; exact Hk). reflexivity.
Qed.

Lemma Re_plus : forall a b, Re (Cplus a b) = Re a + Re b.
Proof. reflexivity. Qed.

Lemma irfftn_linear : forall d h g (a b : R) x,
  irfftn d (fun k => Cplus (Cmult (RtoC a) (h k)) (Cmult (RtoC b) (g k))) x = a * irfftn d h x + b * irfftn d g x.
Proof.
  intros d h g a b x. unfold irfftn. rewrite <- !Rmult_assoc, (Rmult_comm a), (Rmult_comm b), !Rmult_assoc, <- Rmult_plus_distr_l. f_equal.
  induction (half d) as [|k l IH]; [cbn; ring|]. cbn [map]. unfold Rsum in *; cbn [fold_right]. rewrite IH.
  replace (Re (Cmult (Cplus (Cmult (RtoC a) (h k)) (Cmult (RtoC b) (g k))) (cis (theta d k x))))
    with (a * Re (Cmult (h k) (cis (theta d k x))) + b * Re (Cmult (g k) (cis (theta d k x)))).
  - ring.
  - unfold Re, Cmult, Cplus, RtoC. cbn [fst snd]. ring.
Qed.

Lemma irfftn_shift : forall d h s x, nonempty d ->
  irfftn d (fun k => Cmult (cis (theta d k s)) (h k)) x = irfftn d h (translate d s x).
Proof.
  intros d h s x Hd. unfold irfftn. f_equal. f_equal. apply map_ext. intros k. f_equal. f_equal.
  rewrite cis_translate by exact Hd. ring.
Qed.

(** ** The vector sampler *)

Lemma correlated_linear : forall G L d n m a b i k,
  correlated G L d (fun j y => a * n j y + b * m j y) i k
  = Cplus (Cmult (RtoC a) (correlated G L d n i k)) (Cmult (RtoC b) (correlated G L d m i k)).
Proof.
  intros G L d n m a b i k. unfold correlated.
  assert (E : forall j, fftn d (fun x => RtoC (a * n j x + b * m j x)) k
            = Cplus (Cmult (RtoC a) (fftn d (fun x => RtoC (n j x)) k)) (Cmult (RtoC b) (fftn d (fun x => RtoC (m j x)) k))).
  { intros j. rewrite <- fftn_linear. unfold fftn. apply csum_ext. intros x _. rewrite RtoC_plus, !RtoC_mult. reflexivity. }
  rewrite !E. ring.
Qed.

Lemma sample_linear : forall G L d n m a b i x,
  sample_vf G L d (fun j y => a * n j y + b * m j y) i x = a * sample_vf G L d n i x + b * sample_vf G L d m i x.
Proof.
  intros. unfold sample_vf.
  rewrite (irfftn_ext d _ (fun k => Cplus (Cmult (RtoC a) (correlated G L d n i k)) (Cmult (RtoC b) (correlated G L d m i k)))).
  - rewrite irfftn_linear. unfold Rdiv. ring.
  - intros k _. apply correlated_linear.
Qed.

Lemma sample_ext : forall G L d n m i x, (forall j y, on_grid d y -> n j y = m j y) -> sample_vf G L d n i x = sample_vf G L d m i x.
Proof.
  intros G L d n m i x H. unfold sample_vf. f_equal. apply irfftn_ext. intros k _. unfold correlated.
  assert (E : forall j, fftn d (fun y => RtoC (n j y)) k = fftn d (fun y => RtoC (m j y)) k).
  { intros j. unfold fftn. apply csum_ext. intros y Hy. rewrite grid_In in Hy. rewrite H by exact Hy. reflexivity. }
  rewrite !E. reflexivity.
Qed.

Lemma sample_zero : forall G L d n i x, (forall j y, on_grid d y -> n j y = 0) -> sample_vf G L d n i x = 0.
Proof.
  intros G L d n i x H. rewrite (sample_ext G L d n (fun j y => 0 * n j y + 0 * n j y)).
  - rewrite sample_linear. ring.
  - intros j y Hy. rewrite H by exact Hy. ring.
Qed.

Lemma sample_shift : forall G L d n s i x, nonempty d ->
  sample_vf G L d (fun j y => n j (translate d s y)) i x = sample_vf G L d n i (translate d s x).
Proof.
  intros G L d n s i x Hd. unfold sample_vf. rewrite <- irfftn_shift by exact Hd. f_equal. apply irfftn_ext. intros k _.
  unfold correlated. rewrite !(fftn_shift d (fun y => RtoC (n _ y)) s k Hd). ring.
Qed.

(** Hermitian symmetry on the grid. *)
Lemma correlated_hermitian : forall G L d n i, nonempty d ->
  (forall k i j, on_grid d k -> spectrum_at G L d (mirror d k) i j = Cconj (spectrum_at G L d k i j)) ->
  hermitian_modes d (correlated G L d n i).
Proof.
  intros G L d n i Hd HG k Hk. unfold correlated. rewrite !HG, !fftn_real_mirror by assumption.
  rewrite !Cconj_plus, !Cconj_mult, !Cconj_R. reflexivity.
Qed.

Lemma wave_number_physical : forall L n a, (0 < n)%nat -> wave_number L n a = physical_k L n a.
Proof.
  intros L n a Hn. apply lt_0_INR in Hn. unfold wave_number, physical_k, signed_mode. destruct (2 * a <? n)%nat.
  - rewrite <- INR_IZR_INZ. unfold Rdiv. replace (INR n * (INR a * / INR n)) with (INR a) by (field; lra). ring.
  - rewrite minus_IZR, <- !INR_IZR_INZ. unfold Rdiv. replace (INR n * ((INR a - INR n) * / INR n)) with (INR a - INR n) by (field; lra). ring.
Qed.

Lemma wave_number_mirror : forall L n a, (a < n)%nat -> (2 * a <> n)%nat -> wave_number L n ((n - a) mod n) = - wave_number L n a.
Proof.
  intros L n a Ha Hne. unfold wave_number. replace (signed_mode n ((n - a) mod n)) with (- signed_mode n a)%Z.
  - rewrite opp_IZR. unfold Rdiv. ring.
  - unfold signed_mode. destruct (Nat.eq_dec a 0) as [->|Hn].
    + rewrite Nat.sub_0_r, Nat.mod_same by lia. destruct (Nat.ltb_spec (2 * 0) n); lia.
    + rewrite Nat.mod_small by lia. destruct (Nat.ltb_spec (2 * a) n), (Nat.ltb_spec (2 * (n - a)) n); lia.
Qed.

Lemma wave_vector_mirror : forall L d k i, on_grid d k -> regular d k -> wave_vector L d (mirror d k) i = - wave_vector L d k i.
Proof.
  intros [[Lx Ly] Lz] [[nx ny] nz] [[a b] c] i (Ha & Hb & Hc) (Ra & Rb & Rc). unfold wave_vector, mirror.
  destruct i; apply wave_number_mirror; assumption.
Qed.

Lemma odd_regular : forall d k, all_odd d -> regular d k.
Proof. intros [[nx ny] nz] [[a b] c] ([m Hx] & [m' Hy] & [m'' Hz]). unfold regular. lia. Qed.

Lemma odd_nonempty : forall d, all_odd d -> nonempty d.
Proof. intros [[nx ny] nz] ([m Hx] & [m' Hy] & [m'' Hz]). unfold nonempty. lia. Qed.

Lemma spectrum_hermitian : forall G L d k i j, hermitian_kernel G -> on_grid d k -> regular d k ->
  spectrum_at G L d (mirror d k) i j = Cconj (spectrum_at G L d k i j).
Proof. intros G L d k i j HG Hk Hr. unfold spectrum_at. rewrite !wave_vector_mirror by assumption. apply HG. Qed.

Lemma nothing_dropped : forall G L d n i x, nonempty d ->
  (forall k i j, on_grid d k -> spectrum_at G L d (mirror d k) i j = Cconj (spectrum_at G L d k i j)) ->
  RtoC (sample_vf G L d n i x) = Cmult (RtoC (/ (count d * transform_norm L))) (full_sum d (correlated G L d n i) x).
Proof.
  intros G L d n i x Hd HG. unfold sample_vf, Rdiv. rewrite RtoC_mult, irfftn_hermitian by (try exact Hd; apply correlated_hermitian; assumption).
  unfold ifftn. rewrite full_sum_csum, Rinv_mult, RtoC_mult. ring.
Qed.

(** ** Divergence *)

Lemma spectral_divergence_wave : forall L d u k, nonempty d ->
  spectral_divergence L d u k
  = Cplus (Cplus (Cmult (RtoC (wave_vector L d k X1)) (fourier d (u X1) k)) (Cmult (RtoC (wave_vector L d k X2)) (fourier d (u X2) k)))
          (Cmult (RtoC (wave_vector L d k X3)) (fourier d (u X3) k)).
Proof.
  intros [[Lx Ly] Lz] [[nx ny] nz] u [[a b] c] (Hx & Hy & Hz). unfold spectral_divergence, wave_vector.
  rewrite !wave_number_physical by assumption. reflexivity.
Qed.

Lemma fourier_scale : forall d u c k, fourier d (fun x => u x / c) k = Cmult (RtoC (/ c)) (fourier d u k).
Proof.
  intros d u c k. rewrite !fourier_fftn. unfold fftn. rewrite <- csum_scal. apply csum_ext. intros x _. unfold Rdiv. rewrite RtoC_mult. ring.
Qed.

Lemma fourier_sample : forall G L d n i k, nonempty d -> on_grid d k ->
  fourier d (sample_vf G L d n i) k = Cmult (RtoC (/ transform_norm L)) (extended d (correlated G L d n i) k).
Proof.
  intros G L d n i k Hd Hk. unfold sample_vf. rewrite fourier_scale, fourier_irfftn by assumption. reflexivity.
Qed.

Lemma correlated_solenoidal : forall G L d n k, solenoidal G ->
  Cplus (Cplus (Cmult (RtoC (wave_vector L d k X1)) (correlated G L d n X1 k)) (Cmult (RtoC (wave_vector L d k X2)) (correlated G L d n X2 k)))
        (Cmult (RtoC (wave_vector L d k X3)) (correlated G L d n X3 k)) = RtoC 0.
Proof.
  intros G L d n k HG. unfold correlated, spectrum_at.
  set (k1 := wave_vector L d k X1). set (k2 := wave_vector L d k X2). set (k3 := wave_vector L d k X3).
  set (h1 := fftn d _ k). set (h2 := fftn d _ k). set (h3 := fftn d _ k). set (s := RtoC (sqrt (count d))).
  pose proof (HG k1 k2 k3 X1) as E1. pose proof (HG k1 k2 k3 X2) as E2. pose proof (HG k1 k2 k3 X3) as E3.
  transitivity (Cplus (Cplus
    (Cmult (Cmult s h1) (Cplus (Cplus (Cmult (RtoC k1) (G k1 k2 k3 X1 X1)) (Cmult (RtoC k2) (G k1 k2 k3 X2 X1))) (Cmult (RtoC k3) (G k1 k2 k3 X3 X1))))
    (Cmult (Cmult s h2) (Cplus (Cplus (Cmult (RtoC k1) (G k1 k2 k3 X1 X2)) (Cmult (RtoC k2) (G k1 k2 k3 X2 X2))) (Cmult (RtoC k3) (G k1 k2 k3 X3 X2)))))
    (Cmult (Cmult s h3) (Cplus (Cplus (Cmult (RtoC k1) (G k1 k2 k3 X1 X3)) (Cmult (RtoC k2) (G k1 k2 k3 X2 X3))) (Cmult (RtoC k3) (G k1 k2 k3 X3 X3))))).
  - ring.
  - rewrite E1, E2, E3. ring.
Qed.

Lemma regular_divergence_free : forall G L d n k, nonempty d -> solenoidal G -> on_grid d k -> regular d k ->
  spectral_divergence L d (sample_vf G L d n) k = RtoC 0.
Proof.
  intros G L d n k Hd HG Hk Hr. rewrite spectral_divergence_wave by exact Hd. rewrite !fourier_sample by assumption.
  unfold extended. set (c := RtoC (/ transform_norm L)). set (s1 := RtoC (share _ (snd k))). set (s2 := RtoC (share _ (snd (mirror d k)))).
  pose proof (correlated_solenoidal G L d n k HG) as E1.
  pose proof (correlated_solenoidal G L d n (mirror d k) HG) as E2. rewrite !wave_vector_mirror in E2 by assumption.
  apply (f_equal Cconj) in E2. rewrite !Cconj_plus, !Cconj_mult, !Cconj_R, !RtoC_opp in E2.
  set (w1 := RtoC (wave_vector L d k X1)) in *. set (w2 := RtoC (wave_vector L d k X2)) in *. set (w3 := RtoC (wave_vector L d k X3)) in *.
  set (a1 := correlated G L d n X1 k) in *. set (a2 := correlated G L d n X2 k) in *. set (a3 := correlated G L d n X3 k) in *.
  set (b1 := Cconj (correlated G L d n X1 (mirror d k))) in *. set (b2 := Cconj (correlated G L d n X2 (mirror d k))) in *.
  set (b3 := Cconj (correlated G L d n X3 (mirror d k))) in *.
  transitivity (Cplus (Cmult (Cmult c s1) (Cplus (Cplus (Cmult w1 a1) (Cmult w2 a2)) (Cmult w3 a3)))
    (Copp (Cmult (Cmult c s2) (Cplus (Cplus (Cmult (Copp w1) b1) (Cmult (Copp w2) b2)) (Cmult (Copp w3) b3))))).
  - ring.
  - rewrite E1, E2. ring.
Qed.
