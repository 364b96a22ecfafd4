(** Further lemmas about the random field classes. *)

From Coq Require Import String Reals List ZArith Bool Lia.
From Verif Require Import Prelude GenModel GrfModel GrfSpec GrfProofs.
Import ListNotations.
Open Scope R_scope.

(** A constructed field carries what its arguments say. *)
Lemma make_parts : forall a f, make_grf a = Ok f ->
  exists h L g sl, (match ga_level a with LScalar l => scalar_grid l (ga_shape a) (ga_ndim a) | LArray l => array_grid l (ga_shape a) (ga_dims a) (ga_ndim a) end) = Ok (h, (L, g))
  /\ domain_slice g (ga_ndim a) = Ok sl /\ spectrum_check g (ga_ndim a) = Ok tt
  /\ exists m, method_of (ga_method a) = Some m /\ f = Grf (ga_ndim a) g L sl (sqrt (Rprod h)) (ga_method a) (Some (Sampler m g sl)).
Proof.
  intros a f H. unfold make_grf in H. destruct (match ga_level a with LScalar l => scalar_grid l (ga_shape a) (ga_ndim a) | LArray l => array_grid l (ga_shape a) (ga_dims a) (ga_ndim a) end) as [[h [L g]]|e]; [|discriminate].
  cbn [bind fst snd] in H. destruct (domain_slice g (ga_ndim a)) as [sl|e] eqn:ES; [|discriminate]. cbn [bind] in H. unfold set_sampling_method in H. cbn [f_ndim f_grid f_lengths f_slice f_std f_correlate] in H.
  destruct (method_of (ga_method a)) as [m|] eqn:EM; [|discriminate]. destruct (spectrum_check g (ga_ndim a)) as [[]|e] eqn:EC; [|discriminate]. cbn [bind] in H.
  exists h, L, g, sl. split; [reflexivity|]. split; [exact ES|]. split; [exact EC|]. exists m. split; [reflexivity|]. injection H as <-. reflexivity.
Qed.

Lemma make_from_parts : forall a h L g sl m, (match ga_level a with LScalar l => scalar_grid l (ga_shape a) (ga_ndim a) | LArray l => array_grid l (ga_shape a) (ga_dims a) (ga_ndim a) end) = Ok (h, (L, g)) ->
  domain_slice g (ga_ndim a) = Ok sl -> spectrum_check g (ga_ndim a) = Ok tt -> method_of (ga_method a) = Some m ->
  make_grf a = Ok (Grf (ga_ndim a) g L sl (sqrt (Rprod h)) (ga_method a) (Some (Sampler m g sl))).
Proof.
  intros a h L g sl m E1 E2 E3 E4. unfold make_grf. rewrite E1. cbn [bind fst snd]. rewrite E2. cbn [bind]. unfold set_sampling_method. cbn [f_ndim f_grid f_lengths f_slice f_std f_correlate]. rewrite E4, E3. reflexivity.
Qed.

(** Selecting a documented method later is constructing with it. *)
Lemma selected_later : forall G (gauss : G -> R * G) (seeded : Z -> G) numbers a f g name cs, In name documented -> make_grf a = Ok f ->
  exists f', make_grf (with_method name a) = Ok f' /\ snd (grf_run gauss seeded numbers f g (CMethod name :: cs)) = Ok None :: snd (grf_run gauss seeded numbers f' g cs).
Proof.
  intros G gauss seeded numbers a f g name cs HN HF. destruct (make_parts a f HF) as (h & L & gr & sl & E1 & E2 & E3 & m & E4 & ->). destruct (method_of_documented name HN) as (m' & EM).
  eexists. split; [apply (make_from_parts (with_method name a) h L gr sl m' E1 E2 E3 EM)|].
  cbn [grf_run grf_step]. unfold set_sampling_method. cbn [f_ndim f_grid f_lengths f_slice f_std f_correlate]. rewrite EM, E3. cbn [ga_ndim ga_method with_method].
  destruct (grf_run gauss seeded numbers _ g cs) as [[f2 g2] rs]. reflexivity.
Qed.

Lemma selected_later_vector : forall G (gauss : G -> R * G) (seeded : Z -> G) numbers a f g name cs, In name documented -> make_vector_grf a = Ok f ->
  exists f', make_vector_grf (with_method name a) = Ok f' /\ snd (grf_run gauss seeded numbers f g (CMethod name :: cs)) = Ok None :: snd (grf_run gauss seeded numbers f' g cs).
Proof.
  intros G gauss seeded numbers a f g name cs HN HF. unfold make_vector_grf in HF. destruct (make_grf a) as [f0|e] eqn:E0; [|discriminate]. destruct (make_parts a f0 E0) as (h & L & gr & sl & E1 & E2 & E3 & m & E4 & ->). destruct (method_of_documented name HN) as (m' & EM).
  cbn [bind f_ndim f_grid f_lengths f_slice f_std f_method f_correlate s_method s_grid] in HF. injection HF as <-.
  eexists. split; [unfold make_vector_grf; rewrite (make_from_parts (with_method name a) h L gr sl m' E1 E2 E3 EM); reflexivity|].
  cbn [grf_run grf_step]. unfold set_sampling_method. cbn [f_ndim f_grid f_lengths f_slice f_std f_correlate f_method s_method s_grid]. rewrite EM, E3. cbn [ga_ndim ga_method with_method].
  destruct (grf_run gauss seeded numbers _ g cs) as [[f2 g2] rs]. reflexivity.
Qed.

(** Only three dimensions. *)
Lemma repeat_snoc : forall A (x : A) n, rev (repeat x n) = repeat x n.
Proof.
  intros A x n. induction n as [|n IH]; [reflexivity|]. cbn [repeat rev]. rewrite IH. clear IH. induction n as [|n IH]; [reflexivity|]. cbn [repeat app]. rewrite IH. reflexivity.
Qed.

Lemma assignable_extra : forall n k, (2 <= n)%nat -> (1 <= k)%nat -> assignable_rev [] (repeat n k) = false.
Proof. intros n k Hn Hk. destruct k as [|k]; [lia|]. cbn [repeat assignable_rev]. destruct (Nat.eqb_spec n 1); [lia|]. reflexivity. Qed.

Lemma only_three : forall a, ga_ndim a <> 3%nat -> has_extent a -> exists e, make_grf a = Err e.
Proof.
  intros a H3 HE. destruct (make_grf a) as [f|e] eqn:E; [|exists e; reflexivity]. exfalso. destruct (make_parts a f E) as (h & L & g & sl & E1 & E2 & E3 & _).
  unfold spectrum_check in E3. destruct (Nat.ltb_spec (ga_ndim a) 3) as [|Hge]; [discriminate|]. assert (H4 : (4 <= ga_ndim a)%nat) by lia.
  unfold has_extent in HE. destruct (ga_level a) as [l|l].
  - unfold scalar_grid in E1. destruct (ga_shape a) as [|n|l']; try discriminate. injection E1 as _ _ <-.
    replace (ga_ndim a) with (3 + (ga_ndim a - 3))%nat in E3 by lia. unfold assign_array in E3. rewrite repeat_snoc in E3. cbn [Nat.add repeat firstn rev app assignable_rev] in E3.
    rewrite !Nat.eqb_refl in E3. cbn [orb andb] in E3. rewrite assignable_extra in E3 by lia. discriminate.
  - unfold array_grid in E1. destruct (Nat.eqb_spec (length (ga_dims a)) 3) as [D|D]; [|discriminate]. destruct (Nat.eqb_spec (length l) 3) as [D'|D']; [|discriminate]. cbn [negb] in E1.
    destruct (ga_shape a) as [|n|l']; try discriminate. set (hs := map (fun p : R * nat => fst p / (2 ^ snd p + 1)) (combine (ga_dims a) l)) in E1.
    assert (LH : length hs = 3%nat) by (unfold hs; rewrite map_length, combine_length, D, D'; reflexivity).
    destruct (times_grid hs (firstn (ga_ndim a) l')) as [L'|e] eqn:ET; [|discriminate]. cbn [bind] in E1. injection E1 as _ _ <-.
    unfold domain_slice in E2. destruct (Nat.leb_spec (ga_ndim a) (length (firstn (ga_ndim a) l'))) as [LE|]; [|discriminate].
    unfold times_grid in ET. destruct (Nat.eqb_spec (length hs) (length (firstn (ga_ndim a) l'))) as [EQ|_]; [lia|].
    destruct (firstn (ga_ndim a) l') as [|x [|y r]]; cbn [length] in LE; try lia. destruct hs as [|u [|v w]]; cbn [length] in LH; lia || discriminate.
Qed.

(** Noise with more than three components. *)
Lemma assign_ok : forall dst src, assignable_rev (rev dst) (rev src) = true -> assign_array dst src = Ok tt.
Proof. intros dst src H. unfold assign_array. rewrite H. reflexivity. Qed.

Lemma components_rejected : forall G (gauss : G -> R * G) numbers lx ly lz nx ny nz dx dy dz g l a b c n f, (4 <= n)%nat ->
  (a = nx \/ a = 1%nat) -> (b = ny \/ b = 1%nat) -> (c = nz \/ c = 1%nat) ->
  make_vector_grf (per_axis lx ly lz nx ny nz dx dy dz "vf_fftw") = Ok f ->
  fst (grf_sample gauss numbers f (Some ([a; b; c; n], l)) g) = Err IndexError.
Proof.
  intros G gauss numbers lx ly lz nx ny nz dx dy dz g l a b c n f Hn Ha Hb Hc HF. unfold make_vector_grf in HF. rewrite (make_per_axis lx ly lz nx ny nz dx dy dz "vf_fftw" MVF eq_refl) in HF.
  cbn [bind f_ndim f_grid f_lengths f_slice f_std f_method f_correlate s_method s_grid] in HF. injection HF as <-. unfold grf_sample. cbn [f_correlate fst call_sampler s_method]. unfold call_sampler. cbn [s_method]. unfold call_vf. cbn [rev app s_grid]. cbv zeta. cbn [rev app].
  assert (EA : assign_array [nx; ny; nz] [a; b; c] = Ok tt).
  { apply assign_ok. cbn [rev app assignable_rev]. destruct Ha as [->| ->], Hb as [->| ->], Hc as [->| ->]; rewrite ?Nat.eqb_refl, ?orb_true_r; reflexivity. }
  replace n with (4 + (n - 4))%nat by lia. cbn [Nat.add seq for_each]. rewrite EA. reflexivity.
Qed.
