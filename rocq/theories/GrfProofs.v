(** Proofs about the random field classes. *)

From Coq Require Import String Reals List ZArith Bool Lra Lia.
From Verif Require Import Prelude GenModel GrfModel GrfSpec.
Import ListNotations.
Open Scope R_scope.

Ltac inv H := inversion H; subst; clear H.

(** ** Shapes *)

Lemma broadcast_rev_length : forall a b r, broadcast_rev a b = Ok r -> length r = Nat.max (length a) (length b).
Proof.
  induction a as [| x a IH]; intros b r H; simpl in H.
  - inv H. reflexivity.
  - destruct b as [| y b]; [inv H; reflexivity|].
    destruct (broadcast_rev a b) as [r' | e] eqn:E; simpl in H; [|discriminate].
    specialize (IH _ _ E).
    destruct (x =? y)%nat; [inv H; simpl; lia|].
    destruct (x =? 1)%nat; [inv H; simpl; lia|].
    destruct (y =? 1)%nat; [inv H; simpl; lia|discriminate].
Qed.

Lemma broadcast_length : forall a b r, broadcast a b = Ok r -> length r = Nat.max (length a) (length b).
Proof.
  intros a b r H. unfold broadcast in H.
  destruct (broadcast_rev (rev a) (rev b)) as [r' | e] eqn:E; simpl in H; [|discriminate].
  inv H. apply broadcast_rev_length in E. rewrite !rev_length in *. exact E.
Qed.

Lemma broadcast_rev_prefix : forall b a, broadcast_rev (b ++ a) b = Ok (b ++ a).
Proof.
  induction b as [| y b IH]; intros a; simpl.
  - destruct a; reflexivity.
  - rewrite IH. simpl. rewrite Nat.eqb_refl. reflexivity.
Qed.

Lemma broadcast_suffix : forall a b, broadcast (a ++ b) b = Ok (a ++ b).
Proof.
  intros a b. unfold broadcast. rewrite rev_app_distr, broadcast_rev_prefix. simpl.
  rewrite <- rev_app_distr, rev_involutive. reflexivity.
Qed.

Lemma shape_eqb_eq : forall a b, shape_eqb a b = true -> a = b.
Proof.
  induction a as [| x a IH]; destruct b as [| y b]; simpl; intros H; try discriminate; [reflexivity|].
  apply andb_prop in H. destruct H as [H1 H2]. apply Nat.eqb_eq in H1. subst. f_equal. apply IH, H2.
Qed.

Lemma slice_array_length : forall sl s r, slice_array sl s = Ok r -> length r = length s.
Proof.
  induction sl as [| o sl IH]; intros s r H; simpl in H.
  - inv H. reflexivity.
  - destruct s as [| m s]; [destruct o; discriminate|].
    destruct o as [n|]; destruct (slice_array sl s) as [r' | e] eqn:E; simpl in H; try discriminate;
      inv H; simpl; f_equal; apply IH, E.
Qed.

Lemma imul_ndim : forall dst src, (length dst < length src)%nat -> exists e, imul_array dst src = Err e /\ e = ValueError.
Proof.
  intros dst src H. unfold imul_array.
  destruct (broadcast dst src) as [r | e] eqn:E.
  - simpl. destruct (shape_eqb r dst) eqn:Q.
    + apply shape_eqb_eq in Q. apply broadcast_length in E. subst. lia.
    + exists ValueError. split; reflexivity.
  - simpl. exists e. split; [reflexivity|].
    unfold broadcast in E. revert E. generalize (rev dst) (rev src).
    assert (A : forall a b, broadcast_rev a b = Err e -> e = ValueError).
    { induction a as [| x a IH]; intros b K; simpl in K; [discriminate|].
      destruct b as [| y b]; [discriminate|].
      destruct (broadcast_rev a b) as [r' | e'] eqn:F; simpl in K.
      - destruct (x =? y)%nat; [discriminate|]. destruct (x =? 1)%nat; [discriminate|].
        destruct (y =? 1)%nat; [discriminate|]. inv K. reflexivity.
      - inv K. apply (IH b F). }
    intros l l0 K. destruct (broadcast_rev l l0) as [r | e'] eqn:F; simpl in K; [discriminate|].
    inv K. apply (A _ _ F).
Qed.

(** ** Construction *)

Lemma method_of_documented : forall name, In name documented -> exists m, method_of name = Some m.
Proof.
  intros name H. simpl in H.
  destruct H as [<-|[<-|[<-|[<-|[<-|[]]]]]]; eexists; reflexivity.
Qed.

Lemma method_of_unknown : forall name, ~ In name documented -> method_of name = None.
Proof.
  intros name H. unfold method_of.
  destruct (String.eqb_spec name "fft") as [->|]; [exfalso; apply H; simpl; tauto|].
  destruct (String.eqb_spec name "dst") as [->|]; [exfalso; apply H; simpl; tauto|].
  destruct (String.eqb_spec name "dct") as [->|]; [exfalso; apply H; simpl; tauto|].
  destruct (String.eqb_spec name "fftw") as [->|]; [exfalso; apply H; simpl; tauto|].
  destruct (String.eqb_spec name "vf_fftw") as [->|]; [exfalso; apply H; simpl; tauto|].
  reflexivity.
Qed.

Lemma assignable_same : forall s, assignable_rev s s = true.
Proof. induction s as [| x s IH]; simpl; [reflexivity|]. rewrite Nat.eqb_refl, IH. reflexivity. Qed.

Lemma assign_same : forall s, assign_array s s = Ok tt.
Proof. intros s. unfold assign_array. rewrite assignable_same. reflexivity. Qed.

(** The field built from per-axis arguments with a documented method. *)
Lemma make_per_axis : forall lx ly lz nx ny nz dx dy dz name m, method_of name = Some m ->
  make_grf (per_axis lx ly lz nx ny nz dx dy dz name) =
  Ok (Grf 3 [nx; ny; nz]
        [dx / (2 ^ lx + 1) * INR nx; dy / (2 ^ ly + 1) * INR ny; dz / (2 ^ lz + 1) * INR nz]
        [Some nx; Some ny; Some nz]
        (sqrt (Rprod [dx / (2 ^ lx + 1); dy / (2 ^ ly + 1); dz / (2 ^ lz + 1)]))
        name (Some (Sampler m [nx; ny; nz] [Some nx; Some ny; Some nz]))).
Proof.
  intros lx ly lz nx ny nz dx dy dz name m Hm.
  unfold make_grf, per_axis, array_grid, set_sampling_method, spectrum_check.
  cbn -[assign_array]. rewrite Hm, assign_same. reflexivity.
Qed.

Lemma make_scalar : forall l n dims name m, method_of name = Some m ->
  make_grf (scalar_args l n dims name) =
  Ok (Grf 3 [n; n; n] [1 / 2 ^ l * INR n; 1 / 2 ^ l * INR n; 1 / 2 ^ l * INR n]
        [Some n; Some n; Some n] (sqrt (Rprod [1 / 2 ^ l]))
        name (Some (Sampler m [n; n; n] [Some n; Some n; Some n]))).
Proof.
  intros l n dims name m Hm.
  unfold make_grf, scalar_args, scalar_grid, set_sampling_method, spectrum_check.
  cbn -[assign_array]. rewrite Hm, assign_same. reflexivity.
Qed.

(** ** Sampling *)

Lemma fft_default : forall nx ny nz sl, call_fft (Sampler MFFT [nx; ny; nz] sl) [nx; ny; nz] = slice_array sl [3; 3; nx; ny; nz]%nat.
Proof.
  intros.
  change (call_fft (Sampler MFFT [nx; ny; nz] sl) [nx; ny; nz])
    with (bind (broadcast [3; 3; nx; ny; nz]%nat [nx; ny; nz]) (fun y => slice_array sl y)).
  pose proof (broadcast_suffix [3; 3]%nat [nx; ny; nz]) as E. cbn [app] in E.
  rewrite E. reflexivity.
Qed.

Lemma fftw_raises : forall nx ny nz sl noise, call_fftw (Sampler MFFTW [nx; ny; nz] sl) noise = Err ValueError.
Proof.
  intros. unfold call_fftw. cbn [s_grid s_slice].
  destruct (assign_array [nx; ny; nz] noise) as [[] | e] eqn:E; simpl.
  - destruct (imul_ndim [nx; ny; (nz / 2 + 1)%nat] (half_spectrum_shape [nx; ny; nz])) as (e & He & ->); [simpl; lia|].
    unfold half_grid at 1. cbn [rev app]. rewrite He. reflexivity.
  - unfold assign_array in E. destruct (assignable_rev _ _); [discriminate|]. inv E. reflexivity.
Qed.

Lemma for_each_err : forall l body e, In e l -> (exists x, body e = Err x) -> exists x, for_each l body = Err x.
Proof.
  induction l as [| i l IH]; intros body e H K; [destruct H|].
  simpl. destruct (body i) as [[] | x] eqn:E; simpl.
  - destruct H as [-> | H]; [destruct K as (x & K); congruence|]. exact (IH body e H K).
  - exists x. reflexivity.
Qed.

(** Without components in the noise, the vector transform fits only a grid of one node. *)
Lemma vf_default : forall nx ny nz sl, (1 <= nx)%nat -> (1 <= ny)%nat -> (1 <= nz)%nat ->
  (1 < nx * ny * nz)%nat -> exists e, call_vf (Sampler MVF [nx; ny; nz] sl) [nx; ny; nz] = Err e.
Proof.
  intros nx ny nz sl Hx Hy Hz H. unfold call_vf. cbn [rev app s_grid s_slice]. cbv zeta.
  match goal with |- exists e, bind ?A ?B = _ => destruct A as [[] | e] end; simpl; [|exists e; reflexivity].
  destruct (for_each_err (seq 0 nz)
    (fun i => bind (last_index 3 i) (fun _ => assign_array [nx; ny] [nx; ny; nz])) 0) as (x & E).
  - apply in_seq. lia.
  - simpl. unfold assign_array. cbn [rev app assignable_rev].
    destruct (((nz =? ny)%nat || (nz =? 1)%nat) && (((ny =? nx)%nat || (ny =? 1)%nat) && ((nx =? 1)%nat && true)))%bool eqn:Q;
      [|eexists; reflexivity].
    exfalso. rewrite !andb_true_iff, !orb_true_iff, !Nat.eqb_eq in Q.
    destruct Q as ([Q1 | Q1] & [Q2 | Q2] & Q3 & _); subst; simpl in H; lia.
  - rewrite E. exists x. reflexivity.
Qed.

Lemma for_each_ok : forall l body, (forall i, In i l -> body i = Ok tt) -> for_each l body = Ok tt.
Proof.
  induction l as [| i l IH]; intros body H; [reflexivity|].
  simpl. rewrite (H i (or_introl eq_refl)). simpl. apply IH. intros j Hj. apply H. right. exact Hj.
Qed.

Lemma vf_three : forall nx ny nz,
  call_vf (Sampler MVF [nx; ny; nz] [Some nx; Some ny; Some nz; None]) [nx; ny; nz; 3%nat] = Ok [nx; ny; nz; 3%nat].
Proof.
  intros nx ny nz. unfold call_vf. cbn [rev app s_grid s_slice]. cbv zeta.
  rewrite for_each_ok.
  - cbn [bind]. rewrite for_each_ok.
    + cbn. rewrite !Nat.min_id. reflexivity.
    + intros i Hi. apply in_seq in Hi. rewrite assign_same. unfold last_index.
      destruct (Nat.ltb_spec i 3); [reflexivity|lia].
  - intros i Hi. apply in_seq in Hi. rewrite assign_same. unfold last_index. simpl.
    destruct (Nat.ltb_spec i 3); [reflexivity|lia].
Qed.

Section Values.

  Variable G : Type.
  Variable gauss : G -> R * G.
  Variable seeded : Z -> G.
  Variable numbers : sampler -> array -> list R.

  Lemma sample_shape : forall f s g, f_correlate f = Some s -> forall sh,
    delivers sh (fst (grf_sample gauss numbers f None g)) -> call_sampler s (f_grid f) = Ok sh.
  Proof.
    intros f s g Hs sh [l H]. unfold grf_sample in H. rewrite Hs in H. unfold grf_noise in H.
    destruct (draw_many gauss (size (f_grid f)) g) as [d g']. cbn [fst] in H.
    destruct (call_sampler s (f_grid f)) as [sh' | e]; inv H. reflexivity.
  Qed.

  Lemma sample_given : forall f s x g, f_correlate f = Some s ->
    grf_sample gauss numbers f (Some x) g =
    (match call_sampler s (fst x) with Ok sh => Ok (sh, numbers s x) | Err e => Err e end, g).
  Proof. intros f s x g Hs. unfold grf_sample. rewrite Hs. reflexivity. Qed.

  Lemma C100_scalar_refuted : forall lx ly lz nx ny nz dx dy dz name g,
    In name documented -> (1 <= nx)%nat -> (1 <= ny)%nat -> (1 <= nz)%nat -> (1 < nx * ny * nz)%nat ->
    exists f, make_grf (per_axis lx ly lz nx ny nz dx dy dz name) = Ok f /\
              ~ delivers [nx; ny; nz] (fst (grf_sample gauss numbers f None g)).
  Proof.
    intros lx ly lz nx ny nz dx dy dz name g Hn Hx Hy Hz H.
    destruct (method_of_documented name Hn) as (m & Hm).
    eexists. split; [apply make_per_axis, Hm|].
    intros K. apply sample_shape with (s := Sampler m [nx; ny; nz] [Some nx; Some ny; Some nz]) in K; [|reflexivity].
    cbn [f_grid] in K.
    assert (A : call_fft (Sampler MFFT [nx; ny; nz] [Some nx; Some ny; Some nz]) [nx; ny; nz] <> Ok [nx; ny; nz]).
    { intros E. rewrite fft_default in E. apply slice_array_length in E. simpl in E. lia. }
    destruct m; cbn [call_sampler s_method] in K.
    - exact (A K).
    - apply A. exact K.
    - apply A. exact K.
    - unfold call_sampler in K. cbn [s_method] in K. rewrite fftw_raises in K. discriminate.
    - unfold call_sampler in K. cbn [s_method] in K.
      destruct (vf_default nx ny nz [Some nx; Some ny; Some nz] Hx Hy Hz H) as (e & E). congruence.
  Qed.

  Lemma C100_outcomes_lemma : forall lx ly lz nx ny nz dx dy dz name g f,
    make_grf (per_axis lx ly lz nx ny nz dx dy dz name) = Ok f ->
    (name = "fft"%string \/ name = "dst"%string \/ name = "dct"%string ->
       delivers [Nat.min nx 3; Nat.min ny 3; Nat.min nz nx; ny; nz] (fst (grf_sample gauss numbers f None g))) /\
    (name = "fftw"%string -> fst (grf_sample gauss numbers f None g) = Err ValueError).
  Proof.
    intros lx ly lz nx ny nz dx dy dz name g f Hf.
    assert (Hn : exists m, method_of name = Some m).
    { destruct (method_of name) as [m|] eqn:E; [exists m; reflexivity|].
      exfalso. unfold make_grf, per_axis, array_grid, set_sampling_method in Hf. cbn in Hf. rewrite E in Hf. discriminate. }
    destruct Hn as (m & Hm). rewrite (make_per_axis _ _ _ _ _ _ _ _ _ _ m Hm) in Hf. inv Hf.
    split.
    - intros N.
      assert (C : call_sampler (Sampler m [nx; ny; nz] [Some nx; Some ny; Some nz]) [nx; ny; nz]
                  = Ok [Nat.min nx 3; Nat.min ny 3; Nat.min nz nx; ny; nz]).
      { transitivity (call_fft (Sampler MFFT [nx; ny; nz] [Some nx; Some ny; Some nz]) [nx; ny; nz]).
        - destruct N as [-> | [-> | ->]]; inv Hm; reflexivity.
        - rewrite fft_default. reflexivity. }
      unfold delivers, grf_sample, grf_noise. cbn [f_correlate f_grid].
      destruct (draw_many gauss (size [nx; ny; nz]) g) as [d g']. cbn [fst]. rewrite C. eexists. reflexivity.
    - intros ->. inv Hm. unfold grf_sample, grf_noise. cbn [f_correlate f_grid].
      destruct (draw_many gauss (size [nx; ny; nz]) g) as [d g']. cbn [fst].
      unfold call_sampler. cbn [s_method]. rewrite fftw_raises. reflexivity.
  Qed.

  Lemma C100_vector_lemma : forall lx ly lz nx ny nz dx dy dz name g l,
    In name documented -> (1 <= nx)%nat -> (1 <= ny)%nat -> (1 <= nz)%nat ->
    exists f, make_vector_grf (per_axis lx ly lz nx ny nz dx dy dz name) = Ok f /\
      (delivers [nx; ny; nz; 3%nat] (fst (grf_sample gauss numbers f (Some ([nx; ny; nz; 3%nat], l)) g))
       <-> name = "vf_fftw"%string).
  Proof.
    intros lx ly lz nx ny nz dx dy dz name g l Hn Hx Hy Hz.
    destruct (method_of_documented name Hn) as (m & Hm).
    unfold make_vector_grf. rewrite (make_per_axis _ _ _ _ _ _ _ _ _ _ m Hm).
    eexists. split; [reflexivity|].
    rewrite sample_given with (s := Sampler m [nx; ny; nz] [Some nx; Some ny; Some nz; None]) by reflexivity.
    cbn [fst].
    assert (A : forall k l', (match call_fft (Sampler k [nx; ny; nz] [Some nx; Some ny; Some nz; None]) [nx; ny; nz; 3%nat]
                        with Ok sh => Ok (sh, numbers (Sampler k [nx; ny; nz] [Some nx; Some ny; Some nz; None]) ([nx; ny; nz; 3%nat], l)) | Err e => Err e end) <> Ok ([nx; ny; nz; 3%nat], l')).
    { intros k l' E. unfold call_fft in E. cbn [s_grid s_slice] in E.
      destruct (broadcast (spectrum_shape [nx; ny; nz]) [nx; ny; nz; 3%nat]) as [y | e] eqn:B;
        cbn [bind] in E; [|discriminate].
      apply broadcast_length in B. cbn [spectrum_shape firstn length Nat.max] in B.
      destruct (slice_array [Some nx; Some ny; Some nz; None] y) as [r | e] eqn:F; [|discriminate].
      apply slice_array_length in F. inv E. simpl in F, B. lia. }
    simpl in Hn. unfold delivers. split.
    - intros [l' E].
      destruct Hn as [<-|[<-|[<-|[<-|[<-|[]]]]]]; try reflexivity; inv Hm; exfalso.
      + exact (A MFFT l' E).
      + unfold call_sampler in E. cbn [s_method] in E. rewrite fftw_raises in E. discriminate.
      + exact (A MDST l' E).
      + exact (A MDCT l' E).
    - intros ->. inv Hm. unfold call_sampler. cbn [s_method]. rewrite vf_three. eexists. reflexivity.
  Qed.

  Lemma C101_refuted_lemma : forall lx ly lz nx ny nz dx dy dz g,
    (1 <= nx)%nat -> (1 <= ny)%nat -> (1 <= nz)%nat -> (1 < nx * ny * nz)%nat ->
    exists f e, make_vector_grf (per_axis lx ly lz nx ny nz dx dy dz "vf_fftw") = Ok f /\
                fst (grf_sample gauss numbers f None g) = Err e.
  Proof.
    intros lx ly lz nx ny nz dx dy dz g Hx Hy Hz H.
    destruct (vf_default nx ny nz [Some nx; Some ny; Some nz; None] Hx Hy Hz H) as (e & E).
    unfold make_vector_grf. rewrite (make_per_axis _ _ _ _ _ _ _ _ _ "vf_fftw"%string MVF eq_refl).
    eexists. exists e. split; [reflexivity|].
    unfold grf_sample, grf_noise. cbn [f_correlate f_grid f_slice s_method s_grid].
    destruct (draw_many gauss (size [nx; ny; nz]) g) as [d g']. cbn [fst].
    unfold call_sampler. cbn [s_method app]. rewrite E. reflexivity.
  Qed.

  Lemma C101_given_noise_lemma : forall lx ly lz nx ny nz dx dy dz g l,
    exists f, make_vector_grf (per_axis lx ly lz nx ny nz dx dy dz "vf_fftw") = Ok f /\
              delivers [nx; ny; nz; 3%nat] (fst (grf_sample gauss numbers f (Some ([nx; ny; nz; 3%nat], l)) g)) /\
              delivers [nx; ny; nz; 3%nat] (Ok (fst (grf_noise gauss f (Some [nx; ny; nz; 3%nat]) g))).
  Proof.
    intros lx ly lz nx ny nz dx dy dz g l.
    unfold make_vector_grf. rewrite (make_per_axis _ _ _ _ _ _ _ _ _ "vf_fftw"%string MVF eq_refl).
    eexists. split; [reflexivity|]. split.
    - unfold grf_sample. cbn [f_correlate f_grid f_slice s_method s_grid fst app].
      unfold call_sampler. cbn [s_method]. rewrite vf_three. eexists. reflexivity.
    - unfold grf_noise. destruct (draw_many gauss (size [nx; ny; nz; 3%nat]) g) as [d g'].
      eexists. reflexivity.
  Qed.

  (** ** Noise stream and reseeding *)

  Lemma draw_many_stream : forall n g, fst (draw_many gauss n g) = stream gauss n g.
  Proof.
    induction n as [| n IH]; intros g; [reflexivity|].
    simpl. destruct (gauss g) as [x g1]. simpl. specialize (IH g1).
    destruct (draw_many gauss n g1) as [l g2]. simpl in *. rewrite IH. reflexivity.
  Qed.

  Lemma stream_app : forall n m g, stream gauss (n + m) g = stream gauss n g ++ stream gauss m (snd (draw_many gauss n g)).
  Proof.
    induction n as [| n IH]; intros m g; [reflexivity|].
    simpl. rewrite IH. destruct (gauss g) as [x g1]. simpl.
    destruct (draw_many gauss n g1) as [l g2]. reflexivity.
  Qed.

  Lemma grf_noise_stream : forall f sh g,
    fst (grf_noise gauss f (Some sh) g) = (sh, map (fun x => x * f_std f) (stream gauss (size sh) g)) /\
    snd (grf_noise gauss f (Some sh) g) = snd (draw_many gauss (size sh) g).
  Proof.
    intros f sh g. unfold grf_noise. rewrite <- draw_many_stream.
    destruct (draw_many gauss (size sh) g) as [l g']. split; reflexivity.
  Qed.

  Lemma size_entries : forall sh, size sh = entries sh.
  Proof. intros sh. unfold size, entries. symmetry. apply fold_symmetric; intros; lia. Qed.

  Lemma stream_length : forall n g, length (stream gauss n g) = n.
  Proof. induction n as [|n IH]; intros g; [reflexivity|]. cbn [stream length]. rewrite IH. reflexivity. Qed.

  Lemma C105_stream_lemma : forall f s sh1 sh2 g,
    forall f' g' r, grf_run gauss seeded numbers f g [CReseed s; CNoise (Some sh1); CNoise (Some sh2)] = (f', g', r) ->
    exists x1 x2, r = [Ok None; Ok (Some (sh1, x1)); Ok (Some (sh2, x2))] /\ length x1 = entries sh1 /\ length x2 = entries sh2 /\
      x1 ++ x2 = map (fun x => x * f_std f) (stream gauss (entries sh1 + entries sh2) (seeded s)).
  Proof.
    intros f s sh1 sh2 g f' g' r H. rewrite <- !size_entries.
    cbn [grf_run grf_step] in H. unfold grf_reseed in H.
    destruct (grf_noise_stream f sh1 (seeded s)) as [A1 A2].
    destruct (grf_noise gauss f (Some sh1) (seeded s)) as [y1 g1]. cbn [fst snd] in A1, A2. subst y1 g1.
    destruct (grf_noise_stream f sh2 (snd (draw_many gauss (size sh1) (seeded s)))) as [B1 B2].
    destruct (grf_noise gauss f (Some sh2) _) as [y2 g2]. cbn [fst snd] in B1, B2. subst y2 g2.
    inv H. eexists; eexists. split; [reflexivity|]. split; [rewrite map_length; apply stream_length|]. split; [rewrite map_length; apply stream_length|].
    rewrite <- map_app, <- stream_app. reflexivity.
  Qed.

  (** Two fields which behave alike: they may differ in the reported method only. *)
  Definition alike (f1 f2 : grf) : Prop :=
    f_ndim f1 = f_ndim f2 /\ f_grid f1 = f_grid f2 /\ f_lengths f1 = f_lengths f2 /\
    f_slice f1 = f_slice f2 /\ f_std f1 = f_std f2 /\ f_correlate f1 = f_correlate f2.

  Lemma alike_step : forall f1 f2 g c, alike f1 f2 ->
    exists f1' f2' g' r, grf_step gauss seeded numbers f1 g c = (f1', g', r) /\
                         grf_step gauss seeded numbers f2 g c = (f2', g', r) /\ alike f1' f2'.
  Proof.
    intros f1 f2 g c H. destruct f1 as [d1 gr1 L1 sl1 st1 m1 c1], f2 as [d2 gr2 L2 sl2 st2 m2 c2].
    unfold alike in H. cbn in H. destruct H as (-> & -> & -> & -> & -> & ->).
    assert (Nz : forall sh, grf_noise gauss (Grf d2 gr2 L2 sl2 st2 m1 c2) sh g = grf_noise gauss (Grf d2 gr2 L2 sl2 st2 m2 c2) sh g) by reflexivity.
    destruct c as [sh | noise | name | s]; unfold grf_step.
    - rewrite Nz. destruct (grf_noise _ (Grf d2 gr2 L2 sl2 st2 m2 c2) sh g) as [x g'].
      do 4 eexists. split; [reflexivity|]. split; [reflexivity|]. unfold alike. tauto.
    - assert (S : grf_sample gauss numbers (Grf d2 gr2 L2 sl2 st2 m1 c2) noise g = grf_sample gauss numbers (Grf d2 gr2 L2 sl2 st2 m2 c2) noise g) by reflexivity.
      rewrite S. destruct (grf_sample gauss numbers (Grf d2 gr2 L2 sl2 st2 m2 c2) noise g) as [x g'].
      do 4 eexists. split; [reflexivity|]. split; [reflexivity|]. unfold alike. tauto.
    - unfold set_sampling_method. cbn [f_ndim f_grid f_lengths f_slice f_std f_correlate].
      destruct (method_of name) as [m|].
      + destruct (spectrum_check gr2 d2) as [u | e];
          (do 4 eexists; split; [reflexivity|]; split; [reflexivity|]; unfold alike; tauto).
      + do 4 eexists. split; [reflexivity|]. split; [reflexivity|]. unfold alike. tauto.
    - do 4 eexists. split; [reflexivity|]. split; [reflexivity|]. unfold alike. tauto.
  Qed.

  Lemma alike_run : forall cs f1 f2 g, alike f1 f2 ->
    exists f1' f2' g' r, grf_run gauss seeded numbers f1 g cs = (f1', g', r) /\
                         grf_run gauss seeded numbers f2 g cs = (f2', g', r) /\ alike f1' f2'.
  Proof.
    induction cs as [| c cs IH]; intros f1 f2 g H.
    - do 4 eexists. split; [reflexivity|]. split; [reflexivity|]. exact H.
    - destruct (alike_step f1 f2 g c H) as (a & b & g' & r & E1 & E2 & K).
      destruct (IH a b g' K) as (a' & b' & g'' & rs & F1 & F2 & K').
      simpl. rewrite E1, E2, F1, F2. do 4 eexists. split; [reflexivity|]. split; [reflexivity|]. exact K'.
  Qed.

  Lemma keeps_alike : forall f g c, keeps_method c -> alike f (fst (fst (grf_step gauss seeded numbers f g c))).
  Proof.
    intros f g c H. destruct c as [sh | noise | name | s]; unfold grf_step.
    - destruct (grf_noise gauss f sh g). unfold alike. tauto.
    - destruct (grf_sample gauss numbers f noise g). unfold alike. tauto.
    - unfold set_sampling_method. rewrite (method_of_unknown name H). unfold alike. cbn. tauto.
    - unfold alike. tauto.
  Qed.

  Lemma alike_trans : forall a b c, alike a b -> alike b c -> alike a c.
  Proof. unfold alike. intros a b c (?&?&?&?&?&?) (?&?&?&?&?&?). repeat split; congruence. Qed.

  Lemma keeps_alike_run : forall cs f g, List.Forall keeps_method cs -> alike f (fst (fst (grf_run gauss seeded numbers f g cs))).
  Proof.
    induction cs as [| c cs IH]; intros f g H; [unfold alike; cbn; tauto|].
    inv H. simpl. pose proof (keeps_alike f g c H2) as K.
    destruct (grf_step gauss seeded numbers f g c) as [[f1 g1] r]. cbn in K.
    specialize (IH f1 g1 H3). destruct (grf_run gauss seeded numbers f1 g1 cs) as [[f2 g2] rs]. cbn in *.
    exact (alike_trans _ _ _ K IH).
  Qed.

  Lemma grf_run_app : forall cs ds f g,
    grf_run gauss seeded numbers f g (cs ++ ds) =
    (let '(f1, g1, r1) := grf_run gauss seeded numbers f g cs in
     let '(f2, g2, r2) := grf_run gauss seeded numbers f1 g1 ds in (f2, g2, r1 ++ r2)).
  Proof.
    induction cs as [| c cs IH]; intros ds f g.
    - simpl. destruct (grf_run gauss seeded numbers f g ds) as [[? ?] ?]. reflexivity.
    - simpl. destruct (grf_step gauss seeded numbers f g c) as [[f1 g1] r]. rewrite IH.
      destruct (grf_run gauss seeded numbers f1 g1 cs) as [[f2 g2] r2].
      destruct (grf_run gauss seeded numbers f2 g2 ds) as [[f3 g3] r3]. reflexivity.
  Qed.

  Lemma C105_reseed_lemma : forall f pre pre' cs s g g',
    List.Forall keeps_method pre -> List.Forall keeps_method pre' ->
    skipn (length pre) (snd (grf_run gauss seeded numbers f g (pre ++ CReseed s :: cs))) =
    skipn (length pre') (snd (grf_run gauss seeded numbers f g' (pre' ++ CReseed s :: cs))).
  Proof.
    assert (L : forall cs f g, length (snd (grf_run gauss seeded numbers f g cs)) = length cs).
    { induction cs as [| c cs IH]; intros f g; [reflexivity|].
      simpl. destruct (grf_step gauss seeded numbers f g c) as [[f1 g1] r]. specialize (IH f1 g1).
      destruct (grf_run gauss seeded numbers f1 g1 cs) as [[f2 g2] rs]. simpl in *. congruence. }
    assert (A : forall f pre cs s g, List.Forall keeps_method pre ->
      skipn (length pre) (snd (grf_run gauss seeded numbers f g (pre ++ CReseed s :: cs))) =
      snd (grf_run gauss seeded numbers f g (CReseed s :: cs))).
    { intros f pre cs s g Hp. rewrite grf_run_app.
      pose proof (keeps_alike_run pre f g Hp) as K. specialize (L pre f g).
      destruct (grf_run gauss seeded numbers f g pre) as [[f1 g1] r1]. cbn [fst snd] in K, L.
      destruct (alike_run cs f f1 (seeded s) K) as (a & b & g2 & r & E1 & E2 & _).
      cbn [grf_run grf_step]. unfold grf_reseed. rewrite E1, E2. cbn [snd].
      rewrite <- L, skipn_app, skipn_all, Nat.sub_diag. reflexivity. }
    intros f pre pre' cs s g g' Hp Hp'. rewrite (A f pre cs s g Hp), (A f pre' cs s g' Hp').
    cbn [grf_run grf_step]. unfold grf_reseed. destruct (grf_run gauss seeded numbers f (seeded s) cs) as [[a b] c]. reflexivity.
  Qed.

  Lemma C105_given_noise_lemma : forall f x g g',
    snd (grf_sample gauss numbers f (Some x) g) = g /\
    fst (grf_sample gauss numbers f (Some x) g) = fst (grf_sample gauss numbers f (Some x) g').
  Proof. intros f x g g'. unfold grf_sample. destruct (f_correlate f); split; reflexivity. Qed.

  Lemma C103_refuted_lemma : forall a f g name old, make_grf a = Ok f -> ~ In name documented ->
    old = f_method f ->
    exists f', grf_step gauss seeded numbers f g (CMethod name) = (f', g, Err GenericException) /\
               f_method f' = name /\ f_method f' <> old.
  Proof.
    intros a f g name old Hf Hn ->.
    assert (D : In (f_method f) documented).
    { unfold make_grf in Hf.
      destruct (match ga_level a with LScalar _ => _ | LArray _ => _ end) as [hLg | e]; cbn [bind] in Hf; [|discriminate].
      destruct (domain_slice (snd (snd hLg)) (ga_ndim a)) as [sl | e]; cbn [bind] in Hf; [|discriminate].
      unfold set_sampling_method in Hf. cbn [f_ndim f_grid f_lengths f_slice f_std f_correlate] in Hf.
      destruct (in_dec String.string_dec (ga_method a) documented) as [I | N].
      - destruct (method_of (ga_method a)) as [m|]; [|discriminate].
        destruct (spectrum_check (snd (snd hLg)) (ga_ndim a)); cbn [bind] in Hf; [|discriminate].
        inv Hf. exact I.
      - rewrite (method_of_unknown _ N) in Hf. discriminate. }
    unfold grf_step, set_sampling_method. rewrite (method_of_unknown name Hn).
    eexists. split; [reflexivity|]. split; [reflexivity|]. cbn. intros E. subst name. exact (Hn D).
  Qed.

  Lemma C103_partial_lemma : forall f g name cs, ~ In name documented ->
    skipn 1 (snd (grf_run gauss seeded numbers f g (CMethod name :: cs))) = snd (grf_run gauss seeded numbers f g cs).
  Proof.
    intros f g name cs Hn. cbn [grf_run].
    pose proof (keeps_alike f g (CMethod name) Hn) as K.
    assert (E : exists f' r, grf_step gauss seeded numbers f g (CMethod name) = (f', g, r)).
    { unfold grf_step. destruct (set_sampling_method f name) as [r f']. do 2 eexists. reflexivity. }
    destruct E as (f' & r & E). rewrite E in *. cbn [fst] in K.
    destruct (alike_run cs f f' g K) as (a & b & g2 & rs & E1 & E2 & _).
    rewrite E1, E2. reflexivity.
  Qed.

End Values.

(** ** Amplitude and extent *)

Lemma pow2_pos1 : forall n, 0 < 2 ^ n + 1.
Proof. intros n. pose proof (pow_lt 2 n ltac:(lra)). lra. Qed.

Lemma per_axis_distance : forall lx ly lz nx ny nz dx dy dz name f, (1 <= nx)%nat -> (1 <= ny)%nat -> (1 <= nz)%nat ->
  make_grf (per_axis lx ly lz nx ny nz dx dy dz name) = Ok f ->
  node_distance f = [dx / (2 ^ lx + 1); dy / (2 ^ ly + 1); dz / (2 ^ lz + 1)] /\
  f_std f = sqrt (Rprod [dx / (2 ^ lx + 1); dy / (2 ^ ly + 1); dz / (2 ^ lz + 1)]) /\
  f_grid f = [nx; ny; nz] /\
  f_lengths f = [dx / (2 ^ lx + 1) * INR nx; dy / (2 ^ ly + 1) * INR ny; dz / (2 ^ lz + 1) * INR nz].
Proof.
  intros lx ly lz nx ny nz dx dy dz name f Hx Hy Hz Hf.
  assert (Hn : exists m, method_of name = Some m).
  { destruct (method_of name) as [m|] eqn:E; [exists m; reflexivity|].
    exfalso. unfold make_grf, per_axis, array_grid, set_sampling_method in Hf. cbn in Hf. rewrite E in Hf. discriminate. }
  destruct Hn as (m & Hm). rewrite (make_per_axis _ _ _ _ _ _ _ _ _ _ m Hm) in Hf. inv Hf.
  split; [|split; [reflexivity|split; reflexivity]].
  unfold node_distance. cbn [f_lengths f_grid combine map fst snd].
  pose proof (pow2_pos1 lx). pose proof (pow2_pos1 ly). pose proof (pow2_pos1 lz).
  assert (INR nx <> 0) by (apply not_0_INR; lia).
  assert (INR ny <> 0) by (apply not_0_INR; lia).
  assert (INR nz <> 0) by (apply not_0_INR; lia).
  f_equal; [field; split; lra|]. f_equal; [field; split; lra|]. f_equal. field; split; lra.
Qed.

Lemma C102_per_axis_lemma : forall lx ly lz nx ny nz dx dy dz name f,
  (1 <= nx)%nat -> (1 <= ny)%nat -> (1 <= nz)%nat -> 0 < dx -> 0 < dy -> 0 < dz ->
  make_grf (per_axis lx ly lz nx ny nz dx dy dz name) = Ok f ->
  (f_std f) ^ 2 = Rprod (node_distance f) /\ 0 < f_std f.
Proof.
  intros lx ly lz nx ny nz dx dy dz name f Hx Hy Hz Px Py Pz Hf.
  destruct (per_axis_distance _ _ _ _ _ _ _ _ _ _ f Hx Hy Hz Hf) as (-> & -> & _ & _).
  assert (P : 0 < Rprod [dx / (2 ^ lx + 1); dy / (2 ^ ly + 1); dz / (2 ^ lz + 1)]).
  { unfold Rprod. cbn [fold_right].
    repeat apply Rmult_lt_0_compat; try assumption; try (apply Rinv_0_lt_compat, pow2_pos1); lra. }
  split; [|apply sqrt_lt_R0, P].
  apply pow2_sqrt. lra.
Qed.

Lemma scalar_distance : forall l n dims name f, (1 <= n)%nat ->
  make_grf (scalar_args l n dims name) = Ok f ->
  node_distance f = [1 / 2 ^ l; 1 / 2 ^ l; 1 / 2 ^ l] /\ f_std f = sqrt (1 / 2 ^ l) /\
  f_lengths f = [1 / 2 ^ l * INR n; 1 / 2 ^ l * INR n; 1 / 2 ^ l * INR n].
Proof.
  intros l n dims name f Hn Hf.
  assert (Hm : exists m, method_of name = Some m).
  { destruct (method_of name) as [m|] eqn:E; [exists m; reflexivity|].
    exfalso. unfold make_grf, scalar_args, scalar_grid, set_sampling_method in Hf. cbn in Hf. rewrite E in Hf. discriminate. }
  destruct Hm as (m & Hm). rewrite (make_scalar _ _ _ _ m Hm) in Hf. inv Hf.
  split; [|split; [|reflexivity]].
  - unfold node_distance. cbn [f_lengths f_grid combine map fst snd].
    assert (INR n <> 0) by (apply not_0_INR; lia).
    pose proof (pow_lt 2 l ltac:(lra)).
    assert (E : 1 / 2 ^ l * INR n / INR n = 1 / 2 ^ l) by (field; split; lra).
    rewrite E. reflexivity.
  - cbn [f_std Rprod fold_right]. rewrite Rmult_1_r. reflexivity.
Qed.

Lemma C102_refuted_lemma : forall l n dims name f, (1 <= n)%nat ->
  make_grf (scalar_args l n dims name) = Ok f ->
  ((f_std f) ^ 2 = Rprod (node_distance f) <-> l = 0%nat).
Proof.
  intros l n dims name f Hn Hf. destruct (scalar_distance _ _ _ _ f Hn Hf) as (-> & -> & _).
  pose proof (pow_lt 2 l ltac:(lra)) as P.
  assert (Q : 0 < 1 / 2 ^ l) by (apply Rdiv_lt_0_compat; lra).
  rewrite pow2_sqrt by lra.
  unfold Rprod. cbn [fold_right]. split.
  - intros E. destruct l as [| l]; [reflexivity|]. exfalso.
    assert (E2 : (1 / 2 ^ S l) * (1 - (1 / 2 ^ S l) * (1 / 2 ^ S l)) = 0) by lra.
    apply Rmult_integral in E2. destruct E2 as [E2 | E2]; [lra|].
    assert (B : 1 / 2 ^ S l < 1).
    { apply Rmult_lt_reg_r with (2 ^ S l); [exact P|].
      unfold Rdiv. rewrite Rmult_assoc, Rinv_l by lra. rewrite !Rmult_1_l.
      simpl. pose proof (pow_R1_Rle 2 l ltac:(lra)). lra. }
    assert ((1 / 2 ^ S l) * (1 / 2 ^ S l) < 1 * 1).
    { apply Rmult_le_0_lt_compat; lra. }
    lra.
  - intros ->. simpl. lra.
Qed.

Lemma C106_per_axis_lemma : forall lx ly lz dx dy dz name f,
  make_grf (per_axis lx ly lz (nodes lx) (nodes ly) (nodes lz) dx dy dz name) = Ok f -> f_lengths f = [dx; dy; dz].
Proof.
  intros lx ly lz dx dy dz name f Hf.
  assert (N : forall k, (1 <= nodes k)%nat) by (intros k; unfold nodes; lia).
  destruct (per_axis_distance _ _ _ _ _ _ _ _ _ _ f (N lx) (N ly) (N lz) Hf) as (_ & _ & _ & ->).
  assert (E : forall k, INR (nodes k) = 2 ^ k + 1).
  { intros k. unfold nodes. rewrite plus_INR, pow_INR. simpl. reflexivity. }
  rewrite !E. pose proof (pow2_pos1 lx). pose proof (pow2_pos1 ly). pose proof (pow2_pos1 lz).
  f_equal; [field; lra|]. f_equal; [field; lra|]. f_equal. field; lra.
Qed.

Lemma C106_refuted_lemma : forall l n dims name, (1 <= n)%nat -> In name documented ->
  exists f, make_grf (scalar_args l n dims name) = Ok f /\
            f_lengths f = [INR n / 2 ^ l; INR n / 2 ^ l; INR n / 2 ^ l].
Proof.
  intros l n dims name Hn Hd. destruct (method_of_documented name Hd) as (m & Hm).
  eexists. split; [apply make_scalar, Hm|]. cbn [f_lengths].
  assert (E : 1 / 2 ^ l * INR n = INR n / 2 ^ l) by (pose proof (pow_lt 2 l ltac:(lra)); field; lra).
  rewrite E. reflexivity.
Qed.

Lemma C104_refuted_lemma : forall level dims ndim name, exists e,
  make_grf (GrfArgs level SNone dims ndim name) = Err e.
Proof.
  intros level dims ndim name. unfold make_grf. cbn [ga_level ga_shape ga_dims ga_ndim].
  destruct level as [l | l].
  - eexists. reflexivity.
  - unfold array_grid.
    destruct (negb (length dims =? 3)%nat); [eexists; reflexivity|].
    destruct (negb (length l =? 3)%nat); eexists; reflexivity.
Qed.
