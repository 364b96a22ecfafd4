(** Proofs about the plotted data. *)

From Coq Require Import Reals List ZArith Bool Lia Lra.
From Verif Require Import Prelude GenModel GenSpec WindModel WindSpec.
Import ListNotations.
Open Scope R_scope.

Lemma concat_uniform : forall A (l : list (list A)) n, Forall (fun r => length r = n) l ->
  length (concat l) = (length l * n)%nat
  /\ forall i k r, nth_error l i = Some r -> (k < n)%nat -> nth_error (concat l) (i * n + k) = nth_error r k.
Proof.
  intros A l n H. induction H as [|r0 l Hr Hl [IHl IHn]]; [split; [reflexivity|intros i k r E; destruct i; discriminate]|].
  cbn [concat length]. split; [rewrite app_length, IHl, Hr; lia|].
  intros i k r E Hk. destruct i as [|i].
  - cbn in E. injection E as <-. cbn [Nat.mul Nat.add]. apply nth_error_app1. lia.
  - cbn in E. rewrite nth_error_app2 by (rewrite Hr; lia). rewrite Hr. rewrite <- (IHn i k r E Hk). f_equal. lia.
Qed.

(** An array of given extents. *)
Definition extents3 {A : Type} (nx ny nz : nat) (a : array3 A) : Prop :=
  length a = nx /\ Forall (fun p => length p = ny /\ Forall (fun r => length r = nz) p) a.

Lemma extents3_entry : forall A nx ny nz (a : array3 A) i j k, extents3 nx ny nz a -> (i < nx)%nat -> (j < ny)%nat -> (k < nz)%nat ->
  exists v, entry3 a i j k = Some v.
Proof.
  intros A nx ny nz a i j k [Hl HF] Hi Hj Hk. unfold entry3. destruct (nth_error a i) as [p|] eqn:E; [|apply nth_error_None in E; lia].
  rewrite Forall_forall in HF. destruct (HF p (nth_error_In _ _ E)) as [Hp Hr].
  destruct (nth_error p j) as [r|] eqn:E2; [|apply nth_error_None in E2; lia].
  rewrite Forall_forall in Hr. pose proof (Hr r (nth_error_In _ _ E2)) as Hz.
  destruct (nth_error r k) as [v|] eqn:E3; [exists v; reflexivity|apply nth_error_None in E3; lia].
Qed.

Lemma flatten_spec : forall A nx ny nz (a : array3 A), extents3 nx ny nz a ->
  length (flatten a) = (nx * ny * nz)%nat
  /\ forall i j k, (i < nx)%nat -> (j < ny)%nat -> (k < nz)%nat -> nth_error (flatten a) (flat ny nz i j k) = entry3 a i j k.
Proof.
  intros A nx ny nz a [Hl HF]. unfold flatten.
  assert (H1 : Forall (fun r => length r = ny) a) by (eapply Forall_impl; [|exact HF]; intros p [H _]; exact H).
  destruct (concat_uniform _ a ny H1) as [L1 N1]. rewrite Hl in L1.
  assert (H2 : Forall (fun r => length r = nz) (concat a)).
  { rewrite Forall_forall. intros r Hr. apply in_concat in Hr. destruct Hr as (p & Hp & Hr). rewrite Forall_forall in HF.
    destruct (HF p Hp) as [_ H]. rewrite Forall_forall in H. apply H. exact Hr. }
  destruct (concat_uniform _ (concat a) nz H2) as [L2 N2]. rewrite L1 in L2. split; [exact L2|].
  intros i j k Hi Hj Hk. unfold flat, entry3.
  destruct (nth_error a i) as [p|] eqn:E; [|apply nth_error_None in E; lia].
  destruct (nth_error p j) as [r|] eqn:E2.
  - apply N2; [|exact Hk]. rewrite (N1 i j p E Hj). exact E2.
  - apply nth_error_None in E2. rewrite Forall_forall in H1. pose proof (H1 p (nth_error_In _ _ E)). lia.
Qed.

Lemma entry3_map : forall A B (h : A -> B) (a : array3 A) i j k, entry3 (map (map (map h)) a) i j k = option_map h (entry3 a i j k).
Proof.
  intros. unfold entry3. rewrite nth_error_map. destruct (nth_error a i) as [p|]; [|reflexivity]. cbn [option_map].
  rewrite nth_error_map. destruct (nth_error p j) as [r|]; [|reflexivity]. cbn [option_map]. apply nth_error_map.
Qed.

Lemma extents3_map : forall A B (h : A -> B) nx ny nz (a : array3 A), extents3 nx ny nz a -> extents3 nx ny nz (map (map (map h)) a).
Proof.
  intros A B h nx ny nz a [Hl HF]. split; [rewrite map_length; exact Hl|]. apply Forall_map. eapply Forall_impl; [|exact HF].
  intros p [Hp Hr]. split; [rewrite map_length; exact Hp|]. apply Forall_map. eapply Forall_impl; [|exact Hr]. intros r H. rewrite map_length. exact H.
Qed.

(** Meshgrid. *)
Lemma axis_length : forall h n, length (axis h n) = n.
Proof. intros. unfold axis. rewrite map_length, seq_length. reflexivity. Qed.

Lemma axis_nth : forall h n i, (i < n)%nat -> nth_error (axis h n) i = Some (h * INR i).
Proof.
  intros h n i Hi. unfold axis. rewrite nth_error_map. assert (E : nth_error (seq 0 n) i = Some i).
  { rewrite (nth_error_nth' _ 0%nat) by (rewrite seq_length; exact Hi). rewrite seq_nth by exact Hi. reflexivity. }
  rewrite E. reflexivity.
Qed.

Lemma grid_entries : forall hx hy hz nx ny nz X Y Z, create_grid (hx, hy, hz) (nx, ny, nz) = (X, Y, Z) ->
  (extents3 nx ny nz X /\ extents3 nx ny nz Y /\ extents3 nx ny nz Z)
  /\ forall i j k, (i < nx)%nat -> (j < ny)%nat -> (k < nz)%nat ->
     entry3 X i j k = Some (INR i * hx) /\ entry3 Y i j k = Some (INR j * hy) /\ entry3 Z i j k = Some (INR k * hz).
Proof.
  intros hx hy hz nx ny nz X Y Z E. unfold create_grid, meshgrid in E. injection E as <- <- <-.
  assert (HE : forall f : R -> R -> R -> R, extents3 nx ny nz (map (fun x => map (fun y => map (f x y) (axis hz nz)) (axis hy ny)) (axis hx nx))).
  { intros f. split; [rewrite map_length; apply axis_length|]. apply Forall_map, Forall_forall. intros x _. split; [rewrite map_length; apply axis_length|].
    apply Forall_map, Forall_forall. intros y _. rewrite map_length. apply axis_length. }
  assert (HN : forall f : R -> R -> R -> R, forall i j k, (i < nx)%nat -> (j < ny)%nat -> (k < nz)%nat ->
    entry3 (map (fun x => map (fun y => map (f x y) (axis hz nz)) (axis hy ny)) (axis hx nx)) i j k = Some (f (hx * INR i) (hy * INR j) (hz * INR k))).
  { intros f i j k Hi Hj Hk. unfold entry3. rewrite nth_error_map, (axis_nth _ _ _ Hi). cbn [option_map].
    rewrite nth_error_map, (axis_nth _ _ _ Hj). cbn [option_map]. rewrite nth_error_map, (axis_nth _ _ _ Hk). reflexivity. }
  split; [split; [apply (HE (fun x _ _ => x))|split; [apply (HE (fun _ y _ => y))|apply (HE (fun _ _ z => z))]]|].
  intros i j k Hi Hj Hk. split; [|split].
  - rewrite (HN (fun x _ _ => x) i j k Hi Hj Hk). f_equal. ring.
  - rewrite (HN (fun _ y _ => y) i j k Hi Hj Hk). f_equal. ring.
  - rewrite (HN (fun _ _ z => z) i j k Hi Hj Hk). f_equal. ring.
Qed.

(** Shapes. *)
Lemma shape_of_extents : forall A nx ny nz (f : array3 A), extents3 nx ny nz f -> (0 < nx)%nat -> (0 < ny)%nat -> shape_of f = (nx, ny, nz).
Proof.
  intros A nx ny nz f [Hl HF] Hx Hy. unfold shape_of. destruct f as [|p f]; [cbn in Hl; lia|]. inversion HF as [|? ? [Hp Hr] _]; subst. cbn [hd].
  destruct p as [|r p]; [cbn in Hy; lia|]. inversion Hr as [|? ? Hz _]; subst. reflexivity.
Qed.

Lemma shaped_extents : forall nx ny nz (f : field R), shaped nx ny nz f -> extents3 nx ny nz f.
Proof. intros nx ny nz f H. exact H. Qed.

(** Element-wise combination. *)
Lemma zip3_nth : forall A B (op : A -> A -> A -> B) a b c i,
  nth_error (zip3 op a b c) i = match nth_error a i, nth_error b i, nth_error c i with Some x, Some y, Some z => Some (op x y z) | _, _, _ => None end.
Proof.
  intros A B op a. unfold zip3. induction a as [|x a IH]; intros b c i.
  - destruct i; reflexivity.
  - destruct b as [|y b]; [destruct i; cbn; [reflexivity|destruct (nth_error a i); reflexivity]|].
    destruct c as [|z c]; [destruct i; cbn; [reflexivity|destruct (nth_error a i); [destruct (nth_error b i)|]; reflexivity]|].
    destruct i as [|i]; [reflexivity|]. cbn [combine map nth_error]. apply IH.
Qed.

Lemma zip3_length : forall A B (op : A -> A -> A -> B) a b c n, length a = n -> length b = n -> length c = n -> length (zip3 op a b c) = n.
Proof. intros. unfold zip3. rewrite map_length, !combine_length. lia. Qed.

Lemma zip3_In : forall A B (op : A -> A -> A -> B) a b c v, In v (zip3 op a b c) -> exists x y z, In x a /\ In y b /\ In z c /\ v = op x y z.
Proof.
  intros A B op a b c v H. unfold zip3 in H. apply in_map_iff in H. destruct H as ([x [y z]] & E & H). pose proof (in_combine_l _ _ _ _ H) as H1.
  pose proof (in_combine_r _ _ _ _ H) as H2. exists x, y, z. split; [exact H1|]. split; [apply (in_combine_l _ _ _ _ H2)|]. split; [apply (in_combine_r _ _ _ _ H2)|]. symmetry. exact E.
Qed.

Lemma combine3_spec : forall op nx ny nz a b c, extents3 nx ny nz a -> extents3 nx ny nz b -> extents3 nx ny nz c ->
  extents3 nx ny nz (combine3 op a b c)
  /\ forall i j k, entry3 (combine3 op a b c) i j k = match entry3 a i j k, entry3 b i j k, entry3 c i j k with Some x, Some y, Some z => Some (op x y z) | _, _, _ => None end.
Proof.
  intros op nx ny nz a b c [La Fa] [Lb Fb] [Lc Fc]. unfold combine3. split.
  - split; [apply zip3_length; assumption|]. rewrite Forall_forall in *. intros p Hp. apply zip3_In in Hp. destruct Hp as (x & y & z & Hx & Hy & Hz & ->).
    destruct (Fa x Hx) as [Lx Gx]. destruct (Fb y Hy) as [Ly Gy]. destruct (Fc z Hz) as [Lz Gz]. split; [apply zip3_length; assumption|].
    rewrite Forall_forall in *. intros r Hr. apply zip3_In in Hr. destruct Hr as (x' & y' & z' & Hx' & Hy' & Hz' & ->).
    apply zip3_length; [apply Gx|apply Gy|apply Gz]; assumption.
  - intros i j k. unfold entry3. rewrite zip3_nth.
    destruct (nth_error a i) as [p|] eqn:Ea; [|reflexivity].
    destruct (nth_error b i) as [q|] eqn:Eb; [|destruct (nth_error p j) as [p1|]; [destruct (nth_error p1 k)|]; reflexivity].
    destruct (nth_error c i) as [r|] eqn:Ec;
      [|destruct (nth_error p j) as [p1|]; [destruct (nth_error p1 k); [|reflexivity]|reflexivity]; destruct (nth_error q j) as [q1|]; [destruct (nth_error q1 k)|]; reflexivity].
    rewrite zip3_nth. destruct (nth_error p j) as [p1|]; [|reflexivity].
    destruct (nth_error q j) as [q1|]; [|destruct (nth_error p1 k); reflexivity].
    destruct (nth_error r j) as [r1|]; [|destruct (nth_error p1 k); [destruct (nth_error q1 k)|]; reflexivity]. apply zip3_nth.
Qed.

(** ** Plotted data *)

Lemma components_plotted : forall hx hy hz nx ny nz (f : field R), shaped nx ny nz f -> (0 < nx)%nat -> (0 < ny)%nat ->
  exists v0 v1 v2, plot_components (hx, hy, hz) f true = Ok [v0; v1; v2]
  /\ Forall (fun v => length (v_x v) = (nx * ny * nz)%nat /\ length (v_y v) = (nx * ny * nz)%nat /\ length (v_z v) = (nx * ny * nz)%nat
                      /\ length (v_value v) = (nx * ny * nz)%nat) [v0; v1; v2]
  /\ forall i j k, (i < nx)%nat -> (j < ny)%nat -> (k < nz)%nat ->
       let n := flat ny nz i j k in
       exists u w t, entry3 f i j k = Some (u, w, t)
       /\ nth_error (v_value v0) n = Some u /\ nth_error (v_value v1) n = Some w /\ nth_error (v_value v2) n = Some t
       /\ Forall (fun v => nth_error (v_x v) n = Some (INR i * hx) /\ nth_error (v_y v) n = Some (INR j * hy) /\ nth_error (v_z v) n = Some (INR k * hz)) [v0; v1; v2].
Proof.
  intros hx hy hz nx ny nz f HS Hx Hy. pose proof (shaped_extents _ _ _ _ HS) as HE. unfold plot_components. rewrite (shape_of_extents _ _ _ _ _ HE Hx Hy).
  destruct (create_grid (hx, hy, hz) (nx, ny, nz)) as [[X Y] Z] eqn:EG. destruct (grid_entries _ _ _ _ _ _ _ _ _ EG) as [(EX & EY & EZ) HN].
  cbn [formatted bind format_wind_field]. do 3 eexists. split; [reflexivity|].
  destruct (flatten_spec _ _ _ _ _ EX) as [LX FX]. destruct (flatten_spec _ _ _ _ _ EY) as [LY FY]. destruct (flatten_spec _ _ _ _ _ EZ) as [LZ FZ].
  destruct (flatten_spec _ _ _ _ _ (extents3_map _ _ (fun t : R * R * R => fst (fst t)) _ _ _ _ HE)) as [L0 F0].
  destruct (flatten_spec _ _ _ _ _ (extents3_map _ _ (fun t : R * R * R => snd (fst t)) _ _ _ _ HE)) as [L1 F1].
  destruct (flatten_spec _ _ _ _ _ (extents3_map _ _ (fun t : R * R * R => snd t) _ _ _ _ HE)) as [L2 F2].
  split; [repeat constructor; assumption|]. intros i j k Hi Hj Hk. cbv zeta. cbn [v_value v_x v_y v_z].
  destruct (extents3_entry _ _ _ _ _ i j k HE Hi Hj Hk) as [[[u w] t] EV]. exists u, w, t. split; [exact EV|].
  rewrite F0, F1, F2, !entry3_map, EV by assumption. cbn [option_map fst snd]. split; [reflexivity|]. split; [reflexivity|]. split; [reflexivity|].
  destruct (HN i j k Hi Hj Hk) as (A & B & C). repeat constructor; rewrite ?FX, ?FY, ?FZ by assumption; assumption.
Qed.

Lemma magnitude_plotted : forall hx hy hz nx ny nz (f : field R), shaped nx ny nz f -> (0 < nx)%nat -> (0 < ny)%nat ->
  exists v, plot_magnitude (hx, hy, hz) f true = Ok v
  /\ length (v_x v) = (nx * ny * nz)%nat /\ length (v_y v) = (nx * ny * nz)%nat /\ length (v_z v) = (nx * ny * nz)%nat /\ length (v_value v) = (nx * ny * nz)%nat
  /\ forall i j k, (i < nx)%nat -> (j < ny)%nat -> (k < nz)%nat ->
       let n := flat ny nz i j k in
       exists u w t, entry3 f i j k = Some (u, w, t)
       /\ nth_error (v_x v) n = Some (INR i * hx) /\ nth_error (v_y v) n = Some (INR j * hy) /\ nth_error (v_z v) n = Some (INR k * hz)
       /\ nth_error (v_value v) n = Some (sqrt (u^2 + w^2 + t^2)).
Proof.
  intros hx hy hz nx ny nz f HS Hx Hy. pose proof (shaped_extents _ _ _ _ HS) as HE. unfold plot_magnitude. rewrite (shape_of_extents _ _ _ _ _ HE Hx Hy).
  destruct (create_grid (hx, hy, hz) (nx, ny, nz)) as [[X Y] Z] eqn:EG. destruct (grid_entries _ _ _ _ _ _ _ _ _ EG) as [(EX & EY & EZ) HN].
  cbn [formatted bind format_wind_field]. eexists. split; [reflexivity|].
  destruct (flatten_spec _ _ _ _ _ EX) as [LX FX]. destruct (flatten_spec _ _ _ _ _ EY) as [LY FY]. destruct (flatten_spec _ _ _ _ _ EZ) as [LZ FZ].
  destruct (combine3_spec speed _ _ _ _ _ _ (extents3_map _ _ (fun t : R * R * R => fst (fst t)) _ _ _ _ HE) (extents3_map _ _ (fun t : R * R * R => snd (fst t)) _ _ _ _ HE)
             (extents3_map _ _ (fun t : R * R * R => snd t) _ _ _ _ HE)) as [EM NM].
  destruct (flatten_spec _ _ _ _ _ EM) as [LM FM]. cbn [v_value v_x v_y v_z].
  split; [exact LX|]. split; [exact LY|]. split; [exact LZ|]. split; [exact LM|]. intros i j k Hi Hj Hk. cbv zeta.
  destruct (extents3_entry _ _ _ _ _ i j k HE Hi Hj Hk) as [[[u w] t] EV]. exists u, w, t. split; [exact EV|].
  destruct (HN i j k Hi Hj Hk) as (A & B & C). rewrite FX, FY, FZ, FM by assumption. split; [exact A|]. split; [exact B|]. split; [exact C|].
  rewrite NM, !entry3_map, EV. reflexivity.
Qed.

(** The positions of a flattened array are pairwise different. *)
Lemma flat_inj : forall ny nz i j k i' j' k', (j < ny)%nat -> (k < nz)%nat -> (j' < ny)%nat -> (k' < nz)%nat ->
  flat ny nz i j k = flat ny nz i' j' k' -> i = i' /\ j = j' /\ k = k'.
Proof.
  intros ny nz i j k i' j' k' Hj Hk Hj' Hk' E. unfold flat in E.
  assert (E1 : (i * ny + j = i' * ny + j')%nat) by nia. assert (k = k') by nia. assert (i = i') by nia. subst. split; [reflexivity|]. split; lia.
Qed.

(** Every position of the flattened array is a node. *)
Lemma flat_onto : forall nx ny nz n, (n < nx * ny * nz)%nat -> exists i j k, (i < nx)%nat /\ (j < ny)%nat /\ (k < nz)%nat /\ n = flat ny nz i j k.
Proof.
  intros nx ny nz n Hn. assert (0 < ny)%nat by nia. assert (0 < nz)%nat by nia.
  exists (n / nz / ny)%nat, ((n / nz) mod ny)%nat, (n mod nz)%nat. pose proof (Nat.div_mod n nz ltac:(lia)). pose proof (Nat.div_mod (n / nz) ny ltac:(lia)).
  pose proof (Nat.mod_upper_bound n nz ltac:(lia)). pose proof (Nat.mod_upper_bound (n / nz) ny ltac:(lia)). unfold flat. split; [|split; [assumption|split; [assumption|nia]]].
  apply Nat.div_lt_upper_bound; [lia|]. apply Nat.div_lt_upper_bound; [lia|]. nia.
Qed.

(** Without reformatting, planes are taken for components. *)
Lemma unformatted_plane : forall nx ny nz (f : field R) i a, shaped nx ny nz f -> plane_of f i = Ok a -> extents3 ny nz 3 a.
Proof.
  intros nx ny nz f i a [Hl HF] E. unfold plane_of in E. destruct (nth_error f i) as [p|] eqn:Ep; [|discriminate]. injection E as <-.
  rewrite Forall_forall in HF. destruct (HF p (nth_error_In _ _ Ep)) as [Hp Hr]. split; [rewrite map_length; exact Hp|].
  apply Forall_map. eapply Forall_impl; [|exact Hr]. intros r H. split; [rewrite map_length; exact H|]. apply Forall_map, Forall_forall. intros [[u v] w] _. reflexivity.
Qed.

Lemma unformatted_short : forall spacing nx ny nz (f : field R), shaped nx ny nz f -> (nx < 3)%nat ->
  plot_components spacing f false = Err IndexError /\ plot_magnitude spacing f false = Err IndexError.
Proof.
  intros spacing nx ny nz f [Hl _] Hn. unfold plot_components, plot_magnitude, formatted. destruct (create_grid spacing (shape_of f)) as [[X Y] Z].
  assert (H : bind (plane_of f 0) (fun a => bind (plane_of f 1) (fun b => bind (plane_of f 2) (fun c => Ok (a, b, c)))) = Err IndexError).
  { destruct f as [|p0 [|p1 [|p2 f]]]; try reflexivity. cbn in Hl. lia. }
  rewrite H. split; reflexivity.
Qed.

Lemma unformatted_lengths : forall hx hy hz nx ny nz (f : field R), shaped nx ny nz f -> (3 <= nx)%nat -> (0 < ny)%nat ->
  exists v0 v1 v2, plot_components (hx, hy, hz) f false = Ok [v0; v1; v2]
  /\ length (v_x v0) = (nx * ny * nz)%nat /\ length (v_value v0) = (3 * ny * nz)%nat
  /\ forall j k u w t, (j < ny)%nat -> (k < nz)%nat -> entry3 f 0 j k = Some (u, w, t) ->
       nth_error (v_value v0) (flat nz 3 j k 0) = Some u /\ nth_error (v_value v0) (flat nz 3 j k 1) = Some w /\ nth_error (v_value v0) (flat nz 3 j k 2) = Some t.
Proof.
  intros hx hy hz nx ny nz f HS Hx Hy. pose proof (shaped_extents _ _ _ _ HS) as HE. unfold plot_components. rewrite (shape_of_extents _ _ _ _ _ HE) by lia.
  destruct (create_grid (hx, hy, hz) (nx, ny, nz)) as [[X Y] Z] eqn:EG. destruct (grid_entries _ _ _ _ _ _ _ _ _ EG) as [(EX & EY & EZ) HN].
  assert (HP : forall i, (i < nx)%nat -> exists a, plane_of f i = Ok a).
  { intros i Hi. unfold plane_of. destruct HS as [Hl _]. destruct (nth_error f i) as [p|] eqn:E; [eexists; reflexivity|]. apply nth_error_None in E. lia. }
  destruct (HP 0%nat ltac:(lia)) as [a Ea]. destruct (HP 1%nat ltac:(lia)) as [b Eb]. destruct (HP 2%nat ltac:(lia)) as [c Ec].
  cbn [formatted]. rewrite Ea. cbn [bind]. rewrite Eb. cbn [bind]. rewrite Ec. cbn [bind]. do 3 eexists. split; [reflexivity|]. cbn [v_x v_value].
  destruct (flatten_spec _ _ _ _ _ EX) as [LX _]. destruct (flatten_spec _ _ _ _ _ (unformatted_plane _ _ _ _ _ _ HS Ea)) as [LA FA].
  split; [exact LX|]. split; [rewrite LA; lia|]. intros j k u w t Hj Hk EV. rewrite !FA by lia.
  unfold plane_of in Ea. unfold entry3 in EV. destruct (nth_error f 0) as [p|]; [|discriminate]. injection Ea as <-.
  unfold entry3. rewrite nth_error_map. destruct (nth_error p j) as [r|]; [|discriminate]. cbn [option_map]. rewrite nth_error_map, EV. cbn. repeat split.
Qed.

Lemma grid_positions : forall hx hy hz nx ny nz, exists X Y Z, create_grid (hx, hy, hz) (nx, ny, nz) = (X, Y, Z)
  /\ forall i j k, (i < nx)%nat -> (j < ny)%nat -> (k < nz)%nat ->
     entry3 X i j k = Some (INR i * hx) /\ entry3 Y i j k = Some (INR j * hy) /\ entry3 Z i j k = Some (INR k * hz).
Proof.
  intros. destruct (create_grid (hx, hy, hz) (nx, ny, nz)) as [[X Y] Z] eqn:E. exists X, Y, Z. split; [reflexivity|]. apply (proj2 (grid_entries _ _ _ _ _ _ _ _ _ E)).
Qed.

Lemma format_entries : forall (f : field R) a b c i j k, format_wind_field f = (a, b, c) ->
  entry3 a i j k = option_map (fun t => fst (fst t)) (entry3 f i j k)
  /\ entry3 b i j k = option_map (fun t => snd (fst t)) (entry3 f i j k)
  /\ entry3 c i j k = option_map snd (entry3 f i j k).
Proof.
  intros f a b c i j k E. unfold format_wind_field in E. injection E as <- <- <-.
  split; [apply (entry3_map _ _ (fun t : R * R * R => fst (fst t)))|]. split; [apply (entry3_map _ _ (fun t : R * R * R => snd (fst t)))|apply (entry3_map _ _ (fun t : R * R * R => snd t))].
Qed.

Lemma unformatted_differs : forall hx hy hz nx ny nz (f : field R), shaped nx ny nz f -> (0 < nx)%nat -> (0 < ny)%nat -> (0 < nz)%nat ->
  (nx <> 3 \/ exists u w t s, entry3 f 0 0 0 = Some (u, w, t) /\ entry3 f 0 0 1 = Some s /\ fst (fst s) <> w)%nat ->
  plot_components (hx, hy, hz) f false <> plot_components (hx, hy, hz) f true.
Proof.
  intros hx hy hz nx ny nz f HS Hx Hy Hz HD E.
  destruct (components_plotted hx hy hz nx ny nz f HS Hx Hy) as (v0 & v1 & v2 & EF & HL & HN).
  destruct (Nat.lt_ge_cases nx 3) as [H3|H3].
  - destruct (unformatted_short (hx, hy, hz) nx ny nz f HS H3) as [EU _]. rewrite EU, EF in E. discriminate.
  - destruct (unformatted_lengths hx hy hz nx ny nz f HS H3 Hy) as (u0 & u1 & u2 & EU & LX & LV & HU). rewrite EU, EF in E. injection E as -> -> ->.
    inversion HL as [|? ? (_ & _ & _ & L0) _]; subst. destruct HD as [HD|(u & w & t & s & E0 & E1 & HD)]; [nia|].
    destruct HS as [_ HF]. assert (Hz1 : (1 < nz)%nat).
    { unfold entry3 in E1. destruct (nth_error f 0) as [p|] eqn:Ep; [|discriminate]. destruct (nth_error p 0) as [r|] eqn:Er; [|discriminate].
      rewrite Forall_forall in HF. destruct (HF p (nth_error_In _ _ Ep)) as [_ Hr]. rewrite Forall_forall in Hr. rewrite <- (Hr r (nth_error_In _ _ Er)).
      apply nth_error_Some. congruence. }
    destruct (HU 0%nat 0%nat u w t Hy Hz E0) as (_ & EW & _). destruct (HN 0%nat 0%nat 1%nat Hx Hy Hz1) as (a & b & c & EA & EV & _).
    unfold flat in *. cbn [Nat.mul Nat.add] in *. rewrite EW in EV. injection EV as ->. rewrite EA in E1. injection E1 as <-. apply HD. reflexivity.
Qed.
