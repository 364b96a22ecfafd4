(** Lemmas about exported fields. *)

From Coq Require Import Reals List Arith ZArith Lia Lra.
From Verif Require Import Prelude GenModel GenSpec GenProofs GenMore GenApi GenDemo VtkModel VtkSpec.
Import ListNotations.
Open Scope R_scope.

Lemma flat_map_block : forall A (g : nat -> list A) n m s q r, (forall i, length (g i) = m) -> (q < n)%nat -> (r < m)%nat ->
  nth_error (flat_map g (seq s n)) (r + m * q) = nth_error (g (s + q)%nat) r.
Proof.
  intros A g n m s q r Hg. revert s q. induction n as [|n IH]; intros s q Hq Hr; [lia|]. cbn [seq flat_map].
  destruct q as [|q].
  - rewrite Nat.mul_0_r, Nat.add_0_r, nth_error_app1 by (rewrite Hg; exact Hr). rewrite Nat.add_0_r. reflexivity.
  - rewrite nth_error_app2 by (rewrite Hg; nia). rewrite Hg. replace (r + m * S q - m)%nat with (r + m * q)%nat by nia.
    rewrite IH by lia. f_equal. f_equal. lia.
Qed.

Lemma flat_map_length : forall A (g : nat -> list A) n m s, (forall i, length (g i) = m) -> length (flat_map g (seq s n)) = (n * m)%nat.
Proof. intros A g n m s Hg. revert s. induction n as [|n IH]; intros s; [reflexivity|]. cbn [seq flat_map]. rewrite app_length, Hg, IH. lia. Qed.

Lemma fortran_length : forall A (d : A) nx ny nz f, length (fortran_order d nx ny nz f) = (nz * (ny * nx))%nat.
Proof.
  intros A d nx ny nz f. unfold fortran_order. apply flat_map_length. intros k. apply flat_map_length. intros j. rewrite map_length, seq_length. reflexivity.
Qed.

Lemma fortran_at : forall A (d : A) nx ny nz f i j k, (i < nx)%nat -> (j < ny)%nat -> (k < nz)%nat ->
  nth_error (fortran_order d nx ny nz f) (i + nx * (j + ny * k)) = Some (nth k (nth j (nth i f []) []) d).
Proof.
  intros A d nx ny nz f i j k Hi Hj Hk. unfold fortran_order.
  replace (i + nx * (j + ny * k))%nat with ((i + nx * j) + (ny * nx) * k)%nat by nia.
  rewrite flat_map_block; [|intros q; apply flat_map_length; intros p; rewrite map_length, seq_length; reflexivity|exact Hk|nia].
  rewrite flat_map_block; [|intros p; rewrite map_length, seq_length; reflexivity|exact Hj|exact Hi].
  rewrite nth_error_map, (nth_error_nth' _ 0%nat) by (rewrite seq_length; exact Hi). rewrite seq_nth by exact Hi. reflexivity.
Qed.

Lemma interleaved_at : forall A (a b c : list A) n, nth_error (interleaved a b c) (3 * n) = match nth_error a n, nth_error b n, nth_error c n with Some x, Some _, Some _ => Some x | _, _, _ => None end
  /\ nth_error (interleaved a b c) (3 * n + 1) = match nth_error a n, nth_error b n, nth_error c n with Some _, Some y, Some _ => Some y | _, _, _ => None end
  /\ nth_error (interleaved a b c) (3 * n + 2) = match nth_error a n, nth_error b n, nth_error c n with Some _, Some _, Some z => Some z | _, _, _ => None end.
Proof.
  intros A. unfold interleaved. induction a as [|x a IH]; intros b c n.
  - cbn [combine flat_map]. destruct n as [|n]; cbn [nth_error]; repeat split; apply nth_error_None; cbn; lia.
  - destruct b as [|y b].
    { cbn [combine flat_map]. rewrite (proj2 (nth_error_None [] n)) by (cbn; lia). destruct (nth_error (x :: a) n); repeat split; apply nth_error_None; cbn; lia. }
    destruct c as [|z c].
    { cbn [combine flat_map]. rewrite (proj2 (nth_error_None (@nil A) n)) by (cbn; lia). destruct (nth_error (x :: a) n), (nth_error (y :: b) n); repeat split; apply nth_error_None; cbn; lia. }
    cbn [combine flat_map app]. destruct n as [|n]; [cbn; auto|]. destruct (IH b c n) as (E0 & E1 & E2).
    replace (3 * S n)%nat with (S (S (S (3 * n)))) by lia. cbn [nth_error Nat.add]. rewrite <- E0, <- E1, <- E2. auto.
Qed.

Lemma vector_nth : forall (f : field xr) nx ny nz i j k, shaped nx ny nz f -> (i < nx)%nat -> (j < ny)%nat -> (k < nz)%nat ->
  exists p q v, nth_error f i = Some p /\ nth_error p j = Some q /\ nth_error q k = Some v /\ length p = ny /\ length q = nz.
Proof.
  intros f nx ny nz i j k (HL & HF) Hi Hj Hk.
  destruct (nth_error f i) as [p|] eqn:Ep; [|apply nth_error_None in Ep; lia].
  rewrite Forall_forall in HF. destruct (HF p (nth_error_In _ _ Ep)) as (Hp & HQ).
  destruct (nth_error p j) as [q|] eqn:Eq; [|apply nth_error_None in Eq; lia].
  rewrite Forall_forall in HQ. pose proof (HQ q (nth_error_In _ _ Eq)) as Hq.
  destruct (nth_error q k) as [v|] eqn:Ev; [|apply nth_error_None in Ev; lia].
  exists p, q, v. auto.
Qed.

Lemma nth_map3 : forall A B (h : A -> B) (f : list (list (list A))) i j k p q v d, nth_error f i = Some p -> nth_error p j = Some q -> nth_error q k = Some v ->
  nth k (nth j (nth i (map (map (map h)) f) []) []) d = h v.
Proof.
  intros A B h f i j k p q v d Hp Hq Hv.
  rewrite (nth_error_nth (map (map (map h)) f) i [] (x := map (map h) p)) by (rewrite nth_error_map, Hp; reflexivity).
  rewrite (nth_error_nth (map (map h) p) j [] (x := map h q)) by (rewrite nth_error_map, Hq; reflexivity).
  rewrite (nth_error_nth (map h q) k d (x := h v)) by (rewrite nth_error_map, Hv; reflexivity). reflexivity.
Qed.

Lemma written : forall (f : field xr) ny nz i j k p q r c, (i < length f)%nat -> (j < ny)%nat -> (k < nz)%nat ->
  nth_error f i = Some p -> nth_error p j = Some q -> nth_error q k = Some r -> (c < 3)%nat ->
  nth_error (interleaved (fortran_order (Fin 0) (length f) ny nz (map (map (map (fun v => fst (fst v)))) f))
                         (fortran_order (Fin 0) (length f) ny nz (map (map (map (fun v => snd (fst v)))) f))
                         (fortran_order (Fin 0) (length f) ny nz (map (map (map snd)) f))) (3 * (i + length f * (j + ny * k)) + c) = component r c.
Proof.
  intros f ny nz i j k p q r c Hi Hj Hk Ep Eq Er Hc.
  match goal with |- nth_error (interleaved ?U ?V ?W) _ = _ => destruct (interleaved_at xr U V W (i + length f * (j + ny * k))) as (A0 & A1 & A2) end.
  pose proof (fortran_at xr (Fin 0) _ _ _ (map (map (map (fun v => fst (fst v)))) f) i j k Hi Hj Hk) as F0. rewrite (nth_map3 _ _ _ f i j k p q r (Fin 0) Ep Eq Er) in F0.
  pose proof (fortran_at xr (Fin 0) _ _ _ (map (map (map (fun v => snd (fst v)))) f) i j k Hi Hj Hk) as F1. rewrite (nth_map3 _ _ _ f i j k p q r (Fin 0) Ep Eq Er) in F1.
  pose proof (fortran_at xr (Fin 0) _ _ _ (map (map (map snd)) f) i j k Hi Hj Hk) as F2. rewrite (nth_map3 _ _ _ f i j k p q r (Fin 0) Ep Eq Er) in F2.
  rewrite F0, F1, F2 in A0, A1, A2. destruct r as [[a b] d]. cbn [fst snd] in *.
  destruct c as [|[|[|c]]]; [rewrite Nat.add_0_r, A0|rewrite A1|rewrite A2|lia]; reflexivity.
Qed.

Lemma saved_cells : forall dims levels ny nz f i j k c, shaped (length f) ny nz f ->
  forall x, cell_component (save_to_vtk dims levels ny nz f) i j k c x <-> exists v, vector_at f i j k = Some v /\ component v c = Some x.
Proof.
  intros dims levels ny nz f i j k c HS x. unfold save_to_vtk. destruct (vtk_wind f) as [[u v] w] eqn:E. unfold vtk_wind in E. injection E as <- <- <-.
  unfold cell_component. cbn [vt_cells vt_wind]. split.
  - intros (Hi & Hj & Hk & Hc & H). destruct (vector_nth f _ ny nz i j k HS Hi Hj Hk) as (p & q & r & Ep & Eq & Er & _).
    exists r. unfold vector_at. rewrite Ep, Eq. split; [exact Er|]. rewrite (written f ny nz i j k p q r c Hi Hj Hk Ep Eq Er Hc) in H. exact H.
  - intros (r & HV & HC). unfold vector_at in HV. destruct (nth_error f i) as [p|] eqn:Ep; [|discriminate]. destruct (nth_error p j) as [q|] eqn:Eq; [|discriminate].
    assert (Hi : (i < length f)%nat) by (apply nth_error_Some; congruence).
    destruct HS as (_ & HF). rewrite Forall_forall in HF. destruct (HF p (nth_error_In _ _ Ep)) as (Hp & HQ). rewrite Forall_forall in HQ. pose proof (HQ q (nth_error_In _ _ Eq)) as Hq.
    assert (Hj : (j < ny)%nat) by (rewrite <- Hp; apply nth_error_Some; congruence).
    assert (Hk : (k < nz)%nat) by (rewrite <- Hq; apply nth_error_Some; congruence).
    assert (Hc : (c < 3)%nat) by (destruct r as [[a b] d]; destruct c as [|[|[|c]]]; [lia|lia|lia|discriminate]).
    do 4 (split; [assumption|]). rewrite (written f ny nz i j k p q r c Hi Hj Hk Ep Eq HV Hc). exact HC.
Qed.

Lemma saved_length : forall dims levels ny nz f, length (vt_wind (save_to_vtk dims levels ny nz f)) = (3 * (nz * (ny * length f)))%nat.
Proof.
  intros dims levels ny nz f. unfold save_to_vtk. destruct (vtk_wind f) as [[u v] w]. cbn [vt_wind]. unfold interleaved.
  set (l := combine _ _). assert (HL : length l = (nz * (ny * length f))%nat) by (subst l; rewrite !combine_length, !fortran_length; lia).
  rewrite <- HL. clearbody l. clear. induction l as [|[x [y z]] l IH]; [reflexivity|]. cbn [flat_map app length]. rewrite IH. lia.
Qed.

Section Histories.
  Context {G : Type} (gauss : G -> R * G).

  Lemma reached_more : forall gn0 gn n a, reached gauss gn0 gn -> reached gauss gn0 (snd (gen_call G gauss n a gn)).
  Proof.
    intros gn0 gn n a (calls & ->). exists (calls ++ [(n, a)]).
    revert gn0. induction calls as [|[n1 a1] calls IH]; intros gn0.
    - cbn [gen_calls app snd]. destruct (gen_call G gauss n a gn0) as [r g1]. reflexivity.
    - cbn [gen_calls app]. destruct (gen_call G gauss n1 a1 gn0) as [r g1]. specialize (IH g1).
      destruct (gen_calls G gauss calls g1) as [rs g2]. destruct (gen_calls G gauss (calls ++ [(n, a)]) g1) as [rs' g3]. cbn [snd] in *. exact IH.
  Qed.

  Lemma calls_count : forall gn0 g0 calls gn, usable gn0 -> fresh gn0 g0 -> reached gauss gn0 gn -> all_ok (fst (gen_calls G gauss calls gn)) ->
    length (s_total (gen_state G (snd (gen_calls G gauss calls gn)))) = (length (s_total (gen_state G gn)) + requested calls * g_Nx (gen_geo G gn0))%nat.
  Proof.
    intros gn0 g0 calls gn Hu Hf. revert gn. induction calls as [|[n a] calls IH]; intros gn HR HO.
    - cbn. lia.
    - destruct (call_appends G gauss gn0 gn g0 n a Hu Hf HR) as (m & new & _ & ET & HS & HM).
      pose proof (reached_more gn0 gn n a HR) as HR1. cbn [gen_calls] in *. destruct (gen_call G gauss n a gn) as [r g1]. cbn [fst snd] in *.
      specialize (IH g1 HR1). destruct (gen_calls G gauss calls g1) as [rs g2]. cbn [fst snd] in *. inversion HO as [|? ? (v & Hr) HO']; subst.
      destruct HM as (-> & _). rewrite (IH HO'), ET, app_length. destruct HS as (-> & _).
      change (requested ((n, a) :: calls)) with (Z.to_nat n + requested calls)%nat. lia.
  Qed.
End Histories.

(** The exported file after any history. *)
Lemma exported : forall stored G (gauss : G -> R * G) (seeded : Z -> G) sampler C2 (low_make : C2 -> G -> res (low_view * G)) a config w gn0 w' cs
  Lx Ly Lz lx ly lz gn,
  ga_dims a = (Lx, Ly, Lz) -> ga_levels a = (lx, ly, lz) ->
  0 < Lx -> 0 < Ly -> 0 < Lz ->
  scales_of stored a = Ok cs -> 0 < cs_L cs -> 0 < cs_Gamma cs ->
  (forall geo, shape_preserving (sampler (ga_model a) cs geo)) ->
  construct stored G seeded sampler C2 low_make a config w = Ok (gn0, w') ->
  reached gauss gn0 gn ->
  let total := s_total (gen_state G gn) in
  let file := save_to_vtk (ga_dims a) (ga_levels a) (nodes ly) (nodes lz) total in
  (forall i j k c x, cell_component file i j k c x <-> exists v, vector_at total i j k = Some v /\ component v c = Some x)
  /\ length (vt_wind file) = (3 * (length total * nodes ly * nodes lz))%nat
  /\ (exists m, box_size file = (INR m * Lx, Ly, Lz))
  /\ (forall calls, gn = snd (gen_calls G gauss calls gn0) -> all_ok (fst (gen_calls G gauss calls gn0)) -> box_size file = (INR (requested calls) * Lx, Ly, Lz)).
Proof.
  intros stored G gauss seeded sampler C2 low_make a config w gn0 w' cs Lx Ly Lz lx ly lz gn ED EL HLx HLy HLz Hcs HL HT Hsp HC HR total file.
  pose proof (constructed stored G seeded sampler C2 low_make a config w gn0 w' cs HC Hcs) as K. rewrite ED, EL in K.
  destruct (K HLx HLy HLz HL HT Hsp) as (Hu & Hf & N1 & N2 & N3 & _).
  destruct (total_shape G gauss gn0 gn _ Hu Hf HR) as (m & Hm). rewrite N1, N2, N3 in *.
  assert (HN : forall l, 0 < INR (nodes l)) by (intros l; apply lt_0_INR; unfold nodes; lia).
  pose proof (HN lx). pose proof (HN ly). pose proof (HN lz).
  assert (HB : forall m, length total = (m * nodes lx)%nat -> box_size file = (INR m * Lx, Ly, Lz)).
  { intros n Hn. unfold file, save_to_vtk. destruct (vtk_wind total) as [[? ?] ?]. unfold box_size. cbn [vt_cells vt_spacing]. rewrite ED, EL. unfold vtk_spacing.
    rewrite Hn, mult_INR. f_equal; [f_equal|]; field; lra. }
  split; [|split; [|split]].
  - intros i j k c x. apply saved_cells. destruct Hm as (HmL & HmF). split; [reflexivity|exact HmF].
  - unfold file. rewrite saved_length. lia.
  - exists m. apply HB. apply Hm.
  - intros calls E HO. apply HB. unfold total. rewrite E. rewrite (calls_count gauss gn0 _ calls gn0 Hu Hf) by (try exact HO; exists []; reflexivity).
    rewrite N1. unfold fresh in Hf. rewrite Hf. cbn [s_total length]. lia.
Qed.

(** The first cell array holds zeros only. *)
Lemma flat_map_constant : forall A B (x : B) m (f : A -> list B) (l : list A), (forall a, f a = repeat x m) -> flat_map f l = repeat x (length l * m).
Proof. intros A B x m f l H. induction l as [|a l IH]; [reflexivity|]. cbn [flat_map length Nat.mul]. rewrite H, IH, repeat_app. reflexivity. Qed.

Lemma grid_zero : forall dims levels Ny Nz total, vt_grid (save_to_vtk dims levels Ny Nz total) = repeat (Fin 0) (length total * Ny * Nz).
Proof.
  intros dims levels Ny Nz total. unfold save_to_vtk. destruct (vtk_wind total) as [[u v] w]. cbn [vt_grid]. unfold fortran_order.
  rewrite (flat_map_constant _ _ (Fin 0) (Ny * length total)).
  - rewrite seq_length. f_equal. nia.
  - intros k. rewrite (flat_map_constant _ _ (Fin 0) (length total)); [rewrite seq_length; reflexivity|].
    intros j. assert (Z : forall i, nth k (nth j (nth i (map (map (map (fun _ : xr * xr * xr => Fin 0))) total) []) []) (Fin 0) = Fin 0).
    { intros i. change (@nil (list xr)) with (map (map (fun _ : xr * xr * xr => Fin 0)) []). rewrite map_nth. change (@nil xr) with (map (fun _ : xr * xr * xr => Fin 0) []). rewrite map_nth.
      generalize (nth j (nth i total []) []). intros l. revert k. induction l as [|y l IH]; intros [|k]; cbn; auto. }
    clear -Z. assert (H : forall s n, map (fun i => nth k (nth j (nth i (map (map (map (fun _ : xr * xr * xr => Fin 0))) total) []) []) (Fin 0)) (seq s n) = repeat (Fin 0) n).
    { intros s n. revert s. induction n as [|n IH]; intros s; [reflexivity|]. cbn [seq map repeat]. rewrite Z, IH. reflexivity. }
    apply H.
Qed.
