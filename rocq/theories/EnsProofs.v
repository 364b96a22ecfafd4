(** Lemmas about averages of generated blocks over random seeds. *)

From Coq Require Import String Reals Lra Lia List Arith ZArith Bool.
From Coquelicot Require Import Complex.
From Verif Require Import Prelude RdtModel RdtSpec GenModel GenSpec GenProofs GenMore GenApi GenPhys DftModel DftSpec DftProofs DftMore DftCov DftField
  EndSpec EndDft NodeSpec NodeProofs LowModel LowSpectrum EstSpec EstProofs SiteSpec SiteProofs EnsSpec.
Import ListNotations.
Open Scope R_scope.

(** ** Fields as sums of responses *)

Definition comps : list ix := [X1; X2; X3].

Lemma sum3_Rsum : forall f, sum3 f = Rsum (map f comps).
Proof. intros f. unfold sum3, comps, Rsum. cbn [map fold_right]. ring. Qed.

Definition slots (d : extents) : list (ix * node) := flat_map (fun y => map (fun l => (l, y)) comps) (grid d).

Lemma Rsum_flat : forall A B (l : list A) (f : A -> list B) (h : B -> R),
  Rsum (map h (flat_map f l)) = Rsum (map (fun x => Rsum (map h (f x))) l).
Proof.
  intros A B l f h. induction l as [|x l IH]; [reflexivity|]. cbn [flat_map map]. rewrite map_app.
  assert (E : forall u v, Rsum (u ++ v) = Rsum u + Rsum v).
  { intros u v. unfold Rsum. induction u as [|a u IHu]; cbn [app fold_right]; [ring|]. rewrite IHu. ring. }
  rewrite E, IH. reflexivity.
Qed.

Lemma slots_sum : forall d h, Rsum (map h (slots d)) = Rsum (map (fun y => sum3 (fun l => h (l, y))) (nodes_of d)).
Proof.
  intros d h. rewrite Rsum_nodes_grid. unfold slots. rewrite Rsum_flat. apply Rsum_ext. intros y _. rewrite sum3_Rsum, map_map. reflexivity.
Qed.

Lemma slots_In : forall d l y, In (l, y) (slots d) <-> on_grid d y.
Proof.
  intros d l y. unfold slots. rewrite in_flat_map. split.
  - intros (z & Hz & H). apply in_map_iff in H. destruct H as (m & E & _). injection E as _ ->. apply grid_In. exact Hz.
  - intros H. exists y. split; [apply grid_In; exact H|]. apply (in_map (fun m => (m, y))). unfold comps. destruct l; cbn; tauto.
Qed.

Lemma slots_NoDup : forall d, NoDup (slots d).
Proof.
  intros d. unfold slots. pose proof (grid_NoDup d) as H. induction H as [|y l Hy _ IH]; [constructor|]. cbn [flat_map].
  assert (A : forall (u v : list (ix * node)), NoDup u -> NoDup v -> (forall x, In x u -> ~ In x v) -> NoDup (u ++ v)).
  { clear. intros u v Hu. induction Hu as [|a u Ha Hu IHu]; intros Hv Hd; [exact Hv|]. cbn [app]. constructor.
    - rewrite in_app_iff. intros [E|E]; [exact (Ha E)|exact (Hd a (or_introl eq_refl) E)].
    - apply IHu; [exact Hv|]. intros x Hx. apply Hd. right. exact Hx. }
  apply A; [|exact IH|].
  - unfold comps. cbn [map]. repeat constructor; cbn; intuition discriminate.
  - intros [m z] Hm Hz. apply in_map_iff in Hm. destruct Hm as (m' & E & _). injection E as _ ->.
    apply in_flat_map in Hz. destruct Hz as (z' & Hz' & E). apply in_map_iff in E. destruct E as (m2 & E & _). injection E as _ ->. exact (Hy Hz').
Qed.

Lemma delta_sum : forall l (n : ix -> R), n l = sum3 (fun m => n m * delta l m).
Proof. intros l n. unfold sum3. destruct l; cbn [delta]; ring. Qed.

Lemma sample_combination : forall K L d (n : ix * node -> R) (S : list (ix * node)) i x,
  sample_vf K L d (fun m z => Rsum (map (fun e => n e * impulse (fst e) (snd e) m z) S)) i x
  = Rsum (map (fun e => n e * sample_vf K L d (impulse (fst e) (snd e)) i x) S).
Proof.
  intros K L d n S i x. induction S as [|e S IH].
  - cbn [map]. transitivity (sample_vf K L d (fun m z => 0 * impulse X1 (0, 0, 0)%nat m z + 0 * impulse X1 (0, 0, 0)%nat m z) i x).
    + apply sample_ext. intros. unfold Rsum. cbn. ring.
    + rewrite sample_linear. unfold Rsum. cbn. ring.
  - cbn [map]. change (Rsum (?a :: ?l)) with (a + Rsum l).
    transitivity (sample_vf K L d (fun m z => n e * impulse (fst e) (snd e) m z + 1 * Rsum (map (fun e => n e * impulse (fst e) (snd e) m z) S)) i x).
    + apply sample_ext. intros. change (Rsum (?a :: ?l)) with (a + Rsum l). ring.
    + rewrite (sample_linear K L d (impulse (fst e) (snd e)) (fun m z => Rsum (map (fun e => n e * impulse (fst e) (snd e) m z) S))), IH.
      change (Rsum (n e * sample_vf K L d (impulse (fst e) (snd e)) i x :: ?l)) with (n e * sample_vf K L d (impulse (fst e) (snd e)) i x + Rsum l). ring.
Qed.

Lemma pick_slot : forall A (S : list A) (a : A) (f : A -> R), NoDup S -> In a S -> (forall b, In b S -> b <> a -> f b = 0) ->
  Rsum (map f S) = f a.
Proof.
  intros A S a f HD. induction HD as [|b S Hb HD IH]; intros Ha H; [destruct Ha|]. cbn [map]. change (Rsum (f b :: map f S)) with (f b + Rsum (map f S)).
  destruct Ha as [->|Ha].
  - rewrite (Rsum_ext _ S f (fun _ => 0)); [rewrite Rsum_zero; ring|]. intros c Hc. apply H; [right; exact Hc|]. intros ->. exact (Hb Hc).
  - rewrite IH; [|exact Ha|intros c Hc; apply H; right; exact Hc]. rewrite (H b); [ring|left; reflexivity|]. intros ->. exact (Hb Ha).
Qed.

Lemma sample_slots : forall K L d n i x,
  sample_vf K L d n i x = Rsum (map (fun e => n (fst e) (snd e) * sample_vf K L d (impulse (fst e) (snd e)) i x) (slots d)).
Proof.
  intros K L d n i x. rewrite <- (sample_combination K L d (fun e => n (fst e) (snd e))). apply sample_ext. intros j y Hy.
  rewrite (pick_slot _ (slots d) (j, y)).
  - cbn [fst snd]. rewrite impulse_at. destruct (eqn_spec y y) as [_|E]; [|congruence]. destruct j; cbn [delta]; ring.
  - apply slots_NoDup.
  - apply slots_In. exact Hy.
  - intros [m z] Hm Hne. cbn [fst snd]. rewrite impulse_at. destruct (eqn_spec y z) as [<-|E]; [|ring].
    destruct j, m; cbn [delta]; try ring; exfalso; apply Hne; reflexivity.
Qed.

(** ** Averages of products *)

Lemma mean_product : forall G (ens : list (R * G)) A B (S : list A) (S' : list B) a b (w : G -> A -> R) (w' : G -> B -> R),
  mean ens (fun g => Rsum (map (fun e => w g e * a e) S) * Rsum (map (fun e => w' g e * b e) S'))
  = Rsum (map (fun e' => Rsum (map (fun e => a e * b e' * mean ens (fun g => w g e * w' g e')) S)) S').
Proof.
  intros G ens A B S S' a b w w'.
  rewrite (mean_ext _ _ _ (fun g => Rsum (map (fun e' => Rsum (map (fun e => a e * b e' * (w g e * w' g e')) S)) S'))).
  - rewrite (mean_Rsum _ _ _ _ (fun g e' => Rsum (map (fun e => a e * b e' * (w g e * w' g e')) S))). apply Rsum_ext. intros e' _.
    rewrite (mean_Rsum _ _ _ _ (fun g e => a e * b e' * (w g e * w' g e'))). apply Rsum_ext. intros e _. apply mean_scal.
  - intros g. rewrite <- Rsum_scal. apply Rsum_ext. intros e' _.
    rewrite (Rsum_ext _ S (fun e => a e * b e' * (w g e * w' g e')) (fun e => (w' g e' * b e') * (w g e * a e))) by (intros; ring).
    rewrite Rsum_scal. ring.
Qed.

Definition comp_no (l : ix) : nat := match l with X1 => 0 | X2 => 1 | X3 => 2 end.

Lemma comp_no_inj : forall l m, comp_no l = comp_no m -> l = m.
Proof. intros [] [] H; try reflexivity; discriminate H. Qed.
Lemma comp_no_lt : forall l, (comp_no l < 3)%nat.
Proof. intros []; cbn; lia. Qed.

(** Number of the draw in a slot of the noise array whose first row is plane [a]. *)
Definition slot_draw (ny nz a : nat) (e : ix * node) : nat :=
  let '(p, q, r) := snd e in draw_number ny nz (a + p) q r (comp_no (fst e)).

Lemma white_noise_at : forall (dd : nat -> R) std nx ny nz a l y, on_grid (nx, ny, nz) y ->
  at_node (white_noise dd std ny nz a nx) l y = dd (slot_draw ny nz a (l, y)) * std.
Proof.
  intros dd std nx ny nz a l [[p q] r] (Hp & Hq & Hr). unfold at_node, white_noise, slot_draw. cbn [fst snd].
  rewrite nth_map_seq by exact Hp. rewrite nth_map_seq by exact Hq. rewrite nth_map_seq by exact Hr. destruct l; reflexivity.
Qed.

Lemma draw_bound : forall ny nz x y z c n, (x < n)%nat -> (y < ny)%nat -> (z < nz)%nat -> (c < 3)%nat ->
  (draw_number ny nz x y z c < 3 * (n * ny * nz))%nat.
Proof.
  intros ny nz x y z c n Hx Hy Hz Hc. unfold draw_number.
  assert (H1 : (x * ny + y + 1 <= n * ny)%nat) by nia.
  assert (H2 : ((x * ny + y) * nz + z + 1 <= n * ny * nz)%nat) by nia. lia.
Qed.

(** ** Blocks of a constructed generator *)

Section Blocks.

Variables (hyp : R -> R) (net : R -> R -> R -> R) (h_ref : R) (stored : string -> res (R * R * R)) (G : Type) (seeded : Z -> G).
Variables (C2 : Type) (low_make : C2 -> G -> res (low_view * G)).
Variables (a : gen_args) (config : option C2) (w w' : world G) (gn : generator G) (cs : cov_scales) (Lx Ly Lz : R) (lx ly lz : nat).
Variable gauss : G -> R * G.
Hypothesis ED : ga_dims a = (Lx, Ly, Lz).
Hypothesis EL : ga_levels a = (lx, ly, lz).
Hypothesis HLx : 0 < Lx.
Hypothesis HLy : 0 < Ly.
Hypothesis HLz : 0 < Lz.
Hypothesis Hcs : scales_of stored a = Ok cs.
Hypothesis HL : 0 < cs_L cs.
Hypothesis HT : 0 < cs_Gamma cs.
Hypothesis HC : construct stored G seeded (vf_sampler hyp net h_ref) C2 low_make a config w = Ok (gn, w').

Let geo := gen_geo G gn.
Let d := noise_grid geo.
Let K := model_kernel hyp net h_ref (ga_model a) cs.

Lemma ens_usable : sound geo /\ nonempty d /\ (forall x, in_block geo x -> on_grid d (let '(p, q, r) := x in (Z.to_nat (g_nb geo) + p, Z.to_nat (g_my geo) + q, r)%nat)).
Proof.
  destruct (constructed_sizes _ _ _ _ _ _ _ _ _ _ _ _ _ _ _ _ _ _ ED EL HLx HLy HLz Hcs HL HT HC) as (nb & my & mz & R1 & R2 & R3 & B1 & B2 & C1 & C3 & C4 & _).
  destruct (constructed_parts _ _ _ _ _ _ _ _ _ _ _ _ _ _ _ _ _ _ ED EL HLx HLy HLz Hcs HL HT HC) as (_ & _ & N1 & N2 & N3 & _).
  fold geo in R1, R2, R3, B1, B2, N1, N2, N3.
  split; [|split].
  - destruct (geometry_sound Lx Ly Lz lx ly lz (cs_L cs) (cs_Gamma cs) (ga_blend a) HLx HLy HLz HL HT) as (g & Eg & Sg & _).
    assert (E : geo = g); [|rewrite E; exact Sg]. unfold geo. unfold construct in HC. rewrite Hcs in HC. cbn [bind] in HC. rewrite ED, EL, Eg in HC.
    cbn [bind] in HC. destruct config as [c|].
    + destruct (low_make c (w_global G w)) as [lg|e]; [|discriminate HC]. cbn [bind] in HC.
      apply (f_equal (fun r => match r with Ok x => fst x | Err _ => gn end)) in HC. cbn [fst] in HC. subst gn. reflexivity.
    + apply (f_equal (fun r => match r with Ok x => fst x | Err _ => gn end)) in HC. cbn [fst] in HC. subst gn. reflexivity.
  - unfold d, noise_grid, nonempty. lia.
  - intros [[p q] r] (Hp & Hq & Hr). unfold d, noise_grid, on_grid. rewrite N1 in Hp. rewrite N2 in Hq. rewrite N3 in Hr. unfold nodes in *.
    rewrite R1, R2, R3, B1, B2, !Nat2Z.id. lia.
Qed.

Let L : R * R * R := box geo d.

Lemma ens_sampled : forall f i x, shaped (rows geo) (cols geo) (layers geo) f -> on_grid d x ->
  component_at (gen_correlate G gn f) i x = sample_vf K L d (at_node f) i x.
Proof.
  intros f i x Hf Hx. destruct ens_usable as (_ & Hne & _).
  destruct (constructed_parts _ _ _ _ _ _ _ _ _ _ _ _ _ _ _ _ _ _ ED EL HLx HLy HLz Hcs HL HT HC) as (EC & _).
  rewrite component_node, EC. unfold vf_sampler. cbv zeta.
  assert (EE : extents_of f = d) by (destruct Hne as (H1 & H2 & _); apply extents_shaped; assumption).
  rewrite EE, at_tabulate by exact Hx. reflexivity.
Qed.

Definition inner (x : node) : node := let '(p, q, r) := x in (Z.to_nat (g_nb geo) + p, Z.to_nat (g_my geo) + q, r)%nat.

Lemma response_sample : forall l y i x, in_block geo x ->
  response gn l y i x = gen_std G gn * sample_vf K L d (impulse l y) i (inner x).
Proof.
  intros l y i x Hx. destruct ens_usable as (_ & Hne & HI). pose proof (HI x Hx) as Hg. destruct x as [[p q] r].
  unfold response. fold geo. fold d.
  rewrite ens_sampled; [|change (laid_out d ?u) with (tabulate d u); apply tabulate_shaped|exact Hg].
  rewrite (sample_ext K L d _ (fun m z => gen_std G gn * impulse l y m z + 0 * impulse l y m z)).
  - rewrite sample_linear. cbn [inner]. ring.
  - intros j z Hz. change (laid_out d ?u) with (tabulate d u). rewrite at_tabulate by exact Hz. ring.
Qed.

Lemma block_sample : forall t i x g, in_block geo x ->
  block_value gauss gn t i x g
  = Rsum (map (fun e => stream gauss g (slot_draw (cols geo) (layers geo) (t * g_Nx geo) e) * response gn (fst e) (snd e) i x) (slots d)).
Proof.
  intros t i x g Hx. destruct ens_usable as (Hs & Hne & HI). pose proof (HI x Hx) as Hg.
  unfold block_value, raw_block. fold geo.
  destruct (constructed_parts _ _ _ _ _ _ _ _ _ _ _ _ _ _ _ _ _ _ ED EL HLx HLy HLz Hcs HL HT HC) as (EC & _).
  assert (HF : shaped (rows geo) (cols geo) (layers geo) (window (noise_stream gauss geo (gen_std G gn) g) (t * g_Nx geo) (rows geo))) by apply window_shaped.
  set (f := window _ _ _) in *.
  assert (HS : shaped (rows geo) (cols geo) (layers geo) (gen_correlate G gn f)) by (rewrite EC; apply vf_shape_preserving; exact HF).
  transitivity (component_at (gen_correlate G gn f) i (inner x)).
  { destruct x as [[p q] r]. destruct Hx as (Hp & Hq & Hr). unfold component_at, inner. rewrite node_crop by assumption. reflexivity. }
  rewrite ens_sampled; [|exact HF|destruct x as [[p q] r]; exact Hg].
  rewrite sample_slots. apply Rsum_ext. intros [l y] He. apply slots_In in He. cbn [fst snd].
  rewrite response_sample by exact Hx. unfold f. rewrite noise_is_white, white_noise_at by exact He. ring.
Qed.

Lemma response_covariance : forall i j x x', in_block geo x -> in_block geo x' ->
  Rsum (map (fun y => sum3 (fun l => response gn l y i x * response gn l y j x')) (nodes_of d))
  = noise_covariance (gen_std G gn) d (fun n => component_at (gen_correlate G gn (laid_out d n))) i j (inner x) (inner x').
Proof.
  intros i j x x' Hx Hx'. unfold noise_covariance. f_equal. apply map_ext. intros y. unfold sum3, response, inner. fold geo. fold d.
  destruct x as [[p q] r], x' as [[p' q'] r']. reflexivity.
Qed.

(** The general covariance. *)
Lemma shared_covariance : forall ens t t' N i j x x', (t <= t')%nat -> (draws_until geo t' <= N)%nat -> white gauss N ens ->
  in_block geo x -> in_block geo x' ->
  let s := ((t' - t) * g_Nx geo)%nat in
  mean ens (fun g => block_value gauss gn t i x g * block_value gauss gn t' j x' g)
  = Rsum (map (fun y => sum3 (fun l => if (s + row_of y <? rows geo)%nat then response gn l (rows_on s y) i x * response gn l y j x' else 0)) (nodes_of d)).
Proof.
  intros ens t t' N i j x x' Htt HN HW Hx Hx'. cbv zeta. set (s := ((t' - t) * g_Nx geo)%nat).
  rewrite (mean_ext _ _ _ (fun g => Rsum (map (fun e => stream gauss g (slot_draw (cols geo) (layers geo) (t * g_Nx geo) e) * response gn (fst e) (snd e) i x) (slots d))
    * Rsum (map (fun e => stream gauss g (slot_draw (cols geo) (layers geo) (t' * g_Nx geo) e) * response gn (fst e) (snd e) j x') (slots d)))).
  2:{ intros g. rewrite !block_sample by assumption. reflexivity. }
  rewrite (mean_product G ens _ _ (slots d) (slots d) (fun e => response gn (fst e) (snd e) i x) (fun e => response gn (fst e) (snd e) j x')
    (fun g e => stream gauss g (slot_draw (cols geo) (layers geo) (t * g_Nx geo) e)) (fun g e => stream gauss g (slot_draw (cols geo) (layers geo) (t' * g_Nx geo) e))).
  etransitivity; [|exact (slots_sum d (fun e => if (s + row_of (snd e) <? rows geo)%nat then response gn (fst e) (rows_on s (snd e)) i x * response gn (fst e) (snd e) j x' else 0))].
  apply Rsum_ext. intros [l y] He. apply slots_In in He. cbn [fst snd].
  assert (EN : (t * g_Nx geo + s = t' * g_Nx geo)%nat) by (unfold s; nia).
  assert (BD : forall u e, (u <= t')%nat -> In e (slots d) -> (slot_draw (cols geo) (layers geo) (u * g_Nx geo) e < N)%nat).
  { intros u [m [[p q] r]] Hu Hm. apply slots_In in Hm. destruct Hm as (Hp & Hq & Hr). unfold slot_draw. cbn [fst snd].
    eapply Nat.lt_le_trans; [|exact HN]. unfold draws_until. apply draw_bound; [|exact Hq|exact Hr|apply comp_no_lt]. 
    assert (u * g_Nx geo <= t' * g_Nx geo)%nat by (apply Nat.mul_le_mono_r; exact Hu). lia. }
  assert (EM : forall m z, In (m, z) (slots d) -> mean ens (fun g => stream gauss g (slot_draw (cols geo) (layers geo) (t * g_Nx geo) (m, z))
      * stream gauss g (slot_draw (cols geo) (layers geo) (t' * g_Nx geo) (l, y))) = if eqn z (rows_on s y) then delta m l else 0).
  { intros m z Hz. rewrite HW by (apply BD; [lia|]; first [exact Hz | apply slots_In; exact He]). apply slots_In in Hz.
    destruct z as [[p q] r], y as [[p' q'] r']. destruct Hz as (Hp & Hq & Hr). destruct He as (Hp' & Hq' & Hr'). cbn [rows_on].
    destruct (Nat.eqb_spec (slot_draw (cols geo) (layers geo) (t * g_Nx geo) (m, (p, q, r))) (slot_draw (cols geo) (layers geo) (t' * g_Nx geo) (l, (p', q', r')))) as [E|E].
    - unfold slot_draw in E. cbn [fst snd] in E. apply draw_number_inj in E; try assumption; try apply comp_no_lt.
      destruct E as (E1 & -> & -> & E4). apply comp_no_inj in E4. subst m.
      destruct (eqn_spec (p, q', r') ((s + p')%nat, q', r')) as [_|Ne]; [destruct l; reflexivity|]. exfalso. apply Ne. f_equal. f_equal. lia.
    - destruct (eqn_spec (p, q, r) ((s + p')%nat, q', r')) as [E'|_]; [|reflexivity]. injection E' as -> -> ->.
      destruct m, l; try reflexivity; exfalso; apply E; unfold slot_draw; cbn [fst snd]; f_equal; lia. }
  rewrite (Rsum_ext _ _ _ (fun e => response gn (fst e) (snd e) i x * response gn l y j x' * (if eqn (snd e) (rows_on s y) then delta (fst e) l else 0))).
  2:{ intros [m z] Hz. cbn [fst snd]. rewrite (EM m z Hz). reflexivity. }
  destruct (Nat.ltb_spec (s + row_of y) (rows geo)) as [Hlt|Hge].
  - rewrite (pick_slot _ (slots d) (l, rows_on s y)).
    + cbn [fst snd]. destruct (eqn_spec (rows_on s y) (rows_on s y)) as [_|E]; [|congruence]. destruct l; cbn [delta]; ring.
    + apply slots_NoDup.
    + apply slots_In. destruct y as [[p q] r]. destruct He as (H1 & H2 & H3). unfold d, noise_grid, on_grid, rows_on. cbn [row_of] in Hlt. auto.
    + intros [m z] Hz Hne. cbn [fst snd]. destruct (eqn_spec z (rows_on s y)) as [->|_]; [|ring].
      destruct m, l; cbn [delta]; try ring; exfalso; apply Hne; reflexivity.
  - rewrite (Rsum_ext _ _ _ (fun _ => 0)); [apply Rsum_zero|]. intros [m z] Hz. cbn [fst snd]. apply slots_In in Hz.
    destruct (eqn_spec z (rows_on s y)) as [->|_]; [|ring]. exfalso. destruct y as [[p q] r]. cbn [rows_on row_of] in *. destruct Hz as (H1 & _). lia.
Qed.

Lemma within_covariance : forall ens t N i j x x', (draws_until geo t <= N)%nat -> white gauss N ens -> in_block geo x -> in_block geo x' ->
  let h := (Lx / INR (2 ^ lx + 1), Ly / INR (2 ^ ly + 1), Lz / INR (2 ^ lz + 1)) in
  RtoC (mean ens (fun g => block_value gauss gn t i x g * block_value gauss gn t j x' g))
  = phase_mean h d (fun m => covariance (paired d (kernel_at K (periodic_box h d) d) m) i j) x x'.
Proof.
  intros ens t N i j x x' HN HW Hx Hx'. cbv zeta. destruct ens_usable as (_ & _ & HI).
  rewrite (shared_covariance ens t t N i j x x' (le_n t) HN HW Hx Hx'). rewrite Nat.sub_diag. cbn [Nat.mul].
  rewrite (Rsum_ext _ _ _ (fun y => sum3 (fun l => response gn l y i x * response gn l y j x'))).
  2:{ intros y Hy. assert (Hg : on_grid d y) by (apply nodes_of_In; exact Hy). destruct y as [[p q] r]. destruct Hg as (Hp & _). cbn [row_of rows_on Nat.add].
      destruct (Nat.ltb_spec p (rows geo)); [reflexivity|lia]. }
  rewrite (response_covariance i j x x' Hx Hx').
  pose proof (site_covariance hyp net h_ref stored G seeded C2 low_make a config w gn w' cs Lx Ly Lz lx ly lz ED EL HLx HLy HLz Hcs HL HT HC) as SC. cbv zeta in SC.
  fold geo in SC. change (rows geo, cols geo, layers geo) with d in SC.
  rewrite SC; [|destruct x as [[p q] r]; exact (HI _ Hx)|destruct x' as [[p q] r]; exact (HI _ Hx')].
  unfold phase_mean, d, noise_grid. f_equal. apply fold_ext. intros m c _.
  assert (EW : wave_phase (Lx / INR (2 ^ lx + 1), Ly / INR (2 ^ ly + 1), Lz / INR (2 ^ lz + 1)) (rows geo, cols geo, layers geo) m (inner x) (inner x')
             = wave_phase (Lx / INR (2 ^ lx + 1), Ly / INR (2 ^ ly + 1), Lz / INR (2 ^ lz + 1)) (rows geo, cols geo, layers geo) m x x').
  { destruct x as [[p q] r], x' as [[p' q'] r'], m as [[m1 m2] m3]. unfold wave_phase, inner. rewrite !plus_INR. f_equal. f_equal; f_equal; f_equal; ring. }
  rewrite EW. reflexivity.
Qed.

Lemma far_blocks : forall ens t t' N i j x x', (t * g_Nx geo + rows geo <= t' * g_Nx geo)%nat -> (draws_until geo t' <= N)%nat -> white gauss N ens ->
  in_block geo x -> in_block geo x' ->
  mean ens (fun g => block_value gauss gn t i x g * block_value gauss gn t' j x' g) = 0.
Proof.
  intros ens t t' N i j x x' HF HN HW Hx Hx'. destruct ens_usable as ((S1 & _) & (H1 & _) & _). unfold d, noise_grid in H1. cbn in H1.
  assert (Htt : (t <= t')%nat) by nia.
  rewrite (shared_covariance ens t t' N i j x x' Htt HN HW Hx Hx').
  rewrite (Rsum_ext _ _ _ (fun _ => 0)); [apply Rsum_zero|]. intros y _.
  destruct (Nat.ltb_spec ((t' - t) * g_Nx geo + row_of y) (rows geo)) as [E|_]; [nia|]. unfold sum3. ring.
Qed.

Lemma centred_blocks : forall ens t N i x, (draws_until geo t <= N)%nat -> (forall m, (m < N)%nat -> mean ens (fun g => stream gauss g m) = 0) ->
  in_block geo x -> mean ens (fun g => block_value gauss gn t i x g) = 0.
Proof.
  intros ens t N i x HN HW Hx.
  rewrite (mean_ext _ _ _ (fun g => Rsum (map (fun e => response gn (fst e) (snd e) i x * stream gauss g (slot_draw (cols geo) (layers geo) (t * g_Nx geo) e)) (slots d)))).
  - rewrite (mean_Rsum _ _ _ _ (fun g e => response gn (fst e) (snd e) i x * stream gauss g (slot_draw (cols geo) (layers geo) (t * g_Nx geo) e))).
    rewrite (Rsum_ext _ _ _ (fun _ => 0)); [apply Rsum_zero|]. intros [m [[p q] r]] Hz. rewrite mean_scal, HW; [ring|].
    apply slots_In in Hz. destruct Hz as (Hp & Hq & Hr). unfold slot_draw. cbn [fst snd]. eapply Nat.lt_le_trans; [|exact HN].
    unfold draws_until. apply draw_bound; [lia|exact Hq|exact Hr|apply comp_no_lt].
  - intros g. rewrite block_sample by exact Hx. apply Rsum_ext. intros e _. ring.
Qed.

End Blocks.
