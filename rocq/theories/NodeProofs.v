From Coq Require Import Reals Lra Lia List Arith ZArith Bool.
From Verif Require Import Prelude SpectraModel GenModel GenSpec GenProofs GenMore GenApi GenPhys GenSeam GenDemo NodeSpec.
Import ListNotations.
Open Scope R_scope.

(** ** The noise *)

Section Draws.
Variable G : Type.
Variable gauss : G -> R * G.

Lemma stream_fst : forall A (one : G -> A * G) r g, stream one g r = fst (one (after one g r)).
Proof. intros A one r. induction r as [|r IH]; intros g; [reflexivity|]. cbn [stream after]. apply IH. Qed.

Lemma after_last : forall A (one : G -> A * G) r g, after one g (S r) = snd (one (after one g r)).
Proof. intros A one r. induction r as [|r IH]; intros g; [reflexivity|]. cbn [after] in *. apply IH. Qed.

Lemma after_steps : forall A B (one : G -> A * G) (base : G -> B * G) m,
  (forall g, snd (one g) = after base g m) -> forall r g, after one g r = after base g (r * m).
Proof.
  intros A B one base m H r. induction r as [|r IH]; intros g; [reflexivity|].
  cbn [after]. rewrite H, IH, after_after. reflexivity.
Qed.

Lemma point_after : forall std g, snd (draw_point gauss std g) = after gauss g 3.
Proof.
  intros std g. unfold draw_point. cbn [after]. destruct (gauss g) as [a g1]. cbn [snd].
  destruct (gauss g1) as [b g2]. cbn [snd]. destruct (gauss g2). reflexivity.
Qed.

Lemma point_value : forall std g, fst (draw_point gauss std g)
  = (stream gauss g 0 * std, stream gauss g 1 * std, stream gauss g 2 * std).
Proof.
  intros std g. unfold draw_point. cbn [stream]. destruct (gauss g) as [a g1]. cbn [fst snd].
  destruct (gauss g1) as [b g2]. cbn [fst snd]. destruct (gauss g2). reflexivity.
Qed.

Lemma column_after : forall std nz g, snd (draw_many (draw_point gauss std) nz g) = after gauss g (nz * 3).
Proof. intros. rewrite draw_many_window. cbn [snd]. apply after_steps. apply point_after. Qed.

Lemma plane_after : forall std ny nz g, snd (draw_plane gauss std ny nz g) = after gauss g (ny * (nz * 3)).
Proof. intros. unfold draw_plane. rewrite draw_many_window. cbn [snd]. apply after_steps. intros. apply column_after. Qed.

Lemma stream_stream : forall A (one : G -> A * G) m (F : G -> A), (forall g, fst (one g) = F g) ->
  (forall g, snd (one g) = after gauss g m) -> forall r g, stream one g r = F (after gauss g (r * m)).
Proof. intros A one m F H1 H2 r g. rewrite stream_fst, H1. f_equal. apply after_steps. exact H2. Qed.

Lemma noise_is_white : forall geo std g a n,
  window (noise_stream gauss geo std g) a n = white_noise (stream gauss g) std (cols geo) (layers geo) a n.
Proof.
  intros geo std g a n. unfold window, white_noise, noise_stream. set (ny := cols geo). set (nz := layers geo).
  apply map_ext. intros x.
  rewrite (stream_stream _ _ (ny * (nz * 3)) (fun g => fst (draw_plane gauss std ny nz g))) by (intros; [reflexivity || apply plane_after]).
  unfold draw_plane. rewrite draw_many_window. cbn [fst]. unfold window. cbn [Nat.add]. apply map_ext. intros y.
  rewrite (stream_stream _ _ (nz * 3) (fun g => fst (draw_many (draw_point gauss std) nz g))) by (intros; [reflexivity || apply column_after]).
  rewrite draw_many_window. cbn [fst]. unfold window. cbn [Nat.add]. apply map_ext. intros z.
  rewrite (stream_stream _ _ 3 (fun g => fst (draw_point gauss std g))) by (intros; [reflexivity || apply point_after]).
  rewrite point_value, !stream_after.
  unfold draw_number. f_equal; [f_equal|]; f_equal; f_equal; ring.
Qed.

End Draws.

Lemma draw_number_inj : forall ny nz x y z c x' y' z' c',
  (y < ny)%nat -> (y' < ny)%nat -> (z < nz)%nat -> (z' < nz)%nat -> (c < 3)%nat -> (c' < 3)%nat ->
  draw_number ny nz x y z c = draw_number ny nz x' y' z' c' -> x = x' /\ y = y' /\ z = z' /\ c = c'.
Proof.
  intros ny nz x y z c x' y' z' c' Hy Hy' Hz Hz' Hc Hc' H. unfold draw_number in H.
  assert (D : forall n a b a' b', (b < n)%nat -> (b' < n)%nat -> (a * n + b = a' * n + b')%nat -> a = a' /\ b = b').
  { intros n a b a' b' Hb Hb' E. assert (a = a') by (destruct (Nat.lt_trichotomy a a') as [L|[L|L]]; [nia|exact L|nia]). subst. lia. }
  rewrite !(Nat.mul_comm 3) in H. apply D in H; try assumption. destruct H as [H ->].
  apply D in H; try assumption. destruct H as [H ->]. apply D in H; try assumption. tauto.
Qed.

Lemma draw_number_onto : forall ny nz m, (0 < ny)%nat -> (0 < nz)%nat ->
  exists x y z c, (y < ny)%nat /\ (z < nz)%nat /\ (c < 3)%nat /\ m = draw_number ny nz x y z c.
Proof.
  intros ny nz m Hy Hz. unfold draw_number. set (q := (m / 3)%nat). set (r := (q / nz)%nat).
  exists (r / ny)%nat, (r mod ny)%nat, (q mod nz)%nat, (m mod 3)%nat.
  split; [apply Nat.mod_upper_bound; lia|]. split; [apply Nat.mod_upper_bound; lia|].
  split; [apply Nat.mod_upper_bound; lia|].
  pose proof (Nat.div_mod r ny ltac:(lia)). pose proof (Nat.div_mod q nz ltac:(lia)). pose proof (Nat.div_mod m 3 ltac:(lia)).
  fold r in H0. fold q in H1. rewrite (Nat.mul_comm _ ny), <- H, (Nat.mul_comm _ nz), <- H0, <- H1. reflexivity.
Qed.

(** ** Nodes *)

Lemma nth_error_in_range : forall A (l : list A) i, (i < length l)%nat -> exists v, nth_error l i = Some v.
Proof. intros A l i H. destruct (nth_error l i) eqn:E; [eauto|]. apply nth_error_None in E. lia. Qed.

Lemma shaped_node : forall A nx ny nz (f : field A) x y z, shaped nx ny nz f -> (x < nx)%nat -> (y < ny)%nat -> (z < nz)%nat ->
  exists v, node_value f x y z = Some v.
Proof.
  intros A nx ny nz f x y z [Hl Hf] Hx Hy Hz. unfold node_value.
  destruct (nth_error_in_range _ f x ltac:(lia)) as [p Hp]. rewrite Hp.
  rewrite Forall_forall in Hf. destruct (Hf p (nth_error_In _ _ Hp)) as [Lp Hc].
  destruct (nth_error_in_range _ p y ltac:(lia)) as [c Hcc]. rewrite Hcc.
  rewrite Forall_forall in Hc. apply nth_error_in_range. rewrite (Hc c (nth_error_In _ _ Hcc)). exact Hz.
Qed.

Lemma node_fmap : forall A B (h : A -> B) f x y z a b d, node_value f x y z = Some (a, b, d) ->
  node_value (fmap h f) x y z = Some (h a, h b, h d).
Proof.
  intros A B h f x y z a b d H. unfold node_value, fmap in *. rewrite nth_error_map.
  destruct (nth_error f x) as [p|]; [|discriminate]. cbn [option_map]. rewrite nth_error_map.
  destruct (nth_error p y) as [c|]; [|discriminate]. cbn [option_map]. rewrite nth_error_map, H. reflexivity.
Qed.

Lemma nth_error_combine : forall A B (l : list A) (m : list B) i a b, nth_error l i = Some a -> nth_error m i = Some b ->
  nth_error (combine l m) i = Some (a, b).
Proof.
  intros A B l. induction l as [|x l IH]; intros m i a b Ha Hb; [destruct i; discriminate|].
  destruct m as [|y m]; [destruct i; discriminate|]. destruct i as [|i]; cbn in *; [congruence|]. apply IH; assumption.
Qed.

Lemma node_profile : forall prof f x y z a b d m, node_value f x y z = Some (a, b, d) -> nth_error prof z = Some m ->
  node_value (with_profile prof f) x y z = Some (xadd (Fin a) m, Fin b, Fin d).
Proof.
  intros prof f x y z a b d m H Hm. unfold node_value, with_profile in *. rewrite nth_error_map.
  destruct (nth_error f x) as [p|]; [|discriminate]. cbn [option_map]. rewrite nth_error_map.
  destruct (nth_error p y) as [c|]; [|discriminate]. cbn [option_map].
  rewrite nth_error_map, (nth_error_combine _ _ _ _ _ _ _ H Hm). reflexivity.
Qed.

Lemma node_slice : forall interp xs ys f x y z X Y a b d, node_value f x y z = Some (a, b, d) ->
  nth_error xs x = Some X -> nth_error ys y = Some Y ->
  node_value (add_slice interp xs ys f) x y z = Some (xadd a (Fin (fst (interp X Y))), xadd b (Fin (snd (interp X Y))), d).
Proof.
  intros interp xs ys f x y z X Y a b d H HX HY. unfold node_value, add_slice in *. rewrite nth_error_map.
  destruct (nth_error f x) as [p|] eqn:Ep; [|discriminate].
  rewrite (nth_error_combine _ _ _ _ _ _ _ HX Ep). cbn [option_map fst snd]. rewrite nth_error_map.
  destruct (nth_error p y) as [c|] eqn:Ec; [|discriminate].
  rewrite (nth_error_combine _ _ _ _ _ _ _ HY Ec). cbn [option_map fst snd]. rewrite nth_error_map, H. reflexivity.
Qed.

Lemma nth_firstn_lt : forall A n (l : list A) i, (i < n)%nat -> nth_error (firstn n l) i = nth_error l i.
Proof.
  intros A n. induction n as [|n IH]; intros l i H; [lia|]. destruct l as [|x l]; [reflexivity|].
  destruct i as [|i]; [reflexivity|]. cbn. apply IH. lia.
Qed.

Lemma nth_skipn : forall A n (l : list A) i, nth_error (skipn n l) i = nth_error l (n + i).
Proof.
  intros A n. induction n as [|n IH]; intros l i; [reflexivity|]. destruct l as [|x l]; [destruct i; reflexivity|].
  cbn. apply IH.
Qed.

Lemma node_crop : forall geo f x y z, sound geo -> shaped (rows geo) (cols geo) (layers geo) f ->
  (x < g_Nx geo)%nat -> (y < g_Ny geo)%nat -> (z < g_Nz geo)%nat ->
  node_value (trim geo (central_part geo f)) x y z = node_value f (Z.to_nat (g_nb geo) + x) (Z.to_nat (g_my geo) + y) z.
Proof.
  intros geo f x y z Hs Hf Hx Hy Hz. rewrite block_form by assumption. unfold node_value, crop.
  rewrite nth_error_map, nth_firstn_lt, nth_skipn by assumption.
  destruct (nth_error f _) as [p|]; [|reflexivity]. cbn [option_map].
  rewrite nth_error_map, nth_firstn_lt, nth_skipn by assumption.
  destruct (nth_error p _) as [c|]; [|reflexivity]. cbn [option_map]. apply nth_firstn_lt. assumption.
Qed.

Lemma nth_concat : forall A n (ls : list (list A)) i l p, Forall (fun l => length l = n) ls -> nth_error ls i = Some l -> (p < n)%nat ->
  nth_error (concat ls) (i * n + p) = nth_error l p.
Proof.
  intros A n ls. induction ls as [|l0 ls IH]; intros i l p Hn Hi Hp; [destruct i; discriminate|].
  inversion Hn as [|? ? H0 Hn']; subst. destruct i as [|i]; cbn in Hi.
  - injection Hi as ->. cbn [Nat.mul Nat.add concat]. apply nth_error_app1. exact Hp.
  - cbn [concat]. rewrite nth_error_app2 by lia. replace (S i * length l0 + p - length l0)%nat with (i * length l0 + p)%nat by lia.
    apply IH; assumption.
Qed.

Lemma block_y_nth : forall g L2 q, (q < g_Ny g)%nat -> (0 < g_Ny g)%nat ->
  nth_error (block_y g L2) q = Some (centred L2 (snd (fst (g_dims g))) (g_Ny g) q).
Proof.
  intros g L2 q Hq H0. unfold block_y, centred. rewrite nth_error_map.
  rewrite nth_error_nth' with (d := 0%nat) by (rewrite seq_length; lia). rewrite seq_nth by lia. cbn [option_map Nat.add].
  f_equal. field. apply not_0_INR. lia.
Qed.

Lemma low_node : forall g low i p q r f f' a b d, sound g -> shaped (g_Nx g) (g_Ny g) (g_Nz g) f ->
  add_low g low i f = Ok f' -> (p < g_Nx g)%nat -> (q < g_Ny g)%nat -> node_value f p q r = Some (a, b, d) ->
  let u := low_value low (INR (i * g_Nx g + p) * (fst (fst (g_dims g)) / INR (g_Nx g)))
                         (centred (low_width low) (snd (fst (g_dims g))) (g_Ny g) q) in
  node_value f' p q r = Some (xadd a (Fin (fst u)), xadd b (Fin (snd u)), d).
Proof.
  intros g low i p q r f f' a b d (S1 & S2 & _) Hf HA Hp Hq H. destruct low as [lv|]; cbn [add_low low_value low_width] in *.
  - destruct (lv_interp lv) as [h|]; [|discriminate]. destruct (forallb _ f); [|discriminate]. injection HA as <-.
    apply node_slice; [exact H| |].
    + destruct Hf as [-> _]. apply block_positions; lia.
    + apply block_y_nth; lia.
  - injection HA as <-. rewrite H. cbn [fst snd].
    assert (Z : forall x, xadd x (Fin 0) = x) by (intros [v| | |]; cbn; try reflexivity; f_equal; lra).
    rewrite !Z. reflexivity.
Qed.

Lemma delivered_nodes : forall G (gauss : G -> R * G) gn0 gn g0 n a f,
  usable gn0 -> fresh gn0 g0 -> reached gauss gn0 gn -> fst (gen_call G gauss n a gn) = Ok f ->
  let geo := gen_geo G gn0 in
  exists k, forall i, (i < Z.to_nat n)%nat ->
  exists prof sd, mean_profile geo a = Ok prof /\ 0 < sd
  /\ forall p q r, (p < g_Nx geo)%nat -> (q < g_Ny geo)%nat -> (r < g_Nz geo)%nat ->
     exists u v w m,
       node_value (gen_correlate G gn0 (white_noise (stream gauss g0) (gen_std G gn0) (cols geo) (layers geo)
                                          ((k + i) * g_Nx geo) (rows geo)))
                  (Z.to_nat (g_nb geo) + p) (Z.to_nat (g_my geo) + q) r = Some (u, v, w)
       /\ nth_error prof r = Some m
       /\ let low := low_value (gen_low G gn0) (INR (i * g_Nx geo + p) * (fst (fst (g_dims geo)) / INR (g_Nx geo)))
                       (centred (low_width (gen_low G gn0)) (snd (fst (g_dims geo))) (g_Ny geo) q) in
          node_value f (length (s_total (gen_state G gn)) + (i * g_Nx geo + p)) q r
          = Some (xadd (xadd (Fin (u / sd)) m) (Fin (fst low)), Fin (v / sd + snd low), Fin (w / sd)).
Proof.
  intros G gauss gn0 gn g0 n a f Hu Hf [calls ->] Hok. cbv zeta.
  destruct (reached_at G gauss calls gn0 g0 0 Hu (fresh_at _ _ _ _ Hf)) as (k & Hk).
  pose proof (calls_setup G gauss calls gn0) as Hset. set (gn := snd (gen_calls G gauss calls gn0)) in *.
  pose proof Hset as (A & B & C & D). rewrite <- A, <- B in Hk. pose proof (usable_setup _ _ _ Hset Hu) as Hu'. pose proof Hu' as [Hs Hc].
  destruct (call_spec G gauss n a gn g0 k Hu' Hk) as (j & fs & _ & HT & HL & HF & HR).
  destruct HR as [(E & -> & _)|(e & E & _)]; [|congruence]. rewrite Hok in E. injection E as E. rewrite <- E in HT.
  rewrite A, B, C, D in HF. rewrite A, C in *. clear Hk Hok E.
  set (geo := gen_geo G gn0) in *. set (std := gen_std G gn0) in *. set (cor := gen_correlate G gn0) in *.
  exists k. intros i Hi. destruct (nth_error_in_range _ fs i ltac:(lia)) as [fi Hfi].
  destruct (HF i fi Hfi) as (prof & sd & h & HP & Hsd & Hh & _ & HA & Hsh).
  exists prof, sd. split; [exact HP|]. split; [exact Hsd|]. intros p q r Hp Hq Hr.
  assert (HN : shaped (rows geo) (cols geo) (layers geo) (cor (window (noise_stream gauss geo std g0) ((k + i) * g_Nx geo) (rows geo)))).
  { apply Hc. apply window_shaped. }
  destruct (shaped_node _ _ _ _ (trim geo (central_part geo (cor (window (noise_stream gauss geo std g0) ((k + i) * g_Nx geo) (rows geo))))) p q r
              (block_shaped geo _ Hs HN) Hp Hq Hr) as [[[u v] w] HV].
  assert (LP : length prof = g_Nz geo) by (rewrite (proj1 (proj2 (proj2 Hs))); eapply mean_profile_length; exact HP).
  destruct (nth_error_in_range _ prof r ltac:(lia)) as [m Hm].
  exists u, v, w, m. split; [|split; [exact Hm|]].
  - rewrite <- noise_is_white. rewrite <- HV. symmetry. apply node_crop; assumption.
  - assert (HFS : Forall (fun x => length x = g_Nx geo) fs).
    { apply Forall_forall. intros x Hx. apply In_nth_error in Hx. destruct Hx as [t Ht].
      destruct (HF t x Ht) as (_ & _ & _ & _ & _ & _ & _ & _ & SX). apply SX. }
    assert (HI : node_value f (length (s_total (gen_state G gn)) + (i * g_Nx geo + p)) q r = node_value fi p q r).
    { unfold node_value. rewrite HT, nth_error_app2 by lia.
      replace (length (s_total (gen_state G gn)) + (i * g_Nx geo + p) - length (s_total (gen_state G gn)))%nat with (i * g_Nx geo + p)%nat by lia.
      rewrite (nth_concat _ _ _ _ _ _ HFS Hfi Hp). reflexivity. }
    rewrite HI.
    assert (HW : node_value (with_profile prof h) p q r = Some (xadd (Fin (u / sd)) m, Fin (v / sd), Fin (w / sd))).
    { apply node_profile; [|exact Hm]. subst h. apply (node_fmap _ _ (fun v => v / sd)). exact HV. }
    assert (HS : shaped (g_Nx geo) (g_Ny geo) (g_Nz geo) (with_profile prof h)).
    { apply with_profile_shaped; [exact LP|]. subst h. apply fmap_shaped. apply (block_shaped geo _ Hs HN). }
    exact (low_node geo (gen_low G gn0) i p q r _ fi _ _ _ Hs HS HA Hp Hq HW).
Qed.

(** ** Sizes and amplitude of a constructed generator *)

Lemma constructed_sizes : forall stored G (seeded : Z -> G) sampler C2 (low_make : C2 -> G -> res (low_view * G)) a config w gn w' cs
  Lx Ly Lz lx ly lz,
  ga_dims a = (Lx, Ly, Lz) -> ga_levels a = (lx, ly, lz) -> 0 < Lx -> 0 < Ly -> 0 < Lz ->
  scales_of stored a = Ok cs -> 0 < cs_L cs -> 0 < cs_Gamma cs ->
  construct stored G seeded sampler C2 low_make a config w = Ok (gn, w') ->
  let geo := gen_geo G gn in
  exists nb my mz,
    rows geo = (2 ^ lx + 1 + 2 * nb + Z.to_nat (ga_blend a - 1))%nat
    /\ cols geo = (2 ^ ly + 1 + 2 * my)%nat /\ layers geo = (2 ^ lz + 1 + 2 * mz)%nat
    /\ g_nb geo = Z.of_nat nb /\ g_my geo = Z.of_nat my
    /\ (let dx := Lx / INR (2 ^ lx + 1) in 3 * cs_Gamma cs * cs_L cs <= INR nb * dx < 3 * cs_Gamma cs * cs_L cs + dx)
    /\ (let dy := Ly / INR (2 ^ ly + 1) in cs_L cs <= INR my * dy < cs_L cs + dy)
    /\ (let dz := Lz / INR (2 ^ lz + 1) in cs_L cs <= INR mz * dz < cs_L cs + dz)
    /\ 0 < gen_std G gn
    /\ (gen_std G gn)^2 * INR ((2 ^ lx + 1) * (2 ^ ly + 1) * (2 ^ lz + 1)) = Lx * Ly * Lz.
Proof.
  intros stored G seeded sampler C2 low_make a config w gn w' cs Lx Ly Lz lx ly lz ED EL HLx HLy HLz Hcs HL HT H. cbv zeta.
  unfold construct in H. rewrite Hcs in H. cbn [bind] in H. rewrite ED, EL in H.
  destruct (geometry_sound Lx Ly Lz lx ly lz (cs_L cs) (cs_Gamma cs) (ga_blend a) HLx HLy HLz HL HT)
    as (g & Eg & (_ & _ & _ & P1 & P2 & P3) & N1 & N2 & N3 & NB & _ & E1 & E2 & E3).
  rewrite Eg in H. cbn [bind] in H.
  assert (HG : gen_geo G gn = g /\ gen_std G gn = noise_std (Lx, Ly, Lz) (lx, ly, lz)).
  { destruct config as [c|].
    - destruct (low_make c (w_global G w)) as [lg|e]; [|discriminate H]. cbn [bind] in H.
      apply (f_equal (fun r => match r with Ok x => fst x | Err _ => gn end)) in H. cbn [fst] in H. subst gn. split; reflexivity.
    - apply (f_equal (fun r => match r with Ok x => fst x | Err _ => gn end)) in H. cbn [fst] in H. subst gn. split; reflexivity. }
  destruct HG as [-> HS]. exists (Z.to_nat (g_nb g)), (Z.to_nat (g_my g)), (Z.to_nat (g_mz g)).
  rewrite !(INR_IZR_INZ (Z.to_nat _)), !Z2Nat.id by lia.
  unfold rows, cols, layers, noise_shape, buffer_extension. rewrite N1, N2, N3, NB. fold (nodes lx) (nodes ly) (nodes lz).
  split; [destruct (Z.ltb_spec 0 (ga_blend a)); lia|].
  split; [lia|]. split; [lia|]. split; [reflexivity|]. split; [reflexivity|].
  split; [exact E1|]. split; [exact E2|]. split; [exact E3|].
  rewrite HS. unfold noise_std. pose proof (nodes_INR lx) as Q1. pose proof (nodes_INR ly) as Q2. pose proof (nodes_INR lz) as Q3.
  assert (PP : 0 < Lx / INR (nodes lx) * (Ly / INR (nodes ly)) * (Lz / INR (nodes lz))).
  { repeat apply Rmult_lt_0_compat; try assumption; apply Rinv_0_lt_compat; lra. }
  split; [apply sqrt_lt_R0; exact PP|].
  rewrite <- Rsqr_pow2, Rsqr_sqrt by lra. rewrite !mult_INR. field. repeat split; lra.
Qed.

Lemma stored_noise : forall G (gauss : G -> R * G) gn0 gn g0, usable gn0 -> fresh gn0 g0 -> reached gauss gn0 gn ->
  let geo := gen_geo G gn0 in
  s_noise (gen_state G gn) = None
  \/ exists t, s_noise (gen_state G gn)
       = Some (white_noise (stream gauss g0) (gen_std G gn0) (cols geo) (layers geo) (t * g_Nx geo) (rows geo)).
Proof.
  intros G gauss gn0 gn g0 Hu Hf Hr. cbv zeta. destruct (noise_window G gauss gn0 gn g0 Hu Hf Hr) as [H|[t H]]; [left; exact H|].
  right. exists t. rewrite H, noise_is_white. reflexivity.
Qed.
