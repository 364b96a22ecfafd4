(** Histories of generate calls. *)

From Coq Require Import String Reals Lra Lia List Arith ZArith Bool.
From Verif Require Import Prelude SpectraModel OpsProofs GenModel GenSpec GenProofs GenMore.
Import ListNotations.
Open Scope R_scope.

Section Api.

Variable G : Type.
Variable gauss : G -> R * G.

Local Notation geo gn := (gen_geo G gn).
Local Notation st gn := (gen_state G gn).
Local Notation at_k gn := (at_block G gauss (gen_geo G gn) (gen_std G gn)).

(** What never changes. *)
Definition same_setup (gn gn' : generator G) : Prop :=
  gen_geo G gn' = gen_geo G gn /\ gen_std G gn' = gen_std G gn /\ gen_correlate G gn' = gen_correlate G gn /\ gen_low G gn' = gen_low G gn.

Lemma call_setup : forall n a gn, same_setup gn (snd (gen_call G gauss n a gn)).
Proof. intros n a gn. unfold gen_call. destruct (generate _ _ _ _ _ _ _ _). repeat split. Qed.

Lemma calls_setup : forall calls gn, same_setup gn (snd (gen_calls G gauss calls gn)).
Proof.
  induction calls as [|[n a] calls IH]; intros gn; [repeat split|]. cbn [gen_calls].
  pose proof (call_setup n a gn) as H. destruct (gen_call G gauss n a gn) as [r gn1]. cbn [snd] in H.
  specialize (IH gn1). destruct (gen_calls G gauss calls gn1) as [rs gn2]. cbn [snd] in *.
  destruct H as (A & B & C & D), IH as (A' & B' & C' & D'). repeat split; congruence.
Qed.

(** One call on a generator which has attempted [k] blocks. *)
Lemma call_spec : forall n a gn g0 k, usable gn -> at_k gn g0 k (st gn) ->
  exists j fs, (j <= Z.to_nat n)%nat
  /\ s_total (st (snd (gen_call G gauss n a gn))) = s_total (st gn) ++ concat fs /\ length fs = j
  /\ (forall t f, nth_error fs t = Some f -> added G gauss (geo gn) (gen_std G gn) (gen_correlate G gn) (gen_low G gn) a g0 (k + t) t f)
  /\ ((fst (gen_call G gauss n a gn) = Ok (s_total (st (snd (gen_call G gauss n a gn)))) /\ j = Z.to_nat n
       /\ at_k gn g0 (k + Z.to_nat n) (st (snd (gen_call G gauss n a gn))))
      \/ (exists e, fst (gen_call G gauss n a gn) = Err e /\ (j < Z.to_nat n)%nat
          /\ at_k gn g0 (k + j + 1) (st (snd (gen_call G gauss n a gn))))).
Proof.
  intros n a gn g0 k [Hs Hc] Hk.
  destruct (loop_spec G gauss (geo gn) (gen_std G gn) (gen_correlate G gn) (gen_low G gn) Hs Hc a (Z.to_nat n) 0 g0 k (st gn) Hk)
    as (j & fs & r & s' & Hj & EL & HT & HL & HF & HR).
  unfold gen_call, generate. rewrite EL. exists j, fs. split; [exact Hj|].
  destruct HR as [(-> & -> & Hk')|(e & -> & Hlt & Hk')]; cbn [fst snd gen_state].
  - split; [exact HT|]. split; [exact HL|]. split; [exact HF|]. left. split; [reflexivity|]. split; [reflexivity|exact Hk'].
  - split; [exact HT|]. split; [exact HL|]. split; [exact HF|]. right. exists e. split; [reflexivity|]. split; [exact Hlt|exact Hk'].
Qed.

Lemma usable_setup : forall gn gn', same_setup gn gn' -> usable gn -> usable gn'.
Proof. intros gn gn' (A & B & C & D) [Hs Hc]. split; [rewrite A|rewrite C]; assumption. Qed.

Lemma reached_at : forall calls gn g0 k, usable gn -> at_k gn g0 k (st gn) ->
  exists k', at_k gn g0 k' (st (snd (gen_calls G gauss calls gn))).
Proof.
  induction calls as [|[n a] calls IH]; intros gn g0 k Hu Hk; [exists k; exact Hk|]. cbn [gen_calls].
  pose proof (call_setup n a gn) as Hset.
  destruct (call_spec n a gn g0 k Hu Hk) as (j & fs & _ & _ & _ & _ & HR).
  destruct (gen_call G gauss n a gn) as [r gn1] eqn:E. cbn [fst snd] in *.
  assert (exists k1, at_k gn g0 k1 (st gn1)) as (k1 & Hk1).
  { destruct HR as [(_ & _ & H)|(e & _ & _ & H)]; eexists; exact H. }
  pose proof Hset as (A & B & C & D). specialize (IH gn1 g0 k1 (usable_setup _ _ Hset Hu)).
  rewrite A, B in IH. destruct (IH Hk1) as (k' & Hk'). exists k'.
  destruct (gen_calls G gauss calls gn1) as [rs gn2]. exact Hk'.
Qed.

Lemma fresh_at : forall gn g0, fresh gn g0 -> at_k gn g0 0 (st gn).
Proof. intros gn g0 H. red in H. rewrite H. split; reflexivity. Qed.

(** Extents of the total field. *)
Lemma calls_shaped : forall calls gn g0 k, usable gn -> at_k gn g0 k (st gn) ->
  (exists m, shaped (m * g_Nx (geo gn)) (g_Ny (geo gn)) (g_Nz (geo gn)) (s_total (st gn))) ->
  exists m, shaped (m * g_Nx (geo gn)) (g_Ny (geo gn)) (g_Nz (geo gn)) (s_total (st (snd (gen_calls G gauss calls gn)))).
Proof.
  induction calls as [|[n a] calls IH]; intros gn g0 k Hu Hk Hm; [exact Hm|]. cbn [gen_calls].
  pose proof (call_setup n a gn) as Hset.
  destruct (call_spec n a gn g0 k Hu Hk) as (j & fs & _ & HT & HL & HF & HR).
  destruct (gen_call G gauss n a gn) as [r gn1] eqn:E. cbn [fst snd] in *.
  assert (exists k1, at_k gn g0 k1 (st gn1)) as (k1 & Hk1).
  { destruct HR as [(_ & _ & H)|(e & _ & _ & H)]; eexists; exact H. }
  pose proof Hset as (A & B & C & D). specialize (IH gn1 g0 k1 (usable_setup _ _ Hset Hu)).
  rewrite A, B in IH. destruct (gen_calls G gauss calls gn1) as [rs gn2]. apply IH; [exact Hk1|].
  destruct Hm as (m & [Hl Hp]). exists (m + j)%nat. rewrite HT.
  destruct (concat_rows G gauss (geo gn) (gen_std G gn) (gen_correlate G gn) (gen_low G gn) a g0 fs _ _ HF) as [Hl' Hp'].
  split; [rewrite app_length, Hl; rewrite Hl'; unfold field in *; rewrite HL; lia|]. apply Forall_app. tauto.
Qed.

Lemma total_shape : forall gn0 gn g0, usable gn0 -> fresh gn0 g0 -> reached gauss gn0 gn ->
  exists m, shaped (m * g_Nx (geo gn0)) (g_Ny (geo gn0)) (g_Nz (geo gn0)) (s_total (st gn)).
Proof.
  intros gn0 gn g0 Hu Hf [calls ->]. eapply calls_shaped; [exact Hu|apply fresh_at; exact Hf|].
  exists 0%nat. red in Hf. rewrite Hf. split; [reflexivity|constructor].
Qed.

(** Appending. *)
Lemma call_appends : forall gn0 gn g0 n a, usable gn0 -> fresh gn0 g0 -> reached gauss gn0 gn ->
  exists j new, (j <= Z.to_nat n)%nat
  /\ s_total (st (snd (gen_call G gauss n a gn))) = s_total (st gn) ++ new
  /\ shaped (j * g_Nx (geo gn0)) (g_Ny (geo gn0)) (g_Nz (geo gn0)) new
  /\ match fst (gen_call G gauss n a gn) with
     | Ok f => j = Z.to_nat n /\ f = s_total (st gn) ++ new
     | Err _ => (j < Z.to_nat n)%nat
     end.
Proof.
  intros gn0 gn g0 n a Hu Hf [calls ->]. destruct (reached_at calls gn0 g0 0 Hu (fresh_at _ _ Hf)) as (k & Hk).
  pose proof (calls_setup calls gn0) as Hset. set (gn := snd (gen_calls G gauss calls gn0)) in *.
  pose proof Hset as (A & B & C & D). rewrite <- A, <- B in Hk.
  destruct (call_spec n a gn g0 k (usable_setup _ _ Hset Hu) Hk) as (j & fs & Hj & HT & HL & HF & HR).
  exists j, (concat fs). split; [exact Hj|]. split; [exact HT|]. split.
  - rewrite <- HL, <- A. eapply concat_rows. exact HF.
  - destruct HR as [(-> & E & _)|(e & -> & E & _)]; [split; [exact E|exact HT]|exact E].
Qed.

(** The noise is always a window of the stream. *)
Lemma noise_window : forall gn0 gn g0, usable gn0 -> fresh gn0 g0 -> reached gauss gn0 gn ->
  s_noise (st gn) = None
  \/ exists t, s_noise (st gn) = Some (window (noise_stream gauss (geo gn0) (gen_std G gn0) g0) (t * g_Nx (geo gn0)) (rows (geo gn0))).
Proof.
  intros gn0 gn g0 Hu Hf [calls ->]. destruct (reached_at calls gn0 g0 0 Hu (fresh_at _ _ Hf)) as ([|t] & Hk).
  - left. apply Hk.
  - right. exists t. apply Hk.
Qed.

(** Content of the total field after successful calls, without low-frequency field. *)
Lemma calls_content : forall calls gn g0 k, usable gn -> gen_low G gn = None -> at_k gn g0 k (st gn) ->
  all_ok (fst (gen_calls G gauss calls gn)) ->
  exists fs, s_total (st (snd (gen_calls G gauss calls gn))) = s_total (st gn) ++ concat fs
  /\ length fs = length (block_args calls)
  /\ at_k gn g0 (k + length fs) (st (snd (gen_calls G gauss calls gn)))
  /\ forall t f a, nth_error fs t = Some f -> nth_error (block_args calls) t = Some a ->
       exists prof sd, mean_profile (geo gn) a = Ok prof /\ 0 < sd
       /\ unit_energy (fmap (fun v => v / sd) (raw_block gauss (geo gn) (gen_std G gn) (gen_correlate G gn) g0 (k + t)))
       /\ f = with_profile prof (fmap (fun v => v / sd) (raw_block gauss (geo gn) (gen_std G gn) (gen_correlate G gn) g0 (k + t))).
Proof.
  induction calls as [|[n a] calls IH]; intros gn g0 k Hu Hlow Hk Hok.
  { exists []. split; [cbn; rewrite app_nil_r; reflexivity|]. split; [reflexivity|]. split; [cbn [length]; rewrite Nat.add_0_r; exact Hk|].
    intros [|t] f a H; discriminate H. }
  cbn [gen_calls] in *. pose proof (call_setup n a gn) as Hset.
  destruct (call_spec n a gn g0 k Hu Hk) as (j & fs & _ & HT & HL & HF & HR).
  destruct (gen_call G gauss n a gn) as [r gn1] eqn:E. cbn [fst snd] in *.
  pose proof Hset as (A & B & C & D). specialize (IH gn1 g0 (k + Z.to_nat n)%nat (usable_setup _ _ Hset Hu)).
  rewrite A, B, C, D in IH. destruct (gen_calls G gauss calls gn1) as [rs gn2] eqn:E2. cbn [fst snd] in *.
  inversion Hok as [|x l [v Hv] Hok']. subst x l.
  destruct HR as [(Er & -> & Hk1)|(e & Er & _)]; [|rewrite Er in Hv; discriminate].
  destruct (IH Hlow Hk1 Hok') as (fs' & HT' & HL' & Hk' & HF'). exists (fs ++ fs').
  split; [rewrite HT', HT, concat_app, app_assoc; reflexivity|].
  assert (LB : length (repeat a (Z.to_nat n)) = length fs) by (rewrite repeat_length; symmetry; exact HL).
  unfold block_args in *. cbn [flat_map fst snd]. split; [rewrite !app_length, HL', LB; reflexivity|].
  split; [rewrite app_length, HL; replace (k + (Z.to_nat n + length fs'))%nat with (k + Z.to_nat n + length fs')%nat by lia; exact Hk'|].
  intros t f a' Hf Ha. destruct (Nat.lt_ge_cases t (length fs)) as [Hlt|Hge].
  - rewrite nth_error_app1 in Hf by exact Hlt. rewrite nth_error_app1 in Ha by lia.
    apply nth_error_In, repeat_spec in Ha. subst a'.
    destruct (HF t f Hf) as (prof & sd & h & HP & Hsd & Hh & HU & HA & _). rewrite Hlow in HA. cbn [add_low] in HA.
    injection HA as <-. exists prof, sd. subst h. split; [exact HP|]. split; [exact Hsd|]. split; [exact HU|reflexivity].
  - rewrite nth_error_app2 in Hf by exact Hge. rewrite nth_error_app2 in Ha by lia. rewrite LB in Ha.
    destruct (HF' _ _ _ Hf Ha) as (prof & sd & HP & Hsd & HU & Ef). exists prof, sd.
    replace (k + t)%nat with (k + Z.to_nat n + (t - length fs))%nat by lia. tauto.
Qed.

Lemma content_from_fresh : forall calls gn g0, usable gn -> gen_low G gn = None -> fresh gn g0 ->
  all_ok (fst (gen_calls G gauss calls gn)) ->
  exists fs, s_total (st (snd (gen_calls G gauss calls gn))) = concat fs
  /\ length fs = length (block_args calls)
  /\ forall t f a, nth_error fs t = Some f -> nth_error (block_args calls) t = Some a ->
       exists prof sd, mean_profile (geo gn) a = Ok prof /\ 0 < sd
       /\ unit_energy (fmap (fun v => v / sd) (raw_block gauss (geo gn) (gen_std G gn) (gen_correlate G gn) g0 t))
       /\ f = with_profile prof (fmap (fun v => v / sd) (raw_block gauss (geo gn) (gen_std G gn) (gen_correlate G gn) g0 t)).
Proof.
  intros calls gn g0 Hu Hlow Hf Hok. destruct (calls_content calls gn g0 0 Hu Hlow (fresh_at _ _ Hf) Hok) as (fs & HT & HL & _ & HF).
  exists fs. red in Hf. rewrite Hf in HT. split; [exact HT|]. split; [exact HL|exact HF].
Qed.

Lemma exact_noise : forall calls gn g0, usable gn -> gen_low G gn = None -> fresh gn g0 ->
  all_ok (fst (gen_calls G gauss calls gn)) -> (1 <= length (block_args calls))%nat ->
  s_noise (st (snd (gen_calls G gauss calls gn)))
  = Some (window (noise_stream gauss (geo gn) (gen_std G gn) g0) ((length (block_args calls) - 1) * g_Nx (geo gn)) (rows (geo gn))).
Proof.
  intros calls gn g0 Hu Hlow Hf Hok Hn. destruct (calls_content calls gn g0 0 Hu Hlow (fresh_at _ _ Hf) Hok) as (fs & HT & HL & Hk & HF).
  rewrite HL in Hk. destruct (length (block_args calls)) as [|t]; [lia|]. cbn [Nat.add] in Hk. destruct Hk as [Hk _].
  rewrite Hk. f_equal. f_equal. lia.
Qed.

(** A call succeeds exactly when its arguments are accepted and its blocks contain
    a nonzero value. *)
Lemma loop_succeeds : forall gn g0 a n i k s, usable gn -> low_ready (gen_low G gn) -> ~ bad_profile a ->
  at_k gn g0 k s ->
  (forall t, (t < n)%nat -> nonzero (raw_block gauss (geo gn) (gen_std G gn) (gen_correlate G gn) g0 (k + t))) ->
  exists s', generate_loop gauss (geo gn) (gen_std G gn) (gen_correlate G gn) (gen_low G gn) a n i s = (Ok tt, s').
Proof.
  intros gn g0 a n. induction n as [|n IH]; intros i k s Hu LR B Hk Hn; [eexists; reflexivity|].
  destruct Hu as [Hs Hc]. cbn [generate_loop].
  destruct (one_spec G gauss (geo gn) (gen_std G gn) (gen_correlate G gn) (gen_low G gn) Hs Hc a i g0 k s Hk)
    as [(_ & _ & _ & f & s1 & _ & E & Hk1 & _)|([?|[N|?]] & _)]; try contradiction.
  - rewrite E. apply (IH (S i) (S k) s1); try assumption; [split; assumption|].
    intros t Ht. replace (S k + t)%nat with (k + S t)%nat by lia. apply Hn. lia.
  - exfalso. apply N. specialize (Hn 0%nat ltac:(lia)). rewrite Nat.add_0_r in Hn. exact Hn.
Qed.

Lemma call_succeeds : forall gn g0 k n a, usable gn -> low_ready (gen_low G gn) -> ~ bad_profile a -> at_k gn g0 k (st gn) ->
  (forall t, (t < Z.to_nat n)%nat -> nonzero (raw_block gauss (geo gn) (gen_std G gn) (gen_correlate G gn) g0 (k + t))) ->
  exists f, fst (gen_call G gauss n a gn) = Ok f.
Proof.
  intros gn g0 k n a Hu LR B Hk Hn. destruct (loop_succeeds gn g0 a (Z.to_nat n) 0 k (st gn) Hu LR B Hk Hn) as (s' & E).
  unfold gen_call, generate. rewrite E. eexists. reflexivity.
Qed.

(** Rejected calls. *)
Lemma bad_call : forall gn0 gn g0 n a, usable gn0 -> fresh gn0 g0 -> reached gauss gn0 gn -> bad_profile a -> (1 <= n)%Z ->
  fst (gen_call G gauss n a gn) = Err ValueError
  /\ s_total (st (snd (gen_call G gauss n a gn))) = s_total (st gn)
  /\ s_noise (st (snd (gen_call G gauss n a gn))) <> None
  /\ exists k, at_k gn0 g0 k (st gn) /\ at_k gn0 g0 (S k) (st (snd (gen_call G gauss n a gn))).
Proof.
  intros gn0 gn g0 n a Hu Hf [calls ->] B Hn. destruct (reached_at calls gn0 g0 0 Hu (fresh_at _ _ Hf)) as (k & Hk).
  pose proof (calls_setup calls gn0) as Hset. set (gn := snd (gen_calls G gauss calls gn0)) in *.
  pose proof Hset as (A & B' & C & D). pose proof (usable_setup _ _ Hset Hu) as [Hs Hc]. pose proof Hk as Hk0. rewrite <- A, <- B' in Hk.
  unfold gen_call, generate. destruct (Z.to_nat n) as [|m] eqn:En; [lia|]. cbn [generate_loop].
  destruct (one_spec G gauss (geo gn) (gen_std G gn) (gen_correlate G gn) (gen_low G gn) Hs Hc a 0 g0 k (st gn) Hk)
    as [(NB & _)|(_ & e & s' & E & Hk' & Ht & He)]; [contradiction|]. rewrite E. cbn [fst snd gen_state].
  rewrite (He (or_introl B)). split; [reflexivity|]. split; [exact Ht|]. split.
  - destruct Hk' as [-> _]. discriminate.
  - exists k. rewrite A, B' in Hk'. split; assumption.
Qed.

(** Composition. *)
Lemma one_index : forall ge std corr a i j s,
  generate_one gauss ge std corr None a i s = generate_one gauss ge std corr None a j s.
Proof. intros. unfold generate_one. destruct (generate_block _ _ _ _ s) as [[b|e] s1]; reflexivity. Qed.

Lemma loop_index : forall ge std corr a n i j s,
  generate_loop gauss ge std corr None a n i s = generate_loop gauss ge std corr None a n j s.
Proof.
  intros ge std corr a n. induction n as [|n IH]; intros i j s; [reflexivity|]. cbn [generate_loop].
  rewrite (one_index ge std corr a i j). destruct (generate_one _ _ _ _ _ _ j s) as [[x|e] s1]; [apply IH|reflexivity].
Qed.

Lemma loop_app : forall ge std corr low a n m i s,
  generate_loop gauss ge std corr low a (n + m) i s
  = match generate_loop gauss ge std corr low a n i s with
    | (Ok _, s1) => generate_loop gauss ge std corr low a m (i + n) s1
    | (Err e, s1) => (Err e, s1)
    end.
Proof.
  intros ge std corr low a n. induction n as [|n IH]; intros m i s; [cbn; rewrite Nat.add_0_r; reflexivity|].
  cbn [Nat.add generate_loop]. destruct (generate_one _ _ _ _ _ _ i s) as [[x|e] s1]; [|reflexivity].
  rewrite IH. destruct (generate_loop _ _ _ _ _ _ n (S i) s1) as [[y|e] s2]; [|reflexivity]. f_equal. lia.
Qed.

Lemma calls_compose : forall gn n m a, (0 <= n)%Z -> (0 <= m)%Z -> gen_low G gn = None ->
  gen_call G gauss (n + m) a gn
  = match gen_call G gauss n a gn with
    | (Ok _, gn1) => gen_call G gauss m a gn1
    | (Err e, gn1) => (Err e, gn1)
    end.
Proof.
  intros gn n m a Hn Hm Hl. unfold gen_call, generate. rewrite Z2Nat.inj_add by assumption. rewrite loop_app, Hl.
  destruct (generate_loop _ _ _ _ _ _ (Z.to_nat n) 0 _) as [[x|e] s1]; [|reflexivity].
  cbn [gen_geo gen_std gen_correlate gen_low gen_state]. rewrite (loop_index _ _ _ _ _ _ 0%nat).
  destruct (generate_loop _ _ _ _ _ _ (Z.to_nat m) 0 _) as [[y|e] s2]; reflexivity.
Qed.

End Api.
