(** Constructed generators, comparison of block factors and a small concrete
    generator used as a witness. *)

From Coq Require Import String Reals Lra Lia List Arith ZArith Bool.
From Verif Require Import Prelude SpectraModel OpsProofs GenModel GenSpec GenProofs GenMore GenApi GenPhys GenSeam.
Import ListNotations.
Open Scope R_scope.

(** ** Constructed generators *)

Lemma constructed : forall stored G (seeded : Z -> G) sampler C2 (low_make : C2 -> G -> res (low_view * G)) a config w gn w' cs,
  construct stored G seeded sampler C2 low_make a config w = Ok (gn, w') ->
  scales_of stored a = Ok cs ->
  let '(Lx, Ly, Lz) := ga_dims a in let '(lx, ly, lz) := ga_levels a in
  0 < Lx -> 0 < Ly -> 0 < Lz -> 0 < cs_L cs -> 0 < cs_Gamma cs ->
  (forall geo, shape_preserving (sampler (ga_model a) cs geo)) ->
  usable gn /\ fresh gn (match ga_seed a with Some s => seeded s | None => w_entropy G w end)
  /\ g_Nx (gen_geo G gn) = nodes lx /\ g_Ny (gen_geo G gn) = nodes ly /\ g_Nz (gen_geo G gn) = nodes lz
  /\ gen_std G gn = noise_std (ga_dims a) (ga_levels a)
  /\ (config = None -> gen_low G gn = None).
Proof.
  intros stored G seeded sampler C2 low_make a config w gn w' cs H Hcs.
  destruct (ga_dims a) as [[Lx Ly] Lz] eqn:ED. destruct (ga_levels a) as [[lx ly] lz] eqn:EL. intros HLx HLy HLz HL HT Hsp.
  unfold construct in H. rewrite Hcs in H. cbn [bind] in H. rewrite ED, EL in H.
  destruct (geometry_sound Lx Ly Lz lx ly lz (cs_L cs) (cs_Gamma cs) (ga_blend a) HLx HLy HLz HL HT) as (g & Eg & Hs & N1 & N2 & N3 & _).
  rewrite Eg in H. cbn [bind] in H. destruct config as [c|].
  - destruct (low_make c (w_global G w)) as [lg|e]; [|discriminate H]. cbn [bind] in H. injection H as <- _.
    split; [split; [exact Hs|apply Hsp]|]. split; [reflexivity|]. cbn [gen_geo gen_std]. repeat (split; [assumption|]). split; [reflexivity|]. discriminate.
  - injection H as <- _. split; [split; [exact Hs|apply Hsp]|]. split; [reflexivity|]. cbn [gen_geo gen_std gen_low].
    repeat (split; [assumption|]). split; reflexivity.
Qed.

Lemma constructed_shape : forall stored G (gauss : G -> R * G) (seeded : Z -> G) sampler C2 (low_make : C2 -> G -> res (low_view * G)) a config w gn0 w' cs
  Lx Ly Lz lx ly lz gn n p f,
  ga_dims a = (Lx, Ly, Lz) -> ga_levels a = (lx, ly, lz) ->
  0 < Lx -> 0 < Ly -> 0 < Lz ->
  scales_of stored a = Ok cs -> 0 < cs_L cs -> 0 < cs_Gamma cs ->
  (forall geo, shape_preserving (sampler (ga_model a) cs geo)) ->
  construct stored G seeded sampler C2 low_make a config w = Ok (gn0, w') ->
  reached gauss gn0 gn ->
  fst (gen_call G gauss n p gn) = Ok f ->
  exists m new, f = s_total (gen_state G gn) ++ new
  /\ shaped (m * nodes lx) (nodes ly) (nodes lz) (s_total (gen_state G gn))
  /\ shaped (Z.to_nat n * nodes lx) (nodes ly) (nodes lz) new.
Proof.
  intros stored G gauss seeded sampler C2 low_make a config w gn0 w' cs Lx Ly Lz lx ly lz gn n p f ED EL HLx HLy HLz Hcs HL HT Hsp HC HR Hok.
  pose proof (constructed stored G seeded sampler C2 low_make a config w gn0 w' cs HC Hcs) as K. rewrite ED, EL in K.
  destruct (K HLx HLy HLz HL HT Hsp) as (Hu & Hf & N1 & N2 & N3 & _).
  destruct (call_appends G gauss gn0 gn _ n p Hu Hf HR) as (j & new & _ & _ & Hn & HM). rewrite Hok in HM. destruct HM as [-> ->].
  destruct (total_shape G gauss gn0 gn _ Hu Hf HR) as (m & Hm). rewrite N1, N2, N3 in *. exists m, new. tauto.
Qed.

Lemma constructed_no_buffer : forall stored G (gauss : G -> R * G) (seeded : Z -> G) sampler C2 (low_make : C2 -> G -> res (low_view * G)) a w
  Lx Ly Lz lx ly lz L E,
  ga_dims a = (Lx, Ly, Lz) -> ga_levels a = (lx, ly, lz) -> 0 < Lx -> 0 < Ly -> 0 < Lz ->
  (ga_model a = "Mann" \/ ga_model a = "VK")%string -> ga_L a = Some L -> 0 < L -> ga_T a = Some 0 -> ga_E a = Some E -> 0 < ga_href a ->
  exists gn w', construct stored G seeded sampler C2 low_make a None w = Ok (gn, w')
  /\ forall calls r, In r (fst (gen_calls G gauss calls gn)) -> r = Ok [] \/ exists e, r = Err e.
Proof.
  intros stored G gauss seeded sampler C2 low_make a w Lx Ly Lz lx ly lz L E ED EL HLx HLy HLz HM ELs HL ET EE Hh.
  destruct (zero_time_geometry Lx Ly Lz lx ly lz L (ga_blend a) HLx HLy HLz HL) as (g & Eg & Hb).
  assert (HS : exists E0, scales_of stored a = Ok (CovScales L 0 E0)).
  { unfold scales_of. rewrite ELs, ET, EE. unfold xpow. destruct (Rlt_dec 0 (ga_href a)); [|contradiction].
    destruct HM as [-> | ->]; cbn; eexists; reflexivity. }
  destruct HS as [E0 HS]. do 2 eexists. split.
  { unfold construct. rewrite HS. cbn [bind cs_L cs_Gamma]. rewrite ED, EL, Eg. cbn [bind]. reflexivity. }
  intros calls.
  set (gn0 := Generator _ _ _ _ _ _).
  assert (I : forall gn, g_nb (gen_geo G gn) = 0%Z -> s_total (gen_state G gn) = [] ->
    forall r, In r (fst (gen_calls G gauss calls gn)) -> r = Ok [] \/ (exists e, r = Err e)).
  { induction calls as [|[n p] calls IH]; intros gn Hg Ht r Hr; [contradiction|]. cbn [gen_calls] in Hr.
    assert (Hstep : g_nb (gen_geo G (snd (gen_call G gauss n p gn))) = 0%Z /\ s_total (gen_state G (snd (gen_call G gauss n p gn))) = []
      /\ (fst (gen_call G gauss n p gn) = Ok [] \/ exists e, fst (gen_call G gauss n p gn) = Err e)).
    { unfold gen_call, generate. destruct (Z.to_nat n) as [|m].
      - cbn [generate_loop fst snd gen_geo gen_state]. rewrite Ht. tauto.
      - cbn [generate_loop]. unfold generate_one.
        destruct (generate_block gauss (gen_geo G gn) (gen_std G gn) (gen_correlate G gn) (gen_state G gn)) as [[b|e] s1] eqn:EB.
        + assert (s_total s1 = []).
          { unfold generate_block in EB. destruct (next_noise _ _ _ _) as [[nn|e] g1]; [|discriminate]. injection EB as _ <-. exact Ht. }
          rewrite (no_buffer_block _ _ _ _ _ _ _ _ Hg EB). unfold normalize_block, any_nonzero, entries. cbn [map concat existsb negb bind fst snd gen_geo gen_state].
          split; [exact Hg|]. split; [assumption|]. right. eexists. reflexivity.
        + assert (s_total s1 = []).
          { unfold generate_block in EB. destruct (next_noise _ _ _ _) as [[nn|e'] g1]; [discriminate|]. injection EB as _ <-. exact Ht. }
          cbn [fst snd gen_geo gen_state]. split; [exact Hg|]. split; [assumption|]. right. eexists. reflexivity. }
    destruct (gen_call G gauss n p gn) as [r1 gn1]. cbn [fst snd] in Hstep. destruct Hstep as (A & B & C).
    specialize (IH gn1 A B r). destruct (gen_calls G gauss calls gn1) as [rs gn2]. cbn [fst] in *. destruct Hr as [<-|Hr]; [exact C|apply IH; exact Hr]. }
  intros r Hr. apply (I gn0); [exact Hb|reflexivity|exact Hr].
Qed.

Lemma seed_determines : forall stored G (gauss : G -> R * G) (seeded : Z -> G) sampler C2 (low_make : C2 -> G -> res (low_view * G)) a w1 w2 s,
  ga_seed a = Some s ->
  match construct stored G seeded sampler C2 low_make a None w1, construct stored G seeded sampler C2 low_make a None w2 with
  | Ok (gn1, _), Ok (gn2, _) => forall calls, fst (gen_calls G gauss calls gn1) = fst (gen_calls G gauss calls gn2)
  | Err e1, Err e2 => e1 = e2
  | _, _ => False
  end.
Proof.
  intros stored G gauss seeded sampler C2 low_make a w1 w2 s Hs. unfold construct. rewrite Hs.
  destruct (scales_of stored a) as [cs|e]; [|reflexivity]. cbn [bind].
  destruct (make_geometry _ _ _ _ _) as [g|e]; [|reflexivity]. cbn [bind]. reflexivity.
Qed.

(** ** Factors of different blocks *)


Lemma energy_scaled : forall f c, energy (fmap (fun v => c * v) f) = c^2 * energy f.
Proof.
  intros f c. unfold energy. rewrite entries_fmap, map_map. rewrite <- Rmean_scale, map_map. f_equal. apply map_ext. intros v. ring.
Qed.

Lemma unit_energy_factor : forall f sd, 0 < sd -> unit_energy (fmap (fun v => v / sd) f) -> energy f = sd^2.
Proof.
  intros f sd Hsd H. unfold unit_energy in H. fold (energy (fmap (fun v => v / sd) f)) in H.
  replace (fmap (fun v => v / sd) f) with (fmap (fun v => / sd * v) f) in H.
  - rewrite energy_scaled in H. apply (Rmult_eq_reg_l ((/ sd)^2)); [|apply pow_nonzero; apply Rinv_neq_0_compat; lra]. rewrite H. field. lra.
  - unfold fmap. apply map_ext. intros p. apply map_ext. intros c. apply map_ext. intros [[x y] z]. unfold Rdiv. f_equal; [f_equal|]; ring.
Qed.


(** ** A concrete generator *)

(** Two nodes per direction, one buffer plane and one margin node on each side; the
    sampler returns the noise unchanged. *)
Definition demo_geo : geometry := Geometry 2 2 2 1 1 1 1 (2, 2, 2) 0.

(** First three planes of noise (48 values each) equal to 1, the others to -2. *)
Definition demo_gauss (c : nat) : R * nat := (if (c <? 144)%nat then 1 else -2, S c).

Definition demo (low : option low_view) : generator nat :=
  Generator nat demo_geo 1 (fun f => f) low (GState None [] 0%nat None).

Definition demo_args : profile_args := Profile 1 1 1 "PL" (Some 1).

Lemma demo_sound : sound demo_geo.
Proof. unfold sound, demo_geo. cbn. repeat split; lia. Qed.

Lemma demo_usable : forall low, usable (demo low).
Proof. intros low. split; [exact demo_sound|]. intros nx ny nz f H. exact H. Qed.

Lemma demo_fresh : forall low, fresh (demo low) 0%nat.
Proof. reflexivity. Qed.

Lemma demo_args_ok : ~ bad_profile demo_args.
Proof. unfold bad_profile, demo_args. cbn. intros [[_ H]|[H|[H|[H|[_ H]]]]]; try lra; [apply H; reflexivity|discriminate]. Qed.

Definition const_field (v : R) : field R := repeat (repeat (repeat (v, v, v) 2) 2) 2.

Lemma demo_block0 : raw_block demo_gauss demo_geo 1 (fun f => f) 0%nat 0 = const_field (1 * 1).
Proof. vm_compute. reflexivity. Qed.

Lemma demo_block1 : raw_block demo_gauss demo_geo 1 (fun f => f) 0%nat 1 = const_field (-2 * 1).
Proof. vm_compute. reflexivity. Qed.

Lemma const_nonzero : forall v, v <> 0 -> nonzero (const_field v).
Proof. intros v H. exists v. split; [left; reflexivity|exact H]. Qed.

Lemma const_energy : forall v, energy (const_field v) = v^2.
Proof.
  intros v. unfold energy, Rmean.
  change (map (fun v0 : R => v0 ^ 2) (entries (const_field v))) with (repeat (v^2) 24).
  cbn [repeat length Rsum fold_right]. unfold Rsum. cbn [fold_right INR]. field.
Qed.

Lemma demo_nonzero0 : nonzero (raw_block demo_gauss demo_geo 1 (fun f => f) 0%nat 0).
Proof. rewrite demo_block0. apply const_nonzero. lra. Qed.
Lemma demo_nonzero1 : nonzero (raw_block demo_gauss demo_geo 1 (fun f => f) 0%nat 1).
Proof. rewrite demo_block1. apply const_nonzero. lra. Qed.

(** ** One factor for all blocks? *)

Lemma column_inj : forall prof c c', Forall (fun m => exists v, m = Fin v) prof -> length c = length prof -> length c' = length prof ->
  map (fun vm : (R * R * R) * xr => match vm with ((a, b, d), m) => (xadd (Fin a) m, Fin b, Fin d) end) (combine c prof)
  = map (fun vm : (R * R * R) * xr => match vm with ((a, b, d), m) => (xadd (Fin a) m, Fin b, Fin d) end) (combine c' prof) -> c = c'.
Proof.
  induction prof as [|m prof IH]; intros [|[[a b] d] c] [|[[a' b'] d'] c'] HF HL HL' HE; try discriminate; [reflexivity|].
  cbn [combine map] in HE. apply Forall_cons_iff in HF. destruct HF as [[v ->] HF']. cbn [xadd] in HE. inversion HE as [[E1 E2 E3 E4]].
  f_equal; [f_equal; f_equal; lra|]. apply IH; try assumption; cbn in HL, HL'; lia.
Qed.

Lemma map_inj_on : forall A B (h : A -> B) (P : A -> Prop) l l', (forall x y, P x -> P y -> h x = h y -> x = y) -> Forall P l -> Forall P l' ->
  map h l = map h l' -> l = l'.
Proof.
  intros A B h P l. induction l as [|x l IH]; intros [|y l'] H F F' E; try discriminate; [reflexivity|]. cbn in E. inversion E.
  inversion F; subst. inversion F'; subst. f_equal; [apply H; assumption|]. apply IH; assumption.
Qed.

Lemma with_profile_inj : forall prof nx ny (f f' : field R), Forall (fun m => exists v, m = Fin v) prof ->
  shaped nx ny (length prof) f -> shaped nx ny (length prof) f' -> with_profile prof f = with_profile prof f' -> f = f'.
Proof.
  intros prof nx ny f f' HF [_ H] [_ H'] E. unfold with_profile in E.
  eapply map_inj_on with (P := fun p => length p = ny /\ Forall (fun c => length c = length prof) p); [|exact H|exact H'|exact E].
  intros p p' [_ Hp] [_ Hp'] Ep. eapply map_inj_on with (P := fun c => length c = length prof); [|exact Hp|exact Hp'|exact Ep].
  intros c c' Hc Hc' Ec. eapply column_inj; eassumption.
Qed.

Lemma app_len_inj : forall A (a b c d : list A), length a = length b -> a ++ c = b ++ d -> a = b /\ c = d.
Proof.
  intros A a. induction a as [|x a IH]; intros [|y b] c d HL E; try discriminate; [split; [reflexivity|exact E]|].
  cbn in HL, E. inversion E. destruct (IH b c d) as [-> ->]; [lia|assumption|]. split; reflexivity.
Qed.

Lemma concat_inj : forall A k (l l' : list (list A)), (0 < k)%nat -> Forall (fun x => length x = k) l -> Forall (fun x => length x = k) l' ->
  concat l = concat l' -> l = l'.
Proof.
  intros A k l. induction l as [|x l IH]; intros [|y l'] Hk F F' E; [reflexivity|exfalso|exfalso|].
  - inversion F'; subst. destruct y; [cbn in *; lia|discriminate].
  - inversion F; subst. destruct x; [cbn in *; lia|discriminate].
  - inversion F; subst. inversion F'; subst. cbn in E.
    destruct (app_len_inj _ x y (concat l) (concat l')) as [-> E']; [congruence|exact E|].
    f_equal. apply IH with (1 := Hk); assumption.
Qed.

Lemma fmap_entries_eq : forall (h h' : R -> R) f, fmap h f = fmap h' f -> forall v, In v (entries f) -> h v = h' v.
Proof.
  intros h h' f E. assert (M : map h (entries f) = map h' (entries f)) by (rewrite <- !entries_fmap, E; reflexivity).
  intros v Hv. revert M. induction (entries f) as [|x l IH]; intros M; [contradiction|]. cbn in M. inversion M. destruct Hv as [->|Hv]; [assumption|auto].
Qed.

Lemma zero_energy : forall f, ~ nonzero f -> energy f = 0.
Proof.
  intros f H. unfold energy, Rmean. replace (Rsum _) with 0; [unfold Rdiv; ring|].
  assert (Z : forall v, In v (entries f) -> v = 0).
  { intros v Hv. destruct (Req_dec v 0) as [E|E]; [exact E|]. exfalso. apply H. exists v. split; assumption. }
  induction (entries f) as [|x l IH]; [reflexivity|]. unfold Rsum in *. cbn [map fold_right]. rewrite <- IH by (intros v Hv; apply Z; right; exact Hv).
  rewrite (Z x) by (left; reflexivity). ring.
Qed.

Lemma common_factor : forall G (gauss : G -> R * G) gn g0 n a f prof sd,
  usable gn -> gen_low G gn = None -> fresh gn g0 ->
  fst (gen_call G gauss n a gn) = Ok f ->
  mean_profile (gen_geo G gn) a = Ok prof -> finite_profile prof -> sd <> 0 ->
  f = concat (map (fun t => with_profile prof (fmap (fun v => v / sd) (raw_block gauss (gen_geo G gn) (gen_std G gn) (gen_correlate G gn) g0 t))) (seq 0 (Z.to_nat n))) ->
  forall t, (t < Z.to_nat n)%nat -> energy (raw_block gauss (gen_geo G gn) (gen_std G gn) (gen_correlate G gn) g0 t) = sd^2.
Proof.
  intros G gauss gn g0 n a f prof sd Hu Hlow Hf Hok HP HF Hsd Ef t Ht.
  set (geo := gen_geo G gn) in *. set (std := gen_std G gn) in *. set (cor := gen_correlate G gn) in *. pose proof Hu as [Hs Hc].
  assert (RS : forall j, shaped (g_Nx geo) (g_Ny geo) (length prof) (raw_block gauss geo std cor g0 j)).
  { intros j. rewrite (mean_profile_length _ _ _ HP). apply (block_shape G gauss geo std cor Hs Hc). }
  assert (A : all_ok (fst (gen_calls G gauss [(n, a)] gn))).
  { cbn [gen_calls]. destruct (gen_call G gauss n a gn) as [r gn1]. cbn [fst] in *. constructor; [exists f; exact Hok|constructor]. }
  destruct (content_from_fresh G gauss [(n, a)] gn g0 Hu Hlow Hf A) as (fs & HT & HL & HC).
  assert (BA : block_args [(n, a)] = repeat a (Z.to_nat n)) by (unfold block_args; cbn [flat_map fst snd]; apply app_nil_r).
  rewrite BA in HL, HC. rewrite repeat_length in HL.
  assert (ET : f = concat fs).
  { rewrite <- HT. cbn [gen_calls]. destruct (call_spec G gauss n a gn g0 0 Hu (fresh_at _ _ _ _ Hf)) as (? & ? & ? & ? & ? & ? & HR).
    destruct (gen_call G gauss n a gn) as [r gn1]. cbn [fst snd] in *. destruct HR as [(HR & _)|(e & HR & _)]; congruence. }
  assert (FS : forall j fj, nth_error fs j = Some fj -> exists sdj, 0 < sdj /\ unit_energy (fmap (fun v => v / sdj) (raw_block gauss geo std cor g0 j))
    /\ fj = with_profile prof (fmap (fun v => v / sdj) (raw_block gauss geo std cor g0 j))).
  { intros j fj Hj. assert (Hjl : (j < Z.to_nat n)%nat) by (rewrite <- HL; apply nth_error_Some; congruence).
    destruct (HC j fj a Hj) as (prof' & sdj & HP' & H1 & H2 & H3).
    { unfold field in *. rewrite nth_error_nth' with (d := a) by (rewrite repeat_length; lia). f_equal. apply nth_repeat. }
    assert (prof' = prof) by (unfold geo in HP; congruence). subst prof'. exists sdj. tauto. }
  assert (EQ : fs = map (fun t => with_profile prof (fmap (fun v => v / sd) (raw_block gauss geo std cor g0 t))) (seq 0 (Z.to_nat n))).
  { apply concat_inj with (k := g_Nx geo).
    - destruct Hs as (H2 & _). unfold geo; lia.
    - apply Forall_forall. intros x Hx. apply In_nth_error in Hx. destruct Hx as [j Hj]. destruct (FS j x Hj) as (sdj & _ & _ & ->).
      unfold with_profile, fmap. rewrite !map_length. apply RS.
    - apply Forall_forall. intros x Hx. apply in_map_iff in Hx. destruct Hx as (j & <- & _). unfold with_profile, fmap. rewrite !map_length. apply RS.
    - rewrite <- ET. exact Ef. }
  assert (Hn : nth_error fs t = Some (with_profile prof (fmap (fun v => v / sd) (raw_block gauss geo std cor g0 t)))).
  { rewrite EQ, nth_error_map. rewrite nth_error_nth' with (d := 0%nat) by (rewrite seq_length; lia). rewrite seq_nth by lia. reflexivity. }
  destruct (FS t _ Hn) as (sdt & Hp & HU & E).
  apply with_profile_inj with (nx := g_Nx geo) (ny := g_Ny geo) in E; [|exact HF|apply fmap_shaped; apply RS|apply fmap_shaped; apply RS].
  pose proof (unit_energy_factor _ _ Hp HU) as EE. rewrite EE.
  assert (D : nonzero (raw_block gauss geo std cor g0 t) \/ ~ nonzero (raw_block gauss geo std cor g0 t)).
  { destruct (any_nonzero (raw_block gauss geo std cor g0 t)) eqn:EN; [left|right]; rewrite <- any_nonzero_iff; congruence. }
  destruct D as [[v [Hv Hv0]]|Z].
  - pose proof (fmap_entries_eq _ _ _ E v Hv) as EV. cbn beta in EV.
    assert (/ sd = / sdt) by (apply (Rmult_eq_reg_l v); assumption). assert (sd = sdt) by (rewrite <- (Rinv_involutive sd), <- (Rinv_involutive sdt) by lra; congruence). subst. reflexivity.
  - exfalso. rewrite (zero_energy _ Z) in EE. assert (0 < sdt^2) by (apply pow_lt; exact Hp). lra.
Qed.

Lemma demo_call : forall n, (0 <= n <= 2)%Z -> exists f, fst (gen_call nat demo_gauss n demo_args (demo None)) = Ok f.
Proof.
  intros n Hn. apply (call_succeeds nat demo_gauss (demo None) 0%nat 0 n demo_args); [apply demo_usable|exact I|exact demo_args_ok|apply fresh_at; apply demo_fresh|].
  intros t Ht. cbn [demo gen_geo gen_std gen_correlate]. destruct t as [|[|t]]; [apply demo_nonzero0|apply demo_nonzero1|lia].
Qed.

Lemma demo_profile : exists prof, mean_profile demo_geo demo_args = Ok prof /\ finite_profile prof.
Proof.
  eexists. split; [reflexivity|]. apply (profile_finite demo_geo demo_args); [exact demo_args_ok|cbn; lra|discriminate| |reflexivity].
  intros e _ H. injection H as <-. lra.
Qed.

Lemma demo_no_common_factor : exists f prof, fst (gen_call nat demo_gauss 2 demo_args (demo None)) = Ok f
  /\ mean_profile demo_geo demo_args = Ok prof /\ finite_profile prof
  /\ ~ exists sd, sd <> 0 /\ f = concat (map (fun t => with_profile prof (fmap (fun v => v / sd) (raw_block demo_gauss demo_geo 1 (fun x => x) 0%nat t))) (seq 0 2)).
Proof.
  destruct (demo_call 2 ltac:(lia)) as [f Hf]. destruct demo_profile as (prof & HP & HF). exists f, prof. split; [exact Hf|]. split; [exact HP|].
  split; [exact HF|]. intros (sd & Hsd & E).
  pose proof (common_factor nat demo_gauss (demo None) 0%nat 2 demo_args f prof sd (demo_usable _) eq_refl (demo_fresh _) Hf HP HF Hsd E) as K.
  pose proof (K 0%nat ltac:(cbn; lia)) as K0. pose proof (K 1%nat ltac:(cbn; lia)) as K1. cbn [demo gen_geo gen_std gen_correlate] in K0, K1.
  rewrite demo_block0, const_energy in K0. rewrite demo_block1, const_energy in K1. lra.
Qed.

(** ** Effect of a rejected call, and restart of the low-frequency field *)

Definition demo_field (p0 p1 v : R) : field xr :=
  repeat (repeat [(xadd (Fin v) (Fin p0), Fin v, Fin v); (xadd (Fin v) (Fin p1), Fin v, Fin v)] 2) 2.

Lemma demo_normal : forall v s, s <> 0 -> v^2 = s^2 -> 0 < s -> exists p0 p1,
  normalize_block demo_geo demo_args (const_field v) = Ok (demo_field p0 p1 (v / s)) /\ mean_profile demo_geo demo_args = Ok [Fin p0; Fin p1].
Proof.
  intros v s Hs E Hp. assert (NZ : v <> 0) by (intros ->; apply Hs; nra).
  destruct demo_profile as (prof & HP & HF). pose proof (mean_profile_length _ _ _ HP) as HL.
  destruct prof as [|m0 [|m1 [|]]]; try discriminate HL. inversion HF as [|? ? [p0 E0] HF']. subst. inversion HF' as [|? ? [p1 E1] _]. subst.
  exists p0, p1. split; [|exact HP].
  destruct (normalize_good demo_geo demo_args (const_field v) 2 2 demo_args_ok (const_nonzero v NZ)) as (prof & sd & HP' & Hsd & HU & EN).
  { split; [reflexivity|]. repeat constructor. }
  rewrite HP in HP'. injection HP' as <-. pose proof (unit_energy_factor _ _ Hsd HU) as EE. rewrite const_energy in EE.
  assert (sd = s) by (apply Rsqr_inj; [lra|lra|unfold Rsqr; nra]). subst sd. rewrite EN. reflexivity.
Qed.

Lemma demo_rejected : 
  let bad := Profile 1 1 1 "PL" None in
  bad_profile bad
  /\ fst (gen_call nat demo_gauss 1 bad (demo None)) = Err ValueError
  /\ gen_state nat (snd (gen_call nat demo_gauss 1 bad (demo None))) <> gen_state nat (demo None)
  /\ exists f f', fst (gen_call nat demo_gauss 1 demo_args (demo None)) = Ok f
     /\ fst (gen_call nat demo_gauss 1 demo_args (snd (gen_call nat demo_gauss 1 bad (demo None)))) = Ok f' /\ f <> f'.
Proof.
  cbv zeta. set (bad := Profile 1 1 1 "PL" None).
  assert (B : bad_profile bad) by (do 4 right; split; reflexivity). split; [exact B|].
  destruct (bad_call nat demo_gauss (demo None) (demo None) 0%nat 1 bad (demo_usable _) (demo_fresh _)) as (E & HT & HN & k & Hk & Hk'); [exists []; reflexivity|exact B|lia|].
  split; [exact E|]. split; [intros HE; apply HN; rewrite HE; reflexivity|].
  assert (k = 0)%nat by (destruct k as [|k]; [reflexivity|destruct Hk as [Hk _]; discriminate Hk]). subst k.
  destruct (demo_normal (1 * 1) 1) as (p0 & p1 & N0 & P0); [lra|lra|lra|].
  destruct (demo_normal (-2 * 1) 2) as (q0 & q1 & N1 & P1); [lra|lra|lra|].
  exists (demo_field p0 p1 (1 * 1 / 1)), (demo_field q0 q1 (-2 * 1 / 2)).
  set (gn1 := snd (gen_call nat demo_gauss 1 bad (demo None))) in *.
  pose proof (call_setup nat demo_gauss 1 bad (demo None)) as (S1 & S2 & S3 & S4). fold gn1 in S1, S2, S3, S4.
  assert (ST : forall gn kk b f, gen_geo nat gn = demo_geo -> gen_std nat gn = 1 -> gen_correlate nat gn = (fun x => x) -> gen_low nat gn = None ->
    at_block nat demo_gauss demo_geo 1 0%nat kk (gen_state nat gn) -> s_total (gen_state nat gn) = [] ->
    raw_block demo_gauss demo_geo 1 (fun x => x) 0%nat kk = b -> normalize_block demo_geo demo_args b = Ok f -> fits 2 2 f = true ->
    fst (gen_call nat demo_gauss 1 demo_args gn) = Ok f).
  { intros gn kk b f A1 A2 A3 A4 Hat Htot Hb Hn Hfit. unfold gen_call, generate. rewrite A1, A2, A3, A4. change (Z.to_nat 1) with 1%nat. cbn [generate_loop].
    unfold generate_one. destruct (generate_block_at nat demo_gauss demo_geo 1 (fun x => x) 0%nat kk (gen_state nat gn) demo_sound Hat) as (s1 & EB & _ & HT1).
    rewrite EB. change (delivered_block nat demo_gauss demo_geo 1 (fun x => x) 0%nat kk) with (raw_block demo_gauss demo_geo 1 (fun x => x) 0%nat kk).
    rewrite Hb, Hn. cbn [bind add_low]. change (g_Ny demo_geo) with 2%nat. change (g_Nz demo_geo) with 2%nat. rewrite Hfit. cbn [s_total fst].
    rewrite HT1, Htot. reflexivity. }
  split; [|split].
  - apply (ST (demo None) 0%nat (const_field (1 * 1)) _ eq_refl eq_refl eq_refl eq_refl); [apply (fresh_at nat demo_gauss (demo None)); apply demo_fresh|reflexivity|exact demo_block0|exact N0|reflexivity].
  - apply (ST gn1 1%nat (const_field (-2 * 1)) _ S1 S2 S3 S4); [exact Hk'|exact HT|exact demo_block1|exact N1|reflexivity].
  - intros HE. unfold demo_field in HE. cbn [repeat] in HE. inversion HE as [[E1 E2 E3]]. lra.
Qed.

Lemma demo_low_restart :
  let low := Some (LowView 2 (Some (fun x _ => (x, 0)))) in
  exists f f', fst (gen_call nat demo_gauss 2 demo_args (demo low)) = Ok f
  /\ fst (gen_call nat demo_gauss 1 demo_args (snd (gen_call nat demo_gauss 1 demo_args (demo low)))) = Ok f'
  /\ f <> f'.
Proof.
  cbv zeta. set (low := Some _).
  destruct (low_restart nat demo_gauss (demo low) _ (fun x _ => (x, 0)) 0%nat demo_args (demo_usable _) (demo_fresh _) eq_refl eq_refl demo_args_ok demo_nonzero0 demo_nonzero1)
    as (b0 & b1 & Hb0 & Hb1 & N0 & N1 & E2 & E1).
  eexists. eexists. split; [exact E2|]. split; [exact E1|]. intros HE. apply app_len_inj in HE; [|reflexivity]. destruct HE as [_ HE].
  cbn [demo gen_geo gen_std gen_correlate] in N1. rewrite demo_block1 in N1.
  destruct (demo_normal (-2 * 1) 2) as (q0 & q1 & M1 & _); [lra|lra|lra|]. rewrite M1 in N1. injection N1 as <-.
  unfold demo_field, add_slice, block_x, block_y in HE. cbn in HE. inversion HE as [[E EE]]. rewrite !Rmult_0_l in E. lra.
Qed.

(** ** Finite and infinite fields *)

Lemma in_entries : forall A (f : field A) p c a b d v, In p f -> In c p -> In (a, b, d) c -> In v [a; b; d] -> In v (entries f).
Proof.
  intros A f p c a b d v Hp Hc Ht Hv. unfold entries.
  assert (IC : forall (B : Type) (h : B -> list A) l x, In x l -> In v (h x) -> In v (concat (map h l))).
  { intros B h l x Hx Hh. apply in_concat. exists (h x). split; [apply in_map; exact Hx|exact Hh]. }
  apply (IC _ _ _ p Hp). apply (IC _ _ _ c Hc). apply (IC _ _ _ (a, b, d) Ht). exact Hv.
Qed.

Lemma entries_in : forall A (f : field A) v, In v (entries f) -> exists p c a b d, In p f /\ In c p /\ In (a, b, d) c /\ In v [a; b; d].
Proof.
  intros A f v H. unfold entries in H. apply in_concat in H. destruct H as (l1 & H1 & H). apply in_map_iff in H1. destruct H1 as (p & <- & Hp).
  apply in_concat in H. destruct H as (l2 & H2 & H). apply in_map_iff in H2. destruct H2 as (c & <- & Hc).
  apply in_concat in H. destruct H as (l3 & H3 & H). apply in_map_iff in H3. destruct H3 as ([[a b] d] & <- & Ht). exists p, c, a, b, d. tauto.
Qed.

Lemma first_layer_value : forall m prof block nx ny, nonzero block -> shaped nx ny (S (length prof)) block ->
  (forall a, xadd (Fin a) m = m) -> forall sd, In m (entries (with_profile (m :: prof) (fmap (fun v => v / sd) block))).
Proof.
  intros m prof block nx ny (v & Hv & _) [_ Hs] Hm sd. apply entries_in in Hv. destruct Hv as (p & c & a & b & d & Hp & Hc & _ & _).
  rewrite Forall_forall in Hs. destruct (Hs p Hp) as [_ Hcs]. rewrite Forall_forall in Hcs. specialize (Hcs c Hc).
  destruct c as [|[[x y] z] c']; [discriminate|].
  eapply in_entries with (a := xadd (Fin (x / sd)) m) (b := Fin (y / sd)) (d := Fin (z / sd)).
  - unfold with_profile, fmap. apply in_map. apply in_map. exact Hp.
  - apply in_map. apply in_map. exact Hc.
  - left. reflexivity.
  - left. apply Hm.
Qed.

Lemma nan_field : forall g a block nx ny, p_type a = "LOG"%string -> p_zref a = p_z0 a -> ~ bad_profile a -> nonzero block ->
  shaped nx ny (nodes (g_lz g)) block ->
  exists f, normalize_block g a block = Ok f /\ In NaN (entries f).
Proof.
  intros g a block nx ny HT HZ HB HN HS. assert (H0 : 0 < p_z0 a) by (destruct (Rlt_dec 0 (p_z0 a)); [assumption|exfalso; apply HB; do 3 right; left; lra]).
  destruct (normalize_good g a block nx ny HB HN HS) as (prof & sd & HP & _ & _ & E). rewrite E. eexists. split; [reflexivity|].
  destruct (log_profile_nan g a HT HZ H0) as (prof' & HP'). rewrite HP in HP'. injection HP' as ->.
  pose proof (mean_profile_length _ _ _ HP) as HL. cbn [length] in HL. rewrite <- HL in HS.
  eapply first_layer_value; [exact HN|exact HS|]. reflexivity.
Qed.

Lemma inf_field : forall g a e block nx ny, p_type a = "PL"%string -> p_exp a = Some e -> e < 0 -> ~ bad_profile a -> nonzero block ->
  shaped nx ny (nodes (g_lz g)) block ->
  exists f, normalize_block g a block = Ok f /\ In PInf (entries f).
Proof.
  intros g a e block nx ny HT HE He HB HN HS.
  assert (H0 : 0 < p_zref a) by (destruct (Rlt_dec 0 (p_zref a)); [assumption|exfalso; apply HB; right; left; lra]).
  assert (H1 : 0 < p_uref a) by (destruct (Rlt_dec 0 (p_uref a)); [assumption|exfalso; apply HB; do 2 right; left; lra]).
  destruct (normalize_good g a block nx ny HB HN HS) as (prof & sd & HP & _ & _ & E). rewrite E. eexists. split; [reflexivity|].
  destruct (power_profile_inf g a e HT HE He H0 H1) as (prof' & HP'). rewrite HP in HP'. injection HP' as ->.
  pose proof (mean_profile_length _ _ _ HP) as HL. cbn [length] in HL. rewrite <- HL in HS.
  eapply first_layer_value; [exact HN|exact HS|]. reflexivity.
Qed.

Lemma finite_field : forall g a block nx ny f, 0 <= snd (g_dims g) ->
  (p_type a = "LOG"%string -> p_zref a <> p_z0 a) ->
  (forall e, p_type a = "PL"%string -> p_exp a = Some e -> 0 <= e) ->
  shaped nx ny (nodes (g_lz g)) block -> normalize_block g a block = Ok f ->
  Forall (fun v => exists r, v = Fin r) (entries f).
Proof.
  intros g a block nx ny f Hd HL HE HS HO.
  destruct (bad_dec a) as [B|B]; [rewrite (normalize_bad g a block B) in HO; discriminate|].
  assert (D : nonzero block \/ ~ nonzero block).
  { destruct (any_nonzero block) eqn:EN; [left|right]; rewrite <- any_nonzero_iff; congruence. }
  destruct D as [N|N]; [|rewrite (normalize_zero g a block N) in HO; discriminate].
  destruct (normalize_good g a block nx ny B N HS) as (prof & sd & HP & _ & _ & E). rewrite E in HO. injection HO as <-.
  pose proof (profile_finite g a prof B Hd HL HE HP) as HF. red in HF. rewrite Forall_forall in HF.
  apply Forall_forall. intros v Hv. apply entries_in in Hv. destruct Hv as (p & c & x & y & z & Hp & Hc & Ht & Hv).
  unfold with_profile in Hp. apply in_map_iff in Hp. destruct Hp as (p' & <- & _). apply in_map_iff in Hc. destruct Hc as (c' & <- & _).
  apply in_map_iff in Ht. destruct Ht as ([[[x' y'] z'] m] & Et & Hin). apply in_combine_r in Hin. destruct (HF m Hin) as [r ->].
  injection Et as <- <- <-. destruct Hv as [<-|[<-|[<-|[]]]]; eexists; reflexivity.
Qed.

(** ** Positions of the low-frequency field within a call *)

Lemma low_positions : forall G (gauss : G -> R * G) gn0 gn g0 lv interp n a f,
  usable gn0 -> fresh gn0 g0 -> gen_low G gn0 = Some lv -> lv_interp lv = Some interp -> reached gauss gn0 gn ->
  fst (gen_call G gauss n a gn) = Ok f ->
  let geo := gen_geo G gn0 in
  exists k bs, length bs = Z.to_nat n
  /\ f = s_total (gen_state G gn)
         ++ concat (map (fun ib => add_slice interp (block_x geo (fst ib) (g_Nx geo)) (block_y geo (lv_L2 lv)) (snd ib)) (combine (seq 0 (Z.to_nat n)) bs))
  /\ forall i b, nth_error bs i = Some b ->
       exists prof sd, mean_profile geo a = Ok prof /\ 0 < sd
       /\ b = with_profile prof (fmap (fun v => v / sd) (raw_block gauss geo (gen_std G gn0) (gen_correlate G gn0) g0 (k + i)%nat)).
Proof.
  intros G gauss gn0 gn g0 lv interp n a f Hu Hf Hlow Hint [calls ->] Hok. cbv zeta.
  destruct (reached_at G gauss calls gn0 g0 0 Hu (fresh_at _ _ _ _ Hf)) as (k & Hk).
  pose proof (calls_setup G gauss calls gn0) as Hset. set (gn := snd (gen_calls G gauss calls gn0)) in *.
  pose proof Hset as (A & B & C & D). rewrite <- A, <- B in Hk. pose proof (usable_setup _ _ _ Hset Hu) as Hu'. pose proof Hu' as [Hs Hc].
  destruct (call_spec G gauss n a gn g0 k Hu' Hk) as (j & fs & _ & HT & HL & HF & HR).
  destruct HR as [(E & -> & _)|(e & E & _)]; [|congruence]. rewrite Hok in E. injection E as E. rewrite <- E in HT.
  rewrite A, B, C, D, Hlow in HF. rewrite A, C in *. clear Hk Hok E.
  set (geo := gen_geo G gn0) in *. set (std := gen_std G gn0) in *. set (cor := gen_correlate G gn0) in *.
  assert (AL : forall i h f', shaped (g_Nx geo) (g_Ny geo) (g_Nz geo) h -> add_low geo (Some lv) i h = Ok f' ->
    f' = add_slice interp (block_x geo i (g_Nx geo)) (block_y geo (lv_L2 lv)) h).
  { intros i h f' Hh HA. unfold add_low in HA. rewrite Hint in HA. destruct (forallb _ h); [|discriminate]. injection HA as <-. destruct Hh as [-> _]. reflexivity. }
  exists k.
  assert (IND : forall m fs0 i0, length fs0 = m ->
    (forall t f0, nth_error fs0 t = Some f0 -> added G gauss geo std cor (Some lv) a g0 (k + (i0 + t)) (i0 + t) f0) ->
    exists bs, length bs = m
    /\ concat fs0 = concat (map (fun ib => add_slice interp (block_x geo (fst ib) (g_Nx geo)) (block_y geo (lv_L2 lv)) (snd ib)) (combine (seq i0 m) bs))
    /\ forall t b, nth_error bs t = Some b -> exists prof sd, mean_profile geo a = Ok prof /\ 0 < sd
       /\ b = with_profile prof (fmap (fun v => v / sd) (raw_block gauss geo std cor g0 (k + (i0 + t))%nat))).
  { induction m as [|m IH]; intros fs0 i0 HL0 HF0.
    - exists []. destruct fs0; [|discriminate]. split; [reflexivity|]. split; [reflexivity|]. intros [|t] b Hb; discriminate Hb.
    - destruct fs0 as [|f0 fs0]; [discriminate|]. cbn [length] in HL0. injection HL0 as HL0.
      destruct (IH fs0 (S i0) HL0) as (bs & HLb & HCb & HFb).
      { intros t f1 H1. replace (S i0 + t)%nat with (i0 + S t)%nat by lia. apply HF0. exact H1. }
      destruct (HF0 0%nat f0 eq_refl) as (prof & sd & h & HP & Hsd & Hh & _ & HA & _). rewrite Nat.add_0_r in *.
      exists (with_profile prof h :: bs). split; [cbn [length]; rewrite HLb; reflexivity|]. split.
      + cbn [seq combine map concat fst snd]. rewrite HCb. f_equal. apply AL; [|exact HA].
        apply with_profile_shaped; [rewrite (proj1 (proj2 (proj2 Hs))); eapply mean_profile_length; exact HP|].
        subst h. apply fmap_shaped. apply delivered_shaped; assumption.
      + intros [|t] b Hb.
        * injection Hb as <-. exists prof, sd. rewrite Nat.add_0_r. subst h. split; [exact HP|]. split; [exact Hsd|]. reflexivity.
        * destruct (HFb t b Hb) as (prof' & sd' & X). exists prof', sd'. replace (i0 + S t)%nat with (S i0 + t)%nat by lia. exact X. }
  destruct (IND (Z.to_nat n) fs 0%nat HL) as (bs & HLb & HCb & HFb); [exact HF|].
  exists bs. split; [exact HLb|]. split; [rewrite HT, HCb; reflexivity|]. exact HFb.
Qed.

Lemma block_positions : forall g i p, (0 < g_Nx g)%nat -> (p < g_Nx g)%nat ->
  nth_error (block_x g i (g_Nx g)) p = Some (INR (i * g_Nx g + p) * (fst (fst (g_dims g)) / INR (g_Nx g))).
Proof.
  intros g i p H0 Hp. unfold block_x. rewrite nth_error_map. rewrite nth_error_nth' with (d := 0%nat) by (rewrite seq_length; lia).
  rewrite seq_nth by lia. cbn [option_map Nat.add]. f_equal. rewrite plus_INR, mult_INR.
  assert (INR (g_Nx g) <> 0) by (apply not_0_INR; lia). field. assumption.
Qed.

(** ** A constructed generator that delivers a block *)

Lemma draw_many_Forall : forall G A (one : G -> A * G) (P : A -> Prop), (forall g, P (fst (one g))) -> forall n g, Forall P (fst (draw_many one n g)).
Proof.
  intros G A one P H n. induction n as [|n IH]; intros g; [constructor|]. cbn [draw_many]. pose proof (H g) as H1. destruct (one g) as [x g1].
  specialize (IH g1). destruct (draw_many one n g1) as [l g2]. constructor; [exact H1|exact IH].
Qed.

Lemma constant_noise_nonzero : forall geo std t, sound geo -> std <> 0 ->
  nonzero (raw_block (fun c : nat => (1, S c)) geo std (fun x => x) 0%nat t).
Proof.
  intros geo std t Hs Hd. set (gauss := fun c : nat => (1, S c)).
  assert (PL : forall r, Forall (Forall (fun v => v = (1 * std, 1 * std, 1 * std))) (noise_stream gauss geo std 0%nat r)).
  { intros r. apply (stream_In nat _ _ (Forall (Forall (fun v => v = (1 * std, 1 * std, 1 * std))))). intros g. unfold draw_plane.
    apply draw_many_Forall. intros g'. apply draw_many_Forall. intros g''. reflexivity. }
  pose proof (delivered_shaped nat gauss geo std (fun x => x) 0%nat t Hs (fun _ _ _ f H => H)) as [Hl Hp].
  change (delivered_block nat gauss geo std (fun x => x) 0%nat t) with (raw_block gauss geo std (fun x => x) 0%nat t) in Hl, Hp.
  assert (PR : Forall (Forall (Forall (fun v => v = (1 * std, 1 * std, 1 * std)))) (raw_block gauss geo std (fun x => x) 0%nat t)).
  { unfold raw_block. rewrite block_form; [|exact Hs|apply window_shaped]. apply Forall_forall. intros p Hin. apply in_map_iff in Hin.
    destruct Hin as (q & <- & Hq). assert (Hq' : In q (window (noise_stream gauss geo std 0%nat) (t * g_Nx geo) (rows geo))).
    { rewrite <- (firstn_skipn (Z.to_nat (g_nb geo)) (window _ _ _)). apply in_or_app. right.
      rewrite <- (firstn_skipn (g_Nx geo) (skipn _ _)). apply in_or_app. left. exact Hq. }
    unfold window in Hq'. apply in_map_iff in Hq'. destruct Hq' as (r & <- & _). unfold crop.
    pose proof (Forall_firstn _ _ (g_Ny geo) _ (Forall_skipn _ _ (Z.to_nat (g_my geo)) _ (PL (t * g_Nx geo + r)%nat))) as H.
    apply Forall_forall. intros c Hc. apply in_map_iff in Hc. destruct Hc as (c' & <- & Hc'). apply Forall_firstn. rewrite Forall_forall in H. apply H. exact Hc'. }
  destruct Hs as (H1 & H2 & H3 & _). destruct (raw_block gauss geo std (fun x => x) 0%nat t) as [|p f] eqn:EB; [cbn in Hl; lia|].
  inversion Hp as [|? ? [Hpl Hpc] _]. subst. inversion PR as [|? ? PR' _]. subst. destruct p as [|c p]; [cbn in Hpl; lia|].
  inversion Hpc as [|? ? Hc _]. subst. inversion PR' as [|? ? PR'' _]. subst. pose proof (nodes_ge (g_lz geo)). destruct c as [|v c]; [cbn in Hc; lia|].
  inversion PR'' as [|? ? Hv _]. subst. exists (1 * std). split; [left; reflexivity|lra].
Qed.

Definition mann_args (seed : option Z) : gen_args := GenArgs 1 1 (2, 2, 2) (1%nat, 1%nat, 1%nat) "Mann" (Some 1) (Some 1) (Some 1) None seed 3.

Lemma mann_demo : exists cs gn w',
  scales_of (fun _ => Err FileNotFoundError) (mann_args (Some 0%Z)) = Ok cs /\ 0 < cs_L cs /\ 0 < cs_Gamma cs
  /\ construct (fun _ => Err FileNotFoundError) nat (fun _ => 0%nat) (fun _ _ _ x => x) unit (fun _ _ => Err RuntimeError)
       (mann_args (Some 0%Z)) None (World nat 7%nat 9%nat) = Ok (gn, w')
  /\ forall n, exists f, fst (gen_call nat (fun c => (1, S c)) n demo_args gn) = Ok f.
Proof.
  assert (HS : exists cs, scales_of (fun _ => Err FileNotFoundError) (mann_args (Some 0%Z)) = Ok cs /\ cs_L cs = 1 /\ cs_Gamma cs = 1).
  { unfold scales_of, mann_args. cbn [ga_model ga_href ga_L ga_T ga_E ga_ustar]. unfold xpow. destruct (Rlt_dec 0 1); [|exfalso; lra].
    cbn. eexists. split; [reflexivity|]. split; reflexivity. }
  destruct HS as (cs & HS & E1 & E2). exists cs.
  destruct (geometry_sound 2 2 2 1 1 1 1 1 3) as (g & Eg & _); try lra.
  assert (HC : exists gn w', construct (fun _ => Err FileNotFoundError) nat (fun _ => 0%nat) (fun _ _ _ x => x) unit (fun _ _ => Err RuntimeError)
       (mann_args (Some 0%Z)) None (World nat 7%nat 9%nat) = Ok (gn, w') /\ gen_correlate nat gn = (fun x => x)).
  { unfold construct. rewrite HS. cbn [bind]. rewrite E1, E2. cbn [mann_args ga_dims ga_levels ga_blend]. rewrite Eg. cbn [bind]. do 2 eexists. split; reflexivity. }
  destruct HC as (gn & w' & HC & Hcor). exists gn, w'. split; [exact HS|]. split; [lra|]. split; [lra|]. split; [exact HC|]. intros n.
  pose proof (constructed _ _ _ _ _ _ _ _ _ _ _ cs HC HS) as K. cbn [mann_args ga_dims ga_levels ga_seed ga_model] in K.
  destruct K as (Hu & Hf & _ & _ & _ & Hstd & Hlow); try lra. { intros geo nx ny nz f H. exact H. }
  apply (call_succeeds nat (fun c => (1, S c)) gn 0%nat 0 n demo_args Hu); [rewrite Hlow by reflexivity; exact I|exact demo_args_ok|apply fresh_at; exact Hf|].
  intros t _. rewrite Hcor. apply constant_noise_nonzero; [apply Hu|]. rewrite Hstd. unfold noise_std. apply Rgt_not_eq. apply sqrt_lt_R0.
  pose proof (nodes_INR 1). assert (0 < 2 / INR (nodes 1)) by (apply Rdiv_lt_0_compat; lra). cbn [mann_args ga_dims ga_levels]. apply Rmult_lt_0_compat; [apply Rmult_lt_0_compat|]; assumption.
Qed.
