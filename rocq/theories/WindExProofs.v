(** Proofs about the example programs: their imports and the two classes which produce
    wind fields. *)

From Coq Require Import List String Bool.
From Verif Require Import Prelude ImpModel ImpSpec ImpProofs WindExModel.
Import ListNotations.
Open Scope string_scope.

Lemma vgrf_list : forall kw, vgrf_call kw LList = Err TypeError.
Proof. intros kw. unfold vgrf_call. destruct (existsb _ kw); [reflexivity|]. destruct (forallb _ _); reflexivity. Qed.

Lemma iso_raises : forall geom kw, exists e, iso_init geom kw = Err e.
Proof.
  intros [[]|e] kw; [|exists e; reflexivity]. unfold iso_init. cbn [bind]. destruct (kwget _ _ kw) as [s| |]; try (eexists; reflexivity).
  rewrite vgrf_list. destruct (String.eqb s "VK"); [eexists; reflexivity|]. destruct (String.eqb s "Mann"); eexists; reflexivity.
Qed.

Lemma shear_raises : forall geom file kw, exists e, shear_init geom file kw = Err e.
Proof.
  intros geom file kw. unfold shear_init. rewrite !vgrf_list. destruct (kwget "model" _ kw) as [s| |]; try (destruct geom; eexists; reflexivity).
  destruct (String.eqb s "NN").
  - destruct (nn_scales _ _) as [u|e]; [destruct geom; eexists; reflexivity|eexists; reflexivity].
  - destruct geom as [u|e]; [|eexists; reflexivity]. cbn [bind]. destruct (String.eqb s "VK"); [eexists; reflexivity|].
    destruct (String.eqb s "Mann"); [eexists; reflexivity|]. destruct (String.eqb s "FPDE_RDT"); eexists; reflexivity.
Qed.

Lemma field_accepts : forall kw g, is_ok (vgrf_call kw g) <-> g = LArray /\ forall k v, In (k, v) kw -> k = "vdim".
Proof.
  intros kw g. unfold vgrf_call, is_ok. split.
  - intros (u & H). destruct (existsb _ kw) eqn:E; [discriminate|]. cbn zeta in H. destruct (forallb _ _) eqn:F; [|discriminate].
    split; [destruct g; cbn in H; congruence|]. intros k v I. destruct (String.eqb k "vdim") eqn:K; [apply String.eqb_eq; exact K|]. exfalso.
    rewrite forallb_forall in F. assert (J : In (k, v) (filter (fun p => negb (String.eqb (fst p) "vdim")) kw)) by (apply filter_In; cbn [fst]; rewrite K; auto).
    specialize (F _ J). apply not_true_iff_false in E. apply E. apply existsb_exists. exists (k, v). split; [exact I|]. cbn [fst] in F |- *.
    apply existsb_exists in F. destruct F as (x & Ix & Ex). apply existsb_exists. exists x. split; [|exact Ex]. cbn in Ix |- *. tauto.
  - intros [-> H]. exists tt. assert (E : existsb (fun p : string * kwval => existsb (String.eqb (fst p)) written) kw = false).
    { apply not_true_is_false. intros Q. apply existsb_exists in Q. destruct Q as ((k & v) & I & B). rewrite (H k v I) in B. discriminate. }
    rewrite E. assert (F : filter (fun p : string * kwval => negb (String.eqb (fst p) "vdim")) kw = []).
    { clear E. induction kw as [|[k v] kw IH]; [reflexivity|]. cbn [filter fst]. rewrite (H k v (or_introl eq_refl)). cbn. apply IH. intros k' v' I. apply (H k' v'). right. exact I. }
    rewrite F. reflexivity.
Qed.

(** ** Programs in a new interpreter *)

Lemma prog_incomplete : forall inst t x p, import inst depth root [] = (t, Some x) ->
  (exists m ns l, p = (l ++ [UFrom m ns])%list /\ last m "" = "drdmannturb" /\ forall u, In u l -> exists k, u = ULib k) ->
  forall q, exists y, snd (program inst (p ++ q) []) = inr y.
Proof.
  intros inst t x p E (m & ns & l & -> & L & H) q. induction l as [|u l IH].
  - cbn [app program user]. rewrite (import_root_first inst t x m L E). eexists. reflexivity.
  - destruct (H u (or_introl eq_refl)) as (k & ->). cbn [app program user]. destruct (inst k); [|eexists; reflexivity].
    destruct IH as (y & Ey); [intros v I; apply H; right; exact I|].
    destruct (program inst ((l ++ [UFrom m ns]) ++ q) []) as [t' [b|z]]; [cbn in Ey; discriminate|]. eexists. reflexivity.
Qed.

Ltac libs := intros l I; cbn in I; repeat (destruct I as [I|I]; [try discriminate; injection I as <-; cbn; tauto|]); contradiction.

Lemma old_programs : forall inst p, In p [prog_01; prog_04; prog_05; prog_profiling] -> exists x, snd (program inst p []) = inr x.
Proof.
  intros inst p I. destruct (root_import inst) as [(t & _ & C)|(t & lib & E & _ & _)].
  - assert (N : ~ exists b, snd (program inst p (session inst [] [])) = inl b).
    { cbn [In] in I. repeat (destruct I as [<-|I]; [rewrite (prog_result inst [] _ false C); [discriminate|libs|vm_compute; reflexivity]|]). contradiction. }
    cbn [session] in N. destruct (snd (program inst p [])) as [b|x]; [exfalso; apply N; eexists; reflexivity|eexists; reflexivity].
  - assert (P : forall a b, (exists m ns l, a = (l ++ [UFrom m ns])%list /\ last m "" = "drdmannturb" /\ forall u, In u l -> exists k, u = ULib k) ->
        exists y, snd (program inst (a ++ b) []) = inr y) by (intros a b Q; apply (prog_incomplete inst t _ a E Q)).
    cbn [In] in I. destruct I as [<-|[<-|[<-|[<-|[]]]]].
    + apply (P (firstn 2 prog_01) (skipn 2 prog_01)). eexists _, _, [_]. split; [reflexivity|]. split; [reflexivity|]. intros u [<-|[]]. eexists. reflexivity.
    + apply (P (firstn 2 prog_04) (skipn 2 prog_04)). eexists _, _, [_]. split; [reflexivity|]. split; [reflexivity|]. intros u [<-|[]]. eexists. reflexivity.
    + apply (P (firstn 3 prog_05) (skipn 3 prog_05)). eexists _, _, [_; _]. split; [reflexivity|]. split; [reflexivity|]. intros u [<-|[<-|[]]]; eexists; reflexivity.
    + apply (P (firstn 3 prog_profiling) (skipn 3 prog_profiling)). eexists _, _, [_; _]. split; [reflexivity|]. split; [reflexivity|]. intros u [<-|[<-|[]]]; eexists; reflexivity.
Qed.

Lemma new_programs : forall inst us p, complete inst -> In p [prog_02; prog_03; prog_07; prog_08; prog_09; prog_10] ->
  exists b, snd (program inst p (session inst us [])) = inl b.
Proof.
  intros inst us p C I. cbn [In] in I.
  repeat (destruct I as [<-|I]; [apply (prog_result inst us _ true C); [libs|vm_compute; reflexivity|reflexivity]|]). contradiction.
Qed.
