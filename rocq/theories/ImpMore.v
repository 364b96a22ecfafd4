(** More about importing the package: names handed on, attributes, repeated imports when a
    library is missing. *)

From Coq Require Import List String Bool.
From Verif Require Import Prelude ImpModel ImpSpec ImpProofs WindExModel WindExProofs.
Import ListNotations.
Open Scope string_scope.

(** ** Names handed on *)

Lemma reexports : forall inst us s m' ns n b, complete inst -> In s sources -> In (SFrom m' ns) (ms_body s) -> In (n, b) ns ->
  exists o, snd (user inst (UFrom m' [n]) (session inst us [])) = inl [(n, o)]
         /\ snd (user inst (UFrom (ms_name s) [b]) (session inst us [])) = inl [(b, o)].
Proof.
  assert (H : forallb (fun s => match missing (ms_name s) with Some _ => false | None => negb (meqb (ms_name s) []) end &&
     forallb (fun x => match x with
       | SFrom m' ns => match missing m' with Some _ => false | None => negb (meqb m' []) end &&
          forallb (fun p => match value m' (fst p), value (ms_name s) (snd p) with
                            | Some a, Some b => if obj_dec a b then true else false
                            | _, _ => false end) ns
       | _ => true end) (ms_body s)) sources = true) by (vm_compute; reflexivity).
  intros inst us s m' ns n b C Is Ix Ip. rewrite forallb_forall in H. specialize (H s Is). apply andb_true_iff in H. destruct H as [H1 H2].
  rewrite forallb_forall in H2. specialize (H2 _ Ix). cbn beta iota in H2. apply andb_true_iff in H2. destruct H2 as [H2 H3].
  rewrite forallb_forall in H3. specialize (H3 _ Ip). cbn [fst snd] in H3.
  destruct (value m' n) as [o|] eqn:V1; [|discriminate]. destruct (value (ms_name s) b) as [o'|] eqn:V2; [|discriminate].
  destruct (obj_dec o o') as [<-|]; [|discriminate]. exists o.
  destruct (missing (ms_name s)) eqn:M1; [discriminate|]. destruct (missing m') eqn:M2; [discriminate|].
  assert (N1 : ms_name s <> []) by (intros Q; rewrite Q in H1; discriminate).
  assert (N2 : m' <> []) by (intros Q; rewrite Q in H2; discriminate).
  rewrite (from_result inst us m' [n] C N2), (from_result inst us (ms_name s) [b] C N1).
  rewrite M1, M2. cbn [values]. rewrite V1, V2. auto.
Qed.

(** ** Attributes *)

Lemma attributes : forall inst us n par, complete inst -> In (n :: par) files -> par <> [] ->
  exists e, entry (fst (user inst (UImport (n :: par)) (session inst us []))) par = Some e
         /\ lookup (me_env e) n = Some (OMod (n :: par)).
Proof.
  intros inst us n par C I N. rewrite (user_ext inst all_in); [|intros l J; apply C; exact J|discriminate].
  assert (H : forallb (fun t => forallb (fun m => match m with
     | n :: (_ :: _) as par => match entry (fst (user all_in (UImport m) t)) (tl m) with
                   | Some e => match lookup (me_env e) n with Some o => if obj_dec o (OMod m) then true else false | None => false end
                   | None => false end
     | _ => true end) files) states = true) by (vm_compute; reflexivity).
  rewrite forallb_forall in H. specialize (H _ (reach_states inst us C)). rewrite forallb_forall in H. specialize (H _ I). cbn beta iota in H.
  destruct par as [|a par]; [contradiction|]. cbn [tl] in H.
  destruct (entry _ (a :: par)) as [e|]; [|discriminate]. exists e. split; [reflexivity|].
  destruct (lookup (me_env e) n) as [o|]; [|discriminate]. destruct (obj_dec o _) as [->|]; [reflexivity|discriminate].
Qed.

(** ** Repeated imports with a library missing *)

Section Closed.
Variable inst : string -> bool.
Variable R : list mtab.
Hypothesis Hc : forall t m, In t R -> In m files -> In (fst (import inst depth m t)) R.

Lemma closed_import : forall m t, In t R -> In (fst (import inst depth m t)) R.
Proof.
  intros m. induction m as [|n par IH]; intros t It; [exact It|].
  destruct (in_dec (list_eq_dec string_dec) (n :: par) files) as [I|N]; [apply Hc; assumption|].
  specialize (IH t It). unfold depth in *. cbn [import] in *. destruct (loaded t (n :: par)); [exact It|].
  match type of IH with In (fst ?X) _ => destruct X as [t1 [x|]] end; cbn [fst] in IH; [exact IH|].
  destruct (loaded t1 (n :: par)); [exact IH|]. unfold load.
  destruct (find_src (n :: par)) as [s|] eqn:F; [|exact IH]. exfalso. apply N.
  assert (B : forallb (fun s => existsb (meqb (ms_name s)) files) sources = true) by (vm_compute; reflexivity).
  destruct (find_src_in _ _ F) as [Is E]. rewrite forallb_forall in B. specialize (B s Is). rewrite E in B.
  apply existsb_exists in B. destruct B as (y & Iy & Ey). apply meqb_eq in Ey. subst y. exact Iy.
Qed.

Lemma closed_getn : forall m n t, In t R -> In (fst (getn (import inst depth) m n t)) R.
Proof.
  intros m n t It. unfold getn. destruct (entry t m) as [e|]; [|exact It]. destruct (lookup _ n); [exact It|].
  destruct (find_src m) as [s|]; [|exact It]. destruct (ms_pkg s); [|exact It].
  pose proof (closed_import (n :: m) t It) as H. destruct (import inst depth (n :: m) t) as [t' [x|]]; exact H.
Qed.

Lemma closed_ufrom : forall m ns t, In t R -> In (fst (ufrom inst m ns t)) R.
Proof.
  intros m ns. induction ns as [|n ns IH]; intros t It; [exact It|]. cbn [ufrom].
  pose proof (closed_getn m n t It) as H. destruct (getn _ m n t) as [t' [o|x]]; cbn [fst] in H; [|exact H].
  specialize (IH t' H). destruct (ufrom inst m ns t') as [t2 [l|x]]; exact IH.
Qed.

Lemma closed_user : forall u t, In t R -> In (fst (user inst u t)) R.
Proof.
  intros [m|m ns|m|l] t It; cbn [user].
  - pose proof (closed_import m t It) as H. destruct (import inst depth m t) as [t1 [x|]]; cbn [fst] in H; [exact H|].
    pose proof (closed_import [last m ""] t1 H) as H'. destruct (import inst depth [last m ""] t1) as [t2 [x|]]; exact H'.
  - pose proof (closed_import m t It) as H. destruct (import inst depth m t) as [t1 [x|]]; cbn [fst] in H; [exact H|]. apply closed_ufrom. exact H.
  - pose proof (closed_import m t It) as H. destruct (import inst depth m t) as [t1 [x|]]; cbn [fst] in H; [exact H|].
    destruct (entry t1 m) as [e|]; [|exact H]. pose proof (closed_ufrom m (star_names e) t1 H) as H'.
    destruct (ufrom inst m (star_names e) t1) as [t2 [l|[]]]; exact H'.
  - destruct (inst l); exact It.
Qed.

Lemma closed_session : forall us t, In t R -> In (session inst us t) R.
Proof. intros us. induction us as [|u us IH]; intros t It; [exact It|]. cbn [session]. apply IH. apply closed_user. exact It. Qed.
End Closed.

(** States reached by imports of files, collected in rounds. *)
Definition memt (R : list mtab) (t : mtab) : bool := existsb (fun s => if mtab_dec s t then true else false) R.
Definition addt (R : list mtab) (t : mtab) : list mtab := if memt R t then R else (R ++ [t])%list.
Definition round (i : string -> bool) (R : list mtab) : list mtab :=
  fold_left (fun R' t => fold_left (fun R'' m => addt R'' (fst (import i depth m t))) files R') R R.
Fixpoint rounds (i : string -> bool) (k : nat) (R : list mtab) : list mtab :=
  match k with O => R | S k' => let R' := round i R in if Nat.eqb (List.length R') (List.length R) then R else rounds i k' R' end.

Definition reports (s : list string) (x : list (string * obj) + iexn) : bool :=
  match x with inr (NoModule [lib]) => existsb (String.eqb lib) needed && negb (of_list s lib) | _ => false end.

Definition set_ok (s : list string) (R : list mtab) : bool :=
  memt R [] && forallb (fun t => forallb (fun m =>
    memt R (fst (import (of_list s) depth m t)) && reports s (snd (user (of_list s) (UImport m) t))) files) R.

Lemma memt_in : forall R t, memt R t = true -> In t R.
Proof. intros R t H. apply existsb_exists in H. destruct H as (s & I & E). destruct (mtab_dec s t); [subst; exact I|discriminate]. Qed.

Lemma subsets_ok : forallb (fun s => forallb (of_list s) needed || set_ok s (rounds (of_list s) 8 [[]])) (subsets needed) = true.
Proof. vm_compute. reflexivity. Qed.

Lemma retry_set : forall s R inst us m, (forall l, In l needed -> inst l = of_list s l) -> set_ok s R = true ->
  (forall l, ~ In (ULib l) us) -> In m files ->
  exists lib, In lib needed /\ inst lib = false /\ snd (user inst (UImport m) (session inst us [])) = inr (NoModule [lib]).
Proof.
  intros s R inst us m Es H L I. unfold set_ok in H.
  apply andb_true_iff in H. destruct H as [H0 H]. apply memt_in in H0. rewrite forallb_forall in H.
  assert (Hc : forall t q, In t R -> In q files -> In (fst (import (of_list s) depth q t)) R).
  { intros t q It Iq. specialize (H t It). rewrite forallb_forall in H. specialize (H q Iq). apply andb_true_iff in H. destruct H as [H _].
    apply memt_in. exact H. }
  assert (Eu : forall t, session inst us t = session (of_list s) us t).
  { clear -Es L. induction us as [|u us IH]; intros t; [reflexivity|]. cbn [session].
    rewrite (user_ext inst (of_list s) Es) by (intros l ->; apply (L l); left; reflexivity). apply IH. intros l J. apply (L l). right. exact J. }
  pose proof (closed_session (of_list s) R Hc us [] H0) as It. rewrite <- Eu in It.
  specialize (H _ It). rewrite forallb_forall in H. specialize (H m I). apply andb_true_iff in H. destruct H as [_ H].
  rewrite (user_ext inst (of_list s) Es) by discriminate. unfold reports in H.
  destruct (snd (user (of_list s) (UImport m) (session inst us []))) as [b|x]; [discriminate|].
  destruct x as [[|lib [|a q]]|q n|q n|]; try discriminate. apply andb_true_iff in H. destruct H as [A B].
  apply existsb_exists in A. destruct A as (y & Iy & Ey). apply String.eqb_eq in Ey. subst y.
  exists lib. split; [exact Iy|]. split; [|reflexivity]. rewrite Es by exact Iy. apply negb_true_iff. exact B.
Qed.

Lemma subset_full_or_ok : forall s, In s (subsets needed) -> forallb (of_list s) needed = true \/ exists R, set_ok s R = true.
Proof.
  intros s I. pose proof (proj1 (forallb_forall _ _) subsets_ok s I) as H. cbv beta in H.
  apply orb_true_iff in H. destruct H as [H|H]; [left; exact H|right; exact (ex_intro _ _ H)].
Qed.

Lemma retry : forall inst us m, ~ complete inst -> (forall l, ~ In (ULib l) us) -> In m files ->
  exists lib, In lib needed /\ inst lib = false /\ snd (user inst (UImport m) (session inst us [])) = inr (NoModule [lib]).
Proof.
  intros inst us m N L I. destruct (subset_full_or_ok _ (filter_subset inst needed)) as [H|[R H]].
  - exfalso. apply N. intros l J. rewrite of_list_filter by exact J. exact (proj1 (forallb_forall _ _) H l J).
  - exact (retry_set _ R inst us m (of_list_filter inst) H L I).
Qed.

(** ** The neural model of the example class *)

Lemma neural_raises : forall geom f kw, kwget "model" (KStr "NN") kw = KStr "NN" -> kwget "path_to_parameters" KNone kw <> KNone ->
  pf_five f = true -> pf_mapping f = true -> pf_problem f = Ok tt -> shear_init geom (Ok f) kw = Err AttributeError.
Proof.
  intros geom f kw M P F G Q. unfold shear_init. rewrite M. cbn [String.eqb Ascii.eqb Bool.eqb]. unfold nn_scales.
  destruct (kwget "path_to_parameters" KNone kw); try contradiction; cbn [bind]; rewrite F, G, Q; reflexivity.
Qed.

Lemma saved_raises : forall geom f kw, kwget "model" (KStr "NN") kw = KStr "NN" ->
  pf_five f = true -> pf_mapping f = false -> shear_init geom (Ok f) kw = Err TypeError.
Proof.
  intros geom f kw M F G. unfold shear_init. rewrite M. cbn [String.eqb Ascii.eqb Bool.eqb]. unfold nn_scales.
  destruct (kwget "path_to_parameters" KNone kw); cbn [bind]; rewrite ?F, ?G; reflexivity.
Qed.

(** Other models of the same class: with levels made a list no field is constructed. *)
Lemma others_raise : forall file kw s, kwget "model" (KStr "NN") kw = KStr s -> s <> "NN" ->
  shear_init (Ok tt) file kw = Err (if existsb (String.eqb s) ["VK"; "Mann"; "FPDE_RDT"] then TypeError else AttributeError).
Proof.
  intros file kw s M N. unfold shear_init. rewrite M. apply String.eqb_neq in N. rewrite N. cbn [bind existsb].
  assert (V : vgrf_call kw LList = Err TypeError).
  { unfold vgrf_call. destruct (existsb _ kw); [reflexivity|]. cbn zeta. destruct (forallb _ _); reflexivity. }
  destruct (String.eqb s "VK"); [cbn [orb]; exact V|]. destruct (String.eqb s "Mann"); [cbn [orb]; exact V|].
  destruct (String.eqb s "FPDE_RDT"); reflexivity.
Qed.
