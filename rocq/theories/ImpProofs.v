(** Proofs about importing the package. *)

From Coq Require Import List String Bool Arith Lia.
From Verif Require Import ImpModel ImpSpec.
Import ListNotations.
Open Scope string_scope.

Lemma meqb_eq : forall a b, meqb a b = true <-> a = b.
Proof.
  induction a as [|x a IH]; destruct b as [|y b]; cbn; try (split; congruence).
  rewrite andb_true_iff, String.eqb_eq, IH. split; [intros [-> ->]; reflexivity|intros H; inversion H; auto].
Qed.

Lemma meqb_refl : forall a, meqb a a = true.
Proof. intros a. apply meqb_eq. reflexivity. Qed.

Lemma find_src_in : forall m s, find_src m = Some s -> In s sources /\ ms_name s = m.
Proof.
  intros m s H. apply find_some in H. destruct H as [I E]. apply meqb_eq in E. auto.
Qed.

(** ** Only the needed libraries matter *)

Definition libs_ok (ss : list istmt) : Prop := forall l n, In (SLib l n) ss -> In l needed.

Lemma sources_libs : forall s, In s sources -> libs_ok (ms_body s).
Proof.
  assert (H : forallb (fun s => forallb (fun x => match x with SLib l _ => existsb (String.eqb l) needed | _ => true end) (ms_body s)) sources = true)
    by (vm_compute; reflexivity).
  intros s I l n J. rewrite forallb_forall in H. specialize (H s I). rewrite forallb_forall in H. specialize (H _ J).
  cbn beta iota in H. apply existsb_exists in H. destruct H as (x & Ix & Ex). apply String.eqb_eq in Ex. subst x. exact Ix.
Qed.

Section Ext.
Variables i1 i2 : string -> bool.
Hypothesis Hi : forall l, In l needed -> i1 l = i2 l.

Lemma getn_ext : forall f g, (forall m t, f m t = g m t) -> forall m n t, getn f m n t = getn g m n t.
Proof. intros f g E m n t. unfold getn. destruct (entry t m); [|reflexivity]. destruct (lookup _ _); [reflexivity|]. rewrite E. reflexivity. Qed.

Lemma fromn_ext : forall f g, (forall m t, f m t = g m t) -> forall self m ns t, fromn f self m ns t = fromn g self m ns t.
Proof.
  intros f g E self m ns. induction ns as [|[n b] ns IH]; intros t; cbn; [reflexivity|].
  rewrite (getn_ext f g E). destruct (getn g m n t) as [t' [o|x]]; [apply IH|reflexivity].
Qed.

Lemma body_ext : forall f g, (forall m t, f m t = g m t) -> forall self ss, libs_ok ss -> forall t,
  body i1 f self ss t = body i2 g self ss t.
Proof.
  intros f g E self ss. induction ss as [|s ss IH]; intros L t; cbn [body]; [reflexivity|].
  assert (Es : stmt i1 f self s t = stmt i2 g self s t).
  { destruct s as [l n|n|m ns|m n|ns]; cbn [stmt]; [|reflexivity| | |reflexivity].
    - rewrite (Hi l); [reflexivity|]. apply (L l n). left. reflexivity.
    - rewrite E. destruct (g m t) as [t' [x|]]; [reflexivity|]. apply fromn_ext. exact E.
    - rewrite E. reflexivity. }
  rewrite Es. destruct (stmt i2 g self s t) as [t' [x|]]; [reflexivity|]. apply IH. intros l n J. apply (L l n). right. exact J.
Qed.

Lemma import_ext : forall d m t, import i1 d m t = import i2 d m t.
Proof.
  induction d as [|d IH]; [reflexivity|]. induction m as [|n par IHm]; intros t; [reflexivity|]. cbn [import].
  destruct (loaded t (n :: par)); [reflexivity|]. specialize (IHm t). cbn [import] in IHm. rewrite IHm.
  match goal with |- match ?X with _ => _ end = _ => destruct X as [t' [x|]] end; [reflexivity|].
  destruct (loaded t' (n :: par)); [reflexivity|]. unfold load.
  destruct (find_src (n :: par)) as [s|] eqn:F; [|reflexivity]. apply find_src_in in F. destruct F as [I _].
  rewrite (body_ext (import i1 d) (import i2 d)); [reflexivity|exact IH|apply sources_libs; exact I].
Qed.

Lemma ufrom_ext : forall m ns t, ufrom i1 m ns t = ufrom i2 m ns t.
Proof.
  intros m ns. induction ns as [|n ns IH]; intros t; cbn [ufrom]; [reflexivity|].
  rewrite (getn_ext (import i1 depth) (import i2 depth)); [|intros; apply import_ext].
  destruct (getn _ m n t) as [t' [o|x]]; [rewrite IH; reflexivity|reflexivity].
Qed.

Lemma user_ext : forall u t, (forall l, u <> ULib l) -> user i1 u t = user i2 u t.
Proof.
  intros [m|m ns|m|l] t H; cbn [user]; [| | |exfalso; apply (H l); reflexivity].
  - rewrite import_ext. destruct (import i2 depth m t) as [t' [x|]]; [reflexivity|]. rewrite import_ext. reflexivity.
  - rewrite import_ext. destruct (import i2 depth m t) as [t' [x|]]; [reflexivity|]. apply ufrom_ext.
  - rewrite import_ext. destruct (import i2 depth m t) as [t' [x|]]; [reflexivity|].
    destruct (entry t' m); [|reflexivity]. rewrite ufrom_ext. reflexivity.
Qed.
End Ext.

(** ** The states of a session when all libraries are there *)

Definition all_in : string -> bool := fun _ => true.

Definition st_full : mtab := Eval vm_compute in fst (import all_in depth root []).
Definition st_p : mtab := Eval vm_compute in fst (import all_in depth (lowfreq "large_plot") st_full).
Definition st_e : mtab := Eval vm_compute in fst (import all_in depth (fitting "eddy_lifetime") st_full).
Definition st_pe : mtab := Eval vm_compute in fst (import all_in depth (fitting "eddy_lifetime") st_p).
Definition st_ep : mtab := Eval vm_compute in fst (import all_in depth (lowfreq "large_plot") st_e).
Definition states : list mtab := [[]; st_full; st_p; st_e; st_pe; st_ep].

(** The first part of a dotted name which is not a module. *)
Fixpoint missing (m : mname) : option mname :=
  match m with
  | [] => None
  | n :: par => match missing par with
                | Some q => Some q
                | None => match find_src (n :: par) with Some _ => None | None => Some (n :: par) end
                end
  end.

Definition obj_dec : forall a b : obj, {a = b} + {a <> b}.
Proof. decide equality; try apply string_dec; apply (list_eq_dec string_dec). Defined.
Definition ment_dec : forall a b : ment, {a = b} + {a <> b}.
Proof.
  decide equality; [decide equality; apply (list_eq_dec string_dec)|].
  apply list_eq_dec. decide equality; [apply obj_dec|apply string_dec].
Defined.
Definition mtab_dec : forall a b : mtab, {a = b} + {a <> b}.
Proof. apply list_eq_dec. decide equality; [apply ment_dec|apply (list_eq_dec string_dec)]. Defined.

Definition st_mem (t : mtab) : bool := existsb (fun s => if mtab_dec s t then true else false) states.

Lemma st_mem_in : forall t, st_mem t = true -> In t states.
Proof.
  intros t H. apply existsb_exists in H. destruct H as (s & I & E). destruct (mtab_dec s t); [subst; exact I|discriminate].
Qed.

(** Loading one file from every state in which its parent is loaded. *)
Lemma load_states : forall t n par s, In t states -> find_src (n :: par) = Some s -> loaded t (n :: par) = false ->
  par = [] \/ loaded t par = true ->
  exists t', load all_in (import all_in (List.length sources)) n par t = (t', None) /\ In t' states /\ loaded t' (n :: par) = true.
Proof.
  assert (H : forallb (fun t => forallb (fun s =>
     match ms_name s with
     | [] => true
     | n :: par =>
       if negb (loaded t (n :: par)) && (meqb par [] || loaded t par)
       then match load all_in (import all_in (List.length sources)) n par t with
            | (t', None) => st_mem t' && loaded t' (n :: par)
            | _ => false
            end
       else true
     end) sources) states = true) by (vm_compute; reflexivity).
  intros t n par s It F L P. rewrite forallb_forall in H. specialize (H t It). rewrite forallb_forall in H.
  destruct (find_src_in _ _ F) as [Is En]. specialize (H s Is). cbn beta in H. rewrite En in H. rewrite L in H.
  assert (E : meqb par [] || loaded t par = true).
  { destruct P as [-> | ->]; [reflexivity|apply orb_true_r]. }
  rewrite E in H. cbn [negb andb] in H.
  destruct (load all_in (import all_in (List.length sources)) n par t) as [t' [x|]]; [discriminate|].
  apply andb_true_iff in H. destruct H as [A B]. exists t'. split; [reflexivity|]. split; [apply st_mem_in; exact A|exact B].
Qed.

(** Loaded modules are files whose parents are loaded. *)
Lemma loaded_missing : forall t m, In t states -> loaded t m = true -> missing m = None.
Proof.
  intros t m It L. assert (H : forallb (fun t => forallb (fun p => match missing (fst p) with None => true | _ => false end) t) states = true)
    by (vm_compute; reflexivity).
  rewrite forallb_forall in H. specialize (H t It). rewrite forallb_forall in H.
  assert (I : exists e, In (m, e) t).
  { clear H It. unfold loaded in L. induction t as [|[q e] t IH]; cbn in L; [discriminate|].
    destruct (meqb q m) eqn:E; [apply meqb_eq in E; subst q; exists e; left; reflexivity|].
    destruct (IH L) as (e' & I). exists e'. right. exact I. }
  destruct I as (e & I). specialize (H _ I). cbn [fst] in H. destruct (missing m); [discriminate|reflexivity].
Qed.

Lemma import_states : forall m t, In t states ->
  exists t', import all_in depth m t = (t', option_map NoModule (missing m)) /\ In t' states
             /\ (missing m = None -> m = [] \/ loaded t' m = true).
Proof.
  unfold depth. induction m as [|n par IH]; intros t It.
  - exists t. split; [reflexivity|]. split; [exact It|]. intros _. left. reflexivity.
  - cbn [import]. destruct (loaded t (n :: par)) eqn:L.
    + rewrite (loaded_missing t _ It L). exists t. split; [reflexivity|]. split; [exact It|]. intros _. right. exact L.
    + destruct (IH t It) as (t1 & E & I1 & M). cbn [import] in E. rewrite E. cbn [missing].
      destruct (missing par) as [q|] eqn:Mp; cbn [option_map].
      * exists t1. split; [reflexivity|]. split; [exact I1|]. discriminate.
      * destruct (loaded t1 (n :: par)) eqn:L1.
        -- pose proof (loaded_missing t1 _ I1 L1) as Q. cbn [missing] in Q. rewrite Mp in Q.
           destruct (find_src (n :: par)); [|discriminate]. exists t1. split; [reflexivity|]. split; [exact I1|]. intros _. right. exact L1.
        -- destruct (find_src (n :: par)) as [s|] eqn:F.
           ++ destruct (load_states t1 n par s I1 F L1 (M eq_refl)) as (t2 & E2 & I2 & L2). exists t2. cbn [option_map]. split; [exact E2|]. split; [exact I2|]. intros _. right. exact L2.
           ++ exists t1. unfold load. rewrite F. split; [reflexivity|]. split; [exact I1|]. discriminate.
Qed.

(** ** Values of names *)

(** Value of a name of a module: what its file binds, or its submodule. *)
Definition st_all : mtab := st_pe.
Definition value (m : mname) (n : string) : option obj :=
  match entry st_all m with
  | None => None
  | Some e => match lookup (me_env e) n with
              | Some o => Some o
              | None => match find_src m with
                        | Some s => if ms_pkg s then match find_src (n :: m) with Some _ => Some (OMod (n :: m)) | None => None end else None
                        | None => None
                        end
              end
  end.

(** All names in the tables and all last components of module names. *)
Definition names : list string := Eval vm_compute in
  nodup string_dec (flat_map (fun p => map fst (me_env (snd p))) st_pe ++ map (fun s => hd "" (ms_name s)) sources).

Lemma lookup_none : forall e n, ~ In n (map fst e) -> lookup e n = None.
Proof.
  intros e n H. unfold lookup. induction e as [|[a o] e IH]; [reflexivity|]. cbn [find fst].
  destruct (String.eqb a n) eqn:E; [apply String.eqb_eq in E; exfalso; apply H; left; exact E|]. apply IH. intros I. apply H. right. exact I.
Qed.

Lemma entry_in : forall t m e, entry t m = Some e -> In (m, e) t.
Proof.
  induction t as [|[q e0] t IH]; intros m e H; cbn in H; [discriminate|].
  destruct (meqb q m) eqn:E; [apply meqb_eq in E; subst q; injection H as ->; left; reflexivity|]. right. apply IH. exact H.
Qed.

Lemma find_src_leaf : forall n m s, find_src (n :: m) = Some s -> In n names.
Proof.
  assert (H : forallb (fun s => existsb (String.eqb (hd "" (ms_name s))) names) sources = true) by (vm_compute; reflexivity).
  intros n m s F. destruct (find_src_in _ _ F) as [I E]. rewrite forallb_forall in H. specialize (H s I). cbn beta in H. rewrite E in H. cbn [hd] in H.
  apply existsb_exists in H. destruct H as (x & Ix & Ex). apply String.eqb_eq in Ex. subst x. exact Ix.
Qed.

Definition value_in (t : mtab) (m : mname) (e : ment) (n : string) : option obj :=
  match lookup (me_env e) n with
  | Some o => Some o
  | None => match find_src m with
            | Some s => if ms_pkg s then match find_src (n :: m) with Some _ => Some (OMod (n :: m)) | None => None end else None
            | None => None
            end
  end.

Lemma value_states : forall t m e n, In t states -> entry t m = Some e -> value_in t m e n = value m n.
Proof.
  assert (H : forallb (fun t => forallb (fun p => forallb (fun n =>
     match value_in t (fst p) (snd p) n, value (fst p) n with
     | Some a, Some b => if obj_dec a b then true else false
     | None, None => true
     | _, _ => false
     end) names) t) states = true) by (vm_compute; reflexivity).
  assert (K : forallb (fun t => forallb (fun p => match entry st_all (fst p) with Some _ => true | None => false end &&
     forallb (fun n => existsb (String.eqb n) names) (map fst (me_env (snd p)))) t) states = true) by (vm_compute; reflexivity).
  assert (K' : forallb (fun p => forallb (fun n => existsb (String.eqb n) names) (map fst (me_env (snd p)))) st_all = true) by (vm_compute; reflexivity).
  intros t m e n It E. apply entry_in in E.
  rewrite forallb_forall in H. specialize (H t It). rewrite forallb_forall in H. specialize (H _ E). cbn [fst snd] in H.
  rewrite forallb_forall in K. specialize (K t It). rewrite forallb_forall in K. specialize (K _ E). cbn [fst snd] in K.
  apply andb_true_iff in K. destruct K as [K1 K2].
  assert (Q : forall l, forallb (fun n => existsb (String.eqb n) names) l = true -> ~ In n names -> ~ In n l).
  { intros l Hl N I. rewrite forallb_forall in Hl. specialize (Hl n I). apply existsb_exists in Hl. destruct Hl as (x & Ix & Ex). apply String.eqb_eq in Ex. subst x. exact (N Ix). }
  destruct (in_dec string_dec n names) as [I|N].
  - rewrite forallb_forall in H. specialize (H n I). destruct (value_in t m e n) as [a|], (value m n) as [b|]; try discriminate; [|reflexivity].
    destruct (obj_dec a b); [congruence|discriminate].
  - unfold value_in, value. rewrite (lookup_none (me_env e) n); [|apply Q; [exact K2|exact N]].
    destruct (entry st_all m) as [e'|] eqn:E'; [|discriminate]. apply entry_in in E'.
    rewrite forallb_forall in K'. specialize (K' _ E'). cbn [snd] in K'. rewrite (lookup_none (me_env e') n); [reflexivity|]. apply Q; assumption.
Qed.

Lemma getn_states : forall t m n, In t states -> loaded t m = true ->
  exists t', getn (import all_in depth) m n t = (t', match value m n with Some o => inl o | None => inr (NoName m n) end)
             /\ In t' states /\ loaded t' m = true.
Proof.
  intros t m n It L. unfold loaded in L. destruct (entry t m) as [e|] eqn:E; [|discriminate].
  pose proof (value_states t m e n It E) as V. rewrite <- V. unfold value_in, getn. rewrite E.
  destruct (lookup (me_env e) n) as [o|]; [exists t; unfold loaded; rewrite E; auto|].
  destruct (find_src m) as [s|] eqn:F; [|exists t; unfold loaded; rewrite E; auto].
  destruct (ms_pkg s) eqn:P; [|exists t; unfold loaded; rewrite E; auto].
  destruct (import_states (n :: m) t It) as (t' & Ei & It' & M).
  assert (Lm : loaded t m = true) by (unfold loaded; rewrite E; reflexivity).
  pose proof (loaded_missing t m It Lm) as Mm. cbn [missing] in Ei, M. rewrite Mm in Ei, M.
  assert (Keep : loaded t' m = true).
  { destruct (find_src (n :: m)) eqn:F'.
    - assert (Kp : forallb (fun t => forallb (fun p => match p with (n :: q, _) => match q with [] => true | _ => loaded t q end | _ => true end) t) states = true)
        by (vm_compute; reflexivity).
      destruct (M eq_refl) as [Bad|L']; [discriminate|]. unfold loaded in L'. destruct (entry t' (n :: m)) as [e'|] eqn:E'; [|discriminate].
      apply entry_in in E'. rewrite forallb_forall in Kp. specialize (Kp t' It'). rewrite forallb_forall in Kp. specialize (Kp _ E'). cbn beta iota in Kp.
      destruct m as [|a m]; [|exact Kp]. vm_compute in F. discriminate.
    - cbn [option_map] in Ei. unfold depth in Ei. cbn [import] in Ei.
      destruct (loaded t (n :: m)) eqn:Ln; [discriminate|].
      destruct m as [|a m]; [vm_compute in F; discriminate|]. cbn [import] in Ei. rewrite Lm in Ei. rewrite Ln in Ei.
      unfold load in Ei. rewrite F' in Ei. injection Ei as <-. exact Lm. }
  exists t'. rewrite Ei. destruct (find_src (n :: m)); cbn [option_map]; [auto|]. rewrite meqb_refl. auto.
Qed.

(** Result of a `from` statement: a function of the statement. *)
Fixpoint values (m : mname) (ns : list string) : list (string * obj) + iexn :=
  match ns with
  | [] => inl []
  | n :: ns' => match value m n with
                | Some o => match values m ns' with inl l => inl ((n, o) :: l) | r => r end
                | None => inr (NoName m n)
                end
  end.

Lemma ufrom_states : forall m ns t, In t states -> loaded t m = true ->
  exists t', ufrom all_in m ns t = (t', values m ns) /\ In t' states.
Proof.
  intros m ns. induction ns as [|n ns IH]; intros t It L; cbn [ufrom values]; [exists t; auto|].
  destruct (getn_states t m n It L) as (t1 & E & I1 & L1). rewrite E. destruct (value m n); [|exists t1; auto].
  destruct (IH t1 I1 L1) as (t2 & E2 & I2). rewrite E2. destruct (values m ns); exists t2; auto.
Qed.

Lemma from_states : forall t m ns, In t states -> m <> [] ->
  exists t', user all_in (UFrom m ns) t = (t', match missing m with Some q => inr (NoModule q) | None => values m ns end) /\ In t' states.
Proof.
  intros t m ns It N. cbn [user]. destruct (import_states m t It) as (t1 & E & I1 & M). rewrite E.
  destruct (missing m) as [q|]; cbn [option_map]; [exists t1; auto|].
  destruct (M eq_refl) as [Bad|L]; [contradiction|]. apply ufrom_states; assumption.
Qed.

Lemma missing_last : forall m, m <> [] -> missing m = None -> missing [last m ""] = None.
Proof.
  induction m as [|n m IH]; intros N H; [contradiction|]. cbn [missing] in H.
  destruct (missing m) as [q|] eqn:E; [discriminate|]. destruct m as [|a m]; [cbn [last missing]; exact H|]. apply IH; [discriminate|reflexivity].
Qed.

Lemma import_stmt_states : forall t m, In t states -> m <> [] ->
  exists t', user all_in (UImport m) t = (t', match missing m with Some q => inr (NoModule q) | None => inl [(last m "", OMod [last m ""])] end) /\ In t' states.
Proof.
  intros t m It N. cbn [user]. destruct (import_states m t It) as (t1 & E & I1 & M). rewrite E.
  destruct (missing m) as [q|] eqn:Mm; cbn [option_map]; [exists t1; auto|].
  destruct (import_states [last m ""] t1 I1) as (t2 & E2 & I2 & _). rewrite E2, (missing_last m N Mm). cbn [option_map]. exists t2. auto.
Qed.

Lemma user_states : forall inst u t, complete inst -> In t states -> In (fst (user inst u t)) states.
Proof.
  intros inst u t C It.
  assert (A : forall l, In l needed -> inst l = all_in l) by (intros l I; apply C; exact I).
  destruct u as [m|m ns|m|l].
  - rewrite (user_ext inst all_in A); [|discriminate]. cbn [user]. destruct (import_states m t It) as (t1 & E & I1 & M). rewrite E.
    destruct (missing m) as [q|]; cbn [option_map]; [exact I1|].
    destruct (import_states [last m ""] t1 I1) as (t2 & E2 & I2 & _). rewrite E2. destruct (missing [last m ""]); exact I2.
  - rewrite (user_ext inst all_in A); [|discriminate]. destruct m as [|a m].
    + cbn [user]. destruct (import_states [] t It) as (t1 & E & I1 & _). rewrite E. cbn [missing option_map].
      assert (G : forall n, getn (import all_in depth) [] n t1 = (t1, inr (NoModule []))).
      { intros n. unfold getn. assert (En : entry t1 [] = None); [|rewrite En; reflexivity].
        clear - I1. cbn in I1. repeat (destruct I1 as [<-|I1]; [vm_compute; reflexivity|]). contradiction. }
      destruct ns as [|n ns]; cbn [ufrom]; [exact I1|]. rewrite G. exact I1.
    + destruct (from_states t (a :: m) ns It ltac:(discriminate)) as (t' & E & I'). rewrite E. exact I'.
  - rewrite (user_ext inst all_in A); [|discriminate]. cbn [user]. destruct (import_states m t It) as (t1 & E & I1 & M). rewrite E.
    destruct (missing m) as [q|]; cbn [option_map]; [exact I1|].
    destruct (entry t1 m) as [e|] eqn:En; [|exact I1].
    assert (L : loaded t1 m = true) by (unfold loaded; rewrite En; reflexivity).
    destruct (ufrom_states m (star_names e) t1 I1 L) as (t2 & E2 & I2). rewrite E2. destruct (values m (star_names e)) as [l|[]]; exact I2.
  - cbn [user]. destruct (inst l); exact It.
Qed.

Lemma session_states : forall inst us t, complete inst -> In t states -> In (session inst us t) states.
Proof.
  intros inst us. induction us as [|u us IH]; intros t C It; cbn [session]; [exact It|]. apply IH; [exact C|]. apply user_states; assumption.
Qed.

Lemma reach_states : forall inst us, complete inst -> In (session inst us []) states.
Proof. intros inst us C. apply session_states; [exact C|]. left. reflexivity. Qed.

Lemma from_result : forall inst us m ns, complete inst -> m <> [] ->
  snd (user inst (UFrom m ns) (session inst us [])) = match missing m with Some q => inr (NoModule q) | None => values m ns end.
Proof.
  intros inst us m ns C N. rewrite (user_ext inst all_in); [|intros l I; apply C; exact I|discriminate].
  destruct (from_states (session inst us []) m ns (reach_states inst us C) N) as (t' & E & _). rewrite E. reflexivity.
Qed.

Lemma import_result : forall inst us m, complete inst -> m <> [] ->
  snd (user inst (UImport m) (session inst us [])) = match missing m with Some q => inr (NoModule q) | None => inl [(last m "", OMod [last m ""])] end.
Proof.
  intros inst us m C N. rewrite (user_ext inst all_in); [|intros l I; apply C; exact I|discriminate].
  destruct (import_stmt_states (session inst us []) m (reach_states inst us C) N) as (t' & E & _). rewrite E. reflexivity.
Qed.

(** ** The statements *)

Lemma any_order : forall inst us m ns, complete inst -> m <> [] ->
  snd (user inst (UImport m) (session inst us [])) = snd (user inst (UImport m) [])
  /\ snd (user inst (UFrom m ns) (session inst us [])) = snd (user inst (UFrom m ns) []).
Proof.
  intros inst us m ns C N. pose proof (import_result inst [] m C N) as A. pose proof (from_result inst [] m ns C N) as B.
  cbn [session] in A, B. rewrite (import_result inst us m C N), (from_result inst us m ns C N), A, B. auto.
Qed.

Lemma file_found : forall m, (In m files <-> missing m = None /\ m <> []).
Proof.
  assert (A : forallb (fun m => match missing m with None => negb (meqb m []) | _ => false end) files = true) by (vm_compute; reflexivity).
  assert (B : forallb (fun s => existsb (meqb (ms_name s)) files) sources = true) by (vm_compute; reflexivity).
  intros m. split.
  - intros I. rewrite forallb_forall in A. specialize (A m I). destruct (missing m); [discriminate|]. split; [reflexivity|]. intros ->. discriminate.
  - intros [M N]. destruct m as [|n m]; [contradiction|]. cbn [missing] in M. destruct (missing m); [discriminate|].
    destruct (find_src (n :: m)) as [s|] eqn:F; [|discriminate]. destruct (find_src_in _ _ F) as [I E].
    rewrite forallb_forall in B. specialize (B s I). rewrite E in B. apply existsb_exists in B. destruct B as (x & Ix & Ex). apply meqb_eq in Ex. subst x. exact Ix.
Qed.

Lemma every_file : forall inst us m, complete inst -> m <> [] ->
  ((exists b, snd (user inst (UImport m) (session inst us [])) = inl b) <-> In m files).
Proof.
  intros inst us m C N. rewrite (import_result inst us m C N), file_found. destruct (missing m) as [q|].
  - split; [intros (b & E); discriminate|intros [E _]; discriminate].
  - split; [auto|]. intros _. eexists. reflexivity.
Qed.

Lemma defined_names : forall inst us m n, complete inst ->
  (exists s, In s sources /\ ms_name s = m /\ In (SDef n) (ms_body s)) ->
  snd (user inst (UFrom m [n]) (session inst us [])) = inl [(n, OObj m n)].
Proof.
  intros inst us m n C (s & Is & En & Id).
  assert (H : forallb (fun s => match missing (ms_name s) with Some _ => false | None => negb (meqb (ms_name s) []) end &&
    forallb (fun x => match x with SDef n => match value (ms_name s) n with Some o => if obj_dec o (OObj (ms_name s) n) then true else false | None => false end | _ => true end) (ms_body s)) sources = true)
    by (vm_compute; reflexivity).
  rewrite forallb_forall in H. specialize (H s Is). apply andb_true_iff in H. destruct H as [H1 H2]. rewrite forallb_forall in H2. specialize (H2 _ Id).
  cbn beta iota in H2. rewrite En in H1, H2. destruct (missing m) eqn:M; [discriminate|].
  rewrite from_result; [|exact C|intros ->; discriminate]. rewrite M. cbn [values].
  destruct (value m n) as [o|]; [|discriminate]. destruct (obj_dec o (OObj m n)); [subst; reflexivity|discriminate].
Qed.

Definition pub_ok (m : mname) (p : string * mname) : bool :=
  match value m (fst p) with Some o => if obj_dec o (OObj (snd p) (fst p)) then true else false | None => false end.

Lemma pub_values : forall m l, forallb (pub_ok m) l = true -> values m (map fst l) = inl (objects l).
Proof.
  intros m l. induction l as [|p l IH]; intros H; [reflexivity|]. cbn [forallb] in H. apply andb_true_iff in H. destruct H as [A B].
  cbn [map values objects]. unfold pub_ok in A. destruct (value m (fst p)) as [o|]; [|discriminate]. destruct (obj_dec o _); [|discriminate]. subst o.
  rewrite (IH B). reflexivity.
Qed.

Lemma published_root : forall inst us l, complete inst -> (forall p, In p l -> In p published) ->
  snd (user inst (UFrom root (map fst l)) (session inst us [])) = inl (objects l).
Proof.
  intros inst us l C H. rewrite from_result; [|exact C|discriminate].
  assert (M : missing root = None) by (vm_compute; reflexivity). rewrite M. apply pub_values. apply forallb_forall. intros p I.
  assert (K : forallb (pub_ok root) published = true) by (vm_compute; reflexivity). rewrite forallb_forall in K. apply K. apply H. exact I.
Qed.

Lemma phantom_root : forall inst us n, complete inst -> In n phantom ->
  snd (user inst (UFrom root [n]) (session inst us [])) = inr (NoName root n).
Proof.
  intros inst us n C I. rewrite from_result; [|exact C|discriminate].
  assert (M : missing root = None) by (vm_compute; reflexivity). rewrite M. cbn [values].
  assert (K : forallb (fun n => match value root n with None => true | Some _ => false end) phantom = true) by (vm_compute; reflexivity).
  rewrite forallb_forall in K. specialize (K n I). destruct (value root n); [discriminate|reflexivity].
Qed.

Lemma star_root : forall inst us, complete inst -> exists n, In n phantom
  /\ snd (user inst (UStar root) (session inst us [])) = inr (NoAttr root n).
Proof.
  intros inst us C. exists "extract_x_spectra". split; [left; reflexivity|].
  rewrite (user_ext inst all_in); [|intros l I; apply C; exact I|discriminate].
  pose proof (reach_states inst us C) as I. cbn [states In] in I.
  repeat (destruct I as [<-|I]; [vm_compute; reflexivity|]). contradiction.
Qed.

Lemma star_others : forall inst us m l, complete inst -> published_by m = Some l ->
  snd (user inst (UStar m) (session inst us [])) = inl (objects l).
Proof.
  intros inst us m l C H. rewrite (user_ext inst all_in); [|intros x I; apply C; exact I|discriminate].
  assert (Im : In m [top "common"; top "enums"; top "nn_modules"; top "parameters"; top "spectra_fitting"; top "fluctuation_generation"]).
  { unfold published_by in H.
    repeat match type of H with context [if meqb m ?q then _ else _] => destruct (meqb m q) eqn:?E; [apply meqb_eq in E; subst m; cbn [In]; tauto|clear E] end.
    discriminate. }
  pose proof (reach_states inst us C) as I. cbn [In] in Im.
  repeat (destruct Im as [<-|Im];
    [injection H as <-; cbn [states In] in I; repeat (destruct I as [<-|I]; [vm_compute; reflexivity|]); contradiction|]).
  contradiction.
Qed.

(** ** Missing libraries *)

Fixpoint subsets (l : list string) : list (list string) :=
  match l with
  | [] => [[]]
  | x :: l' => let r := subsets l' in (r ++ map (cons x) r)%list
  end.

Definition of_list (l : list string) : string -> bool := fun x => existsb (String.eqb x) l.

Lemma filter_subset : forall (f : string -> bool) l, In (filter f l) (subsets l).
Proof.
  intros f l. induction l as [|x l IH]; [left; reflexivity|]. cbn [filter subsets]. apply in_or_app.
  destruct (f x); [right; apply in_map; exact IH|left; exact IH].
Qed.

Lemma of_list_filter : forall f l, In l needed -> f l = of_list (filter f needed) l.
Proof.
  intros f l I. unfold of_list. destruct (f l) eqn:E.
  - symmetry. apply existsb_exists. exists l. split; [apply filter_In; auto|apply String.eqb_refl].
  - symmetry. apply not_true_is_false. intros H. apply existsb_exists in H. destruct H as (x & Ix & Ex). apply String.eqb_eq in Ex. subst x.
    apply filter_In in Ix. destruct Ix as [_ B]. congruence.
Qed.

Lemma root_import : forall inst, (exists t, import inst depth root [] = (t, None) /\ complete inst)
  \/ exists t lib, import inst depth root [] = (t, Some (NoModule [lib])) /\ In lib needed /\ inst lib = false.
Proof.
  intros inst.
  assert (H : forallb (fun s => match snd (import (of_list s) depth root []) with
      | None => forallb (of_list s) needed
      | Some (NoModule [lib]) => existsb (String.eqb lib) needed && negb (of_list s lib)
      | _ => false
      end) (subsets needed) = true) by (vm_compute; reflexivity).
  rewrite forallb_forall in H. specialize (H _ (filter_subset inst needed)).
  rewrite (import_ext inst (of_list (filter inst needed))) by apply of_list_filter.
  destruct (import (of_list (filter inst needed)) depth root []) as [t [x|]]; cbn [snd] in H.
  - right. destruct x as [m|m n|m n|]; try discriminate. destruct m as [|lib [|a m]]; try discriminate.
    exists t, lib. apply andb_true_iff in H. destruct H as [A B]. apply existsb_exists in A. destruct A as (x & Ix & Ex). apply String.eqb_eq in Ex. subst x.
    split; [reflexivity|]. split; [exact Ix|]. rewrite of_list_filter by exact Ix. apply negb_true_iff. exact B.
  - left. exists t. split; [reflexivity|]. intros lib I. rewrite of_list_filter by exact I. rewrite forallb_forall in H. apply H. exact I.
Qed.

Lemma import_root_first : forall inst t x m, last m "" = "drdmannturb" -> import inst depth root [] = (t, Some x) ->
  import inst depth m [] = (t, Some x).
Proof.
  intros inst t x m. unfold depth, root. induction m as [|n m IH]; intros L E; [discriminate|].
  destruct m as [|a m]; [cbn [last] in L; subst n; exact E|].
  specialize (IH L E). cbn [import]. unfold loaded at 1. cbn [entry]. cbn [import] in IH. rewrite IH. reflexivity.
Qed.

Lemma file_last : forall m, In m files -> last m "" = "drdmannturb".
Proof. intros m I. cbn in I. repeat (destruct I as [<-|I]; [reflexivity|]). contradiction. Qed.

Lemma libraries : forall inst m ns, In m files ->
  (complete inst /\ exists b, snd (user inst (UImport m) []) = inl b)
  \/ exists lib, In lib needed /\ inst lib = false
     /\ snd (user inst (UImport m) []) = inr (NoModule [lib])
     /\ snd (user inst (UFrom m ns) []) = inr (NoModule [lib])
     /\ snd (user inst (UStar m) []) = inr (NoModule [lib]).
Proof.
  intros inst m ns I. destruct (root_import inst) as [(t & E & C)|(t & lib & E & Il & N)].
  - left. split; [exact C|]. apply file_found in I as I'. destruct I' as [_ Nm]. apply (every_file inst [] m C Nm). exact I.
  - right. exists lib. split; [exact Il|]. split; [exact N|].
    pose proof (import_root_first inst t _ m (file_last m I) E) as F. cbn [user]. rewrite F. auto.
Qed.

(** ** Programs *)

Lemma prog_result : forall inst us p r, complete inst -> (forall l, In (ULib l) p -> In l needed) ->
  forallb (fun t => let q := snd (program all_in p t) in if q then r else negb r) states = true ->
  (exists b, snd (program inst p (session inst us [])) = inl b) <-> r = true.
Proof.
  intros inst us p r C L H. rewrite forallb_forall in H. specialize (H _ (reach_states inst us C)).
  assert (E : forall t, program inst p t = program all_in p t).
  { clear H. induction p as [|u p IH]; intros t; [reflexivity|]. cbn [program].
    assert (Eu : user inst u t = user all_in u t).
    { destruct u as [m|m ns|m|l]; try (apply user_ext; [intros x I; apply C; exact I|discriminate]).
      cbn [user]. rewrite (C l); [reflexivity|]. apply L. left. reflexivity. }
    rewrite Eu. destruct (user all_in u t) as [t' [b|x]]; [|reflexivity]. rewrite IH; [reflexivity|]. intros l I. apply L. right. exact I. }
  rewrite E. cbn zeta in H. destruct (snd (program all_in p (session inst us []))) as [b|x]; destruct r; cbn in H; try discriminate.
  - split; [reflexivity|]. intros _. eexists. reflexivity.
  - split; [intros (b & Q); discriminate|discriminate].
Qed.
