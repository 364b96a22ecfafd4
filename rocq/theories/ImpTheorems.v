(** Property theorems about importing the package and about the example programs
    (C194, C195, C196). *)

From Coq Require Import List String Bool.
From Verif Require Import Prelude ImpModel ImpSpec ImpProofs WindExModel WindExProofs ImpMore.
Import ListNotations.
Open Scope string_scope.

(** C194: with all libraries installed and after any imports, six of the names the package
    publishes cannot be imported, and `from drdmannturb import *` raises. *)
Theorem C194_refuted : forall inst us, complete inst ->
  (exists n, In n phantom /\ snd (user inst (UStar root) (session inst us [])) = inr (NoAttr root n))
  /\ (forall n, In n phantom -> snd (user inst (UFrom root [n]) (session inst us [])) = inr (NoName root n)).
Proof. exact (fun inst us C => conj (star_root inst us C) (fun n => phantom_root inst us n C)). Qed.
Print Assumptions C194_refuted.

(** The names are published, and an interpreter with the libraries exists. *)
Example C194_refuted_case : complete (fun _ => true)
  /\ (exists ns, In (SAll ns) (ms_body src_root) /\ forall n, In n phantom -> In n ns)
  /\ snd (user (fun _ => true) (UFrom root ["CustomMLP"]) []) = inr (NoName root "CustomMLP").
Proof.
  split; [intros l _; reflexivity|]. split.
  - eexists. split; [cbn; do 6 right; left; reflexivity|]. intros n I. cbn in I. cbn. intuition.
  - apply (C194_refuted (fun _ => true) []); [intros l _; reflexivity|cbn; tauto].
Qed.

(** C194: the other 37 names of the package, any of them in any order, give the objects
    defined in the submodules, after any imports. *)
Theorem C194_names_partial : forall inst us l, complete inst -> (forall p, In p l -> In p published) ->
  snd (user inst (UFrom root (map fst l)) (session inst us [])) = inl (objects l).
Proof. exact published_root. Qed.
Print Assumptions C194_names_partial.

Example C194_names_case : snd (user (fun _ => true) (UFrom root ["TauNet"; "MannCovariance"])
    (session (fun _ => true) [UFrom root ["SimpleNN"]; UStar root] []))
  = inl [("TauNet", OObj (top "nn_modules") "TauNet"); ("MannCovariance", OObj (fluct "covariance_kernels") "MannCovariance")].
Proof.
  apply (C194_names_partial (fun _ => true) _ [("TauNet", top "nn_modules"); ("MannCovariance", fluct "covariance_kernels")]); [intros l _; reflexivity|].
  intros p [<-|[<-|[]]]; cbn; tauto.
Qed.

(** C194: for all other modules which publish names, `from m import *` binds exactly these to
    the objects they stand for. *)
Theorem C194_star_partial : forall inst us m l, complete inst -> published_by m = Some l ->
  snd (user inst (UStar m) (session inst us [])) = inl (objects l).
Proof. exact star_others. Qed.
Print Assumptions C194_star_partial.

Example C194_star_case : snd (user (fun _ => true) (UStar (top "nn_modules")) []) = inl [("TauNet", OObj (top "nn_modules") "TauNet")].
Proof. exact (C194_star_partial (fun _ => true) [] (top "nn_modules") [("TauNet", top "nn_modules")] (fun l _ => eq_refl) eq_refl). Qed.

(** C194: every class and function can be imported from the file which defines it. *)
Theorem C194_definitions_partial : forall inst us m n, complete inst ->
  (exists s, In s sources /\ ms_name s = m /\ In (SDef n) (ms_body s)) ->
  snd (user inst (UFrom m [n]) (session inst us [])) = inl [(n, OObj m n)].
Proof. exact defined_names. Qed.
Print Assumptions C194_definitions_partial.

Example C194_definitions_case : snd (user (fun _ => true) (UFrom (lowfreq "large_plot") ["anisotropy_study"]) [])
  = inl [("anisotropy_study", OObj (lowfreq "large_plot") "anisotropy_study")].
Proof.
  apply (C194_definitions_partial (fun _ => true) []); [intros l _; reflexivity|]. exists src_lp.
  split; [cbn; tauto|]. split; [reflexivity|]. cbn. tauto.
Qed.

(** C194: a name which a file takes from another one, renamed or not, is the same object in
    both. *)
Theorem C194_reexports_partial : forall inst us s m' ns n b, complete inst -> In s sources -> In (SFrom m' ns) (ms_body s) -> In (n, b) ns ->
  exists o, snd (user inst (UFrom m' [n]) (session inst us [])) = inl [(n, o)]
         /\ snd (user inst (UFrom (ms_name s) [b]) (session inst us [])) = inl [(b, o)].
Proof. exact reexports. Qed.
Print Assumptions C194_reexports_partial.

(** The kernel class is known under another name in the file of the random fields. *)
Example C194_reexports_case : exists o,
  snd (user (fun _ => true) (UFrom (fluct "covariance_kernels") ["Covariance"]) []) = inl [("Covariance", o)]
  /\ snd (user (fun _ => true) (UFrom (fluct "gaussian_random_fields") ["covariance_metaclass"]) []) = inl [("covariance_metaclass", o)].
Proof.
  apply (C194_reexports_partial (fun _ => true) [] src_grf _ [("Covariance", "covariance_metaclass")]); [intros l _; reflexivity|cbn; tauto| |left; reflexivity].
  right. left. reflexivity.
Qed.

(** C195: with all libraries installed an import statement, of any module and any names, has
    the same result after any imports, failed ones among them, as in a new interpreter. *)
Theorem C195_any_order : forall inst us m ns, complete inst -> m <> [] ->
  snd (user inst (UImport m) (session inst us [])) = snd (user inst (UImport m) [])
  /\ snd (user inst (UFrom m ns) (session inst us [])) = snd (user inst (UFrom m ns) []).
Proof. exact any_order. Qed.
Print Assumptions C195_any_order.

(** The table of loaded modules does differ. *)
Example C195_any_order_case : let us := [UImport (lowfreq "large_plot"); UImport (top "nothing")] in
  session (fun _ => true) us [] <> session (fun _ => true) [UImport root] []
  /\ snd (user (fun _ => true) (UFrom (fluct "low_frequency") ["large_plot"]) (session (fun _ => true) us []))
     = snd (user (fun _ => true) (UFrom (fluct "low_frequency") ["large_plot"]) []).
Proof.
  cbn zeta. split.
  - intros H. assert (Q : loaded (session (fun _ => true) [UImport root] []) (lowfreq "large_plot") = true) by (rewrite <- H; vm_compute; reflexivity).
    vm_compute in Q. discriminate.
  - apply C195_any_order; [intros l _; reflexivity|discriminate].
Qed.

(** C195: exactly the files of the package can be imported, each of them first or after any
    others. *)
Theorem C195_every_file : forall inst us m, complete inst -> m <> [] ->
  ((exists b, snd (user inst (UImport m) (session inst us [])) = inl b) <-> In m files).
Proof. exact every_file. Qed.
Print Assumptions C195_every_file.

Example C195_every_file_case : (exists b, snd (user (fun _ => true) (UImport (fluct "nn_covariance")) []) = inl b)
  /\ ~ exists b, snd (user (fun _ => true) (UImport (top "interpolation")) (session (fun _ => true) [UImport root] [])) = inl b.
Proof.
  split.
  - apply (C195_every_file (fun _ => true) []); [intros l _; reflexivity|discriminate|cbn; tauto].
  - rewrite C195_every_file; [|intros l _; reflexivity|discriminate]. intros I. cbn in I. repeat (destruct I as [I|I]; [discriminate|]). contradiction.
Qed.

(** C195: after `import a.b.c` the attribute path a.b.c leads to the module, whatever was
    imported before. *)
Theorem C195_attributes : forall inst us n par, complete inst -> In (n :: par) files -> par <> [] ->
  exists e, entry (fst (user inst (UImport (n :: par)) (session inst us []))) par = Some e
         /\ lookup (me_env e) n = Some (OMod (n :: par)).
Proof. exact attributes. Qed.
Print Assumptions C195_attributes.

Example C195_attributes_case : exists e,
  entry (fst (user (fun _ => true) (UImport (lowfreq "large_plot")) (session (fun _ => true) [UStar root] []))) (fluct "low_frequency") = Some e
  /\ lookup (me_env e) "large_plot" = Some (OMod (lowfreq "large_plot")).
Proof. apply (C195_attributes (fun _ => true)); [intros l _; reflexivity|cbn; tauto|discriminate]. Qed.

(** C195: in a new interpreter, for any set of installed libraries, either all nine libraries
    are there and every file can be imported, or every import reports a library which is
    missing. *)
Theorem C195_libraries : forall inst m ns, In m files ->
  (complete inst /\ exists b, snd (user inst (UImport m) []) = inl b)
  \/ exists lib, In lib needed /\ inst lib = false
     /\ snd (user inst (UImport m) []) = inr (NoModule [lib])
     /\ snd (user inst (UFrom m ns) []) = inr (NoModule [lib])
     /\ snd (user inst (UStar m) []) = inr (NoModule [lib]).
Proof. exact libraries. Qed.
Print Assumptions C195_libraries.

(** Without polars not even the enumeration can be imported. *)
Example C195_libraries_case : snd (user (fun l => negb (String.eqb l "polars")) (UFrom (top "enums") ["EddyLifetimeType"]) []) = inr (NoModule ["polars"]).
Proof.
  destruct (C195_libraries (fun l => negb (String.eqb l "polars")) (top "enums") ["EddyLifetimeType"] ltac:(cbn; tauto)) as [[C _]|(lib & I & N & _ & E & _)].
  - specialize (C "polars" ltac:(cbn; tauto)). discriminate.
  - apply negb_false_iff, String.eqb_eq in N. subst lib. exact E.
Qed.

(** C195: as long as a library is missing, `import` of any file fails with the report of a
    missing library, also after any number of earlier attempts and other imports from the
    package: no module left over from a failed import makes the package appear usable. *)
Theorem C195_retry : forall inst us m, ~ complete inst -> (forall l, ~ In (ULib l) us) -> In m files ->
  exists lib, In lib needed /\ inst lib = false /\ snd (user inst (UImport m) (session inst us [])) = inr (NoModule [lib]).
Proof. exact retry. Qed.
Print Assumptions C195_retry.

(** Without plotly the second attempt fails like the first, though a file can be read from
    the half of the package which was loaded. *)
Example C195_retry_case : let inst := fun l => negb (String.eqb l "plotly") in
  snd (user inst (UImport root) (session inst [UImport root; UFrom (top "enums") ["EddyLifetimeType"]] [])) = inr (NoModule ["plotly"])
  /\ snd (user inst (UFrom (top "enums") ["EddyLifetimeType"]) (session inst [UImport root] []))
     = inl [("EddyLifetimeType", OObj (top "enums") "EddyLifetimeType")].
Proof.
  cbn zeta. split; [|vm_compute; reflexivity].
  destruct (C195_retry (fun l => negb (String.eqb l "plotly")) [UImport root; UFrom (top "enums") ["EddyLifetimeType"]] root) as (lib & _ & N & E).
  - intros C. specialize (C "plotly" ltac:(cbn; tauto)). discriminate.
  - intros l [H|[H|[]]]; discriminate.
  - left. reflexivity.
  - apply negb_false_iff, String.eqb_eq in N. subst lib. exact E.
Qed.

(** C196: four programs raise in every environment before their first own statement, and
    neither of the two wind field classes can be constructed, whatever the arguments. *)
Theorem C196_refuted :
  (forall inst p, In p [prog_01; prog_04; prog_05; prog_profiling] -> exists x, snd (program inst p []) = inr x)
  /\ (forall geom kw, exists e, iso_init geom kw = Err e)
  /\ (forall geom file kw, exists e, shear_init geom file kw = Err e).
Proof. exact (conj old_programs (conj iso_raises shear_raises)). Qed.
Print Assumptions C196_refuted.

(** With all libraries the first example fails at the name it imports last; the call of the
    isotropic example raises TypeError. *)
Example C196_refuted_case :
  snd (program (fun _ => true) prog_01 []) = inr (NoName (top "spectra_fitting") "OnePointSpectraDataGenerator")
  /\ iso_init (Ok tt) [("model", KStr "Mann")] = Err TypeError
  /\ shear_init (Ok tt) (Ok {| pf_five := true; pf_mapping := true; pf_problem := Ok tt |})
       [("model", KStr "NN"); ("path_to_parameters", KOther)] = Err AttributeError.
Proof. split; [vm_compute; reflexivity|]. split; reflexivity. Qed.

(** C196: the import statements of the other six programs succeed. *)
Theorem C196_imports_partial : forall inst us p, complete inst -> In p [prog_02; prog_03; prog_07; prog_08; prog_09; prog_10] ->
  exists b, snd (program inst p (session inst us [])) = inl b.
Proof. exact new_programs. Qed.
Print Assumptions C196_imports_partial.

Example C196_imports_case : exists b, snd (program (fun l => existsb (String.eqb l) needed) prog_10 []) = inl b.
Proof.
  apply (C196_imports_partial (fun l => existsb (String.eqb l) needed) []); [|cbn; tauto].
  intros l I. apply existsb_exists. exists l. split; [exact I|apply String.eqb_refl].
Qed.

(** C196: the vector field the two classes construct accepts, with the arguments they write
    out, exactly an array of levels and no further keyword but vdim. *)
Theorem C196_field_partial : forall kw g, is_ok (vgrf_call kw g) <-> g = LArray /\ forall k v, In (k, v) kw -> k = "vdim".
Proof. exact field_accepts. Qed.
Print Assumptions C196_field_partial.

Example C196_field_case : is_ok (vgrf_call [("vdim", KOther)] LArray) /\ ~ is_ok (vgrf_call [("model", KStr "Mann")] LArray)
  /\ ~ is_ok (vgrf_call [] LList).
Proof.
  repeat split.
  - apply C196_field_partial. split; [reflexivity|]. intros k v [E|[]]. congruence.
  - rewrite C196_field_partial. intros [_ H]. specialize (H "model" _ (or_introl eq_refl)). discriminate.
  - rewrite C196_field_partial. intros [H _]. discriminate.
Qed.

(** C196: the class of the uniform shear example raises for every model: AttributeError for
    the neural one when the file holds what it expects, TypeError when the file was written by
    the calibration problem, TypeError for the three kernels it names. *)
Theorem C196_errors_partial :
  (forall geom f kw, kwget "model" (KStr "NN") kw = KStr "NN" -> kwget "path_to_parameters" KNone kw <> KNone ->
     pf_five f = true -> pf_mapping f = true -> pf_problem f = Ok tt -> shear_init geom (Ok f) kw = Err AttributeError)
  /\ (forall geom f kw, kwget "model" (KStr "NN") kw = KStr "NN" ->
     pf_five f = true -> pf_mapping f = false -> shear_init geom (Ok f) kw = Err TypeError)
  /\ (forall file kw s, kwget "model" (KStr "NN") kw = KStr s -> s <> "NN" ->
     shear_init (Ok tt) file kw = Err (if existsb (String.eqb s) ["VK"; "Mann"; "FPDE_RDT"] then TypeError else AttributeError)).
Proof. exact (conj neural_raises (conj saved_raises others_raise)). Qed.
Print Assumptions C196_errors_partial.

Example C196_errors_case :
  shear_init (Ok tt) (Ok {| pf_five := true; pf_mapping := true; pf_problem := Ok tt |}) [("path_to_parameters", KOther)] = Err AttributeError
  /\ shear_init (Ok tt) (Err FileNotFoundError) [("model", KStr "FPDE_RDT")] = Err TypeError.
Proof.
  split.
  - apply (proj1 C196_errors_partial); try reflexivity. discriminate.
  - apply (proj2 (proj2 C196_errors_partial) (Err FileNotFoundError) _ "FPDE_RDT"); [reflexivity|discriminate].
Qed.
