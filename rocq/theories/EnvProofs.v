(** Proofs about environment variables, directories and stored options. *)

From Coq Require Import String Ascii Reals List Arith ZArith Bool Lia DecimalString DecimalNat.
From Verif Require Import Prelude SpectraModel LossModel CalModel GenModel LogModel EnvModel EnvSpec.
Import ListNotations.

(** ** Numbers *)

Lemma las_app : forall a b, list_ascii_of_string (a ++ b) = list_ascii_of_string a ++ list_ascii_of_string b.
Proof. induction a as [|c a IH]; intros b; [reflexivity|]. cbn. rewrite IH. reflexivity. Qed.

Lemma space_white : forall c, is_space c = true <-> white c.
Proof.
  intros c. unfold is_space, white. set (n := nat_of_ascii c). clearbody n. split.
  - intros H. apply orb_prop in H. cbn [In]. destruct H as [H|H]; apply andb_prop in H; destruct H as [H1 H2]; apply Nat.leb_le in H1; apply Nat.leb_le in H2; lia.
  - intros H. cbn [In] in H. repeat (destruct H as [<-|H]; [reflexivity|]). destruct H.
Qed.

Lemma digit_decimal : forall c d, digit_of c = Some d <-> (d < 10)%nat /\ c = decimal d.
Proof.
  intros c d. unfold digit_of, decimal. split.
  - destruct ((48 <=? nat_of_ascii c) && (nat_of_ascii c <=? 57))%nat eqn:E; [|discriminate]. intros H. injection H as <-.
    apply andb_prop in E. destruct E as [E1 E2]. apply Nat.leb_le in E1. apply Nat.leb_le in E2. split; [lia|].
    replace (48 + (nat_of_ascii c - 48))%nat with (nat_of_ascii c) by lia. symmetry. apply ascii_nat_embedding.
  - intros (H & ->). rewrite nat_ascii_embedding by lia.
    replace (48 <=? 48 + d)%nat with true by (symmetry; apply Nat.leb_le; lia).
    replace (48 + d <=? 57)%nat with true by (symmetry; apply Nat.leb_le; lia). cbn [andb]. f_equal. lia.
Qed.

Lemma blank_spaces : forall s, blank s -> Forall (fun c => is_space c = true) (list_ascii_of_string s).
Proof. intros s H. eapply Forall_impl; [|exact H]. intros c C. apply space_white. exact C. Qed.

Lemma is_digit : forall c, digit_of c <> None -> exists d, (d < 10)%nat /\ c = decimal d.
Proof. intros c H. destruct (digit_of c) as [d|] eqn:E; [|congruence]. exists d. apply digit_decimal. exact E. Qed.

Lemma strip_front_In : forall c l, In c l -> is_space c = false -> In c (strip_front l).
Proof.
  intros c l. induction l as [|x l IH]; intros H S; [destruct H|]. cbn [strip_front].
  destruct (is_space x) eqn:X; [|exact H]. destruct H as [<-|H]; [rewrite S in X; discriminate|]. apply IH; assumption.
Qed.

Lemma strip_In : forall c l, In c l -> is_space c = false -> In c (strip l).
Proof.
  intros c l H S. unfold strip. apply -> in_rev. apply strip_front_In; [|exact S]. apply -> in_rev. apply strip_front_In; assumption.
Qed.

Lemma more_digits_chars : forall l us acc n c, more_digits us acc l = Some n -> In c l -> digit_of c <> None \/ c = "_"%char.
Proof.
  induction l as [|x l IH]; intros us acc n c H I; [destruct I|]. cbn [more_digits] in H.
  destruct (digit_of x) as [d|] eqn:D.
  - destruct I as [<-|I]; [left; rewrite D; discriminate|]. apply (IH _ _ _ _ H I).
  - destruct (Ascii.eqb x "_") eqn:E; [|discriminate]. apply Ascii.eqb_eq in E. destruct us; [discriminate|].
    destruct I as [<-|I]; [right; exact E|]. apply (IH _ _ _ _ H I).
Qed.

Lemma unsigned_chars : forall l n c, unsigned l = Some n -> In c l -> digit_of c <> None \/ c = "_"%char.
Proof.
  intros [|x l] n c H I; [destruct I|]. cbn [unsigned] in H. destruct (digit_of x) as [d|] eqn:D; [|discriminate].
  destruct I as [<-|I]; [left; rewrite D; discriminate|]. apply (more_digits_chars _ _ _ _ _ H I).
Qed.

Lemma foreign_none : forall s c, In c (list_ascii_of_string s) -> ~ in_numbers c -> py_int s = None.
Proof.
  intros s c I N. unfold py_int. unfold in_numbers in N.
  assert (S : is_space c = false) by (destruct (is_space c) eqn:E; [exfalso; apply N; left; apply space_white; exact E|reflexivity]).
  apply strip_In in I; [|exact S]. destruct (strip _) as [|x l]; [destruct I|].
  assert (U : forall l', In c l' -> unsigned l' = None).
  { intros l' I'. destruct (unsigned l') as [n|] eqn:U; [|reflexivity]. exfalso. apply N.
    destruct (unsigned_chars _ _ _ U I') as [H|H]; [right; left; apply is_digit; exact H|auto]. }
  destruct (Ascii.eqb x "-") eqn:E1; [apply Ascii.eqb_eq in E1|destruct (Ascii.eqb x "+") eqn:E2; [apply Ascii.eqb_eq in E2|]].
  - destruct I as [<-|I]; [exfalso; apply N; auto|]. rewrite (U _ I). reflexivity.
  - destruct I as [<-|I]; [exfalso; apply N; tauto|]. rewrite (U _ I). reflexivity.
  - rewrite (U _ I). reflexivity.
Qed.

Lemma foreign_raises : forall s c, In c (list_ascii_of_string s) -> ~ in_numbers c -> thread_count (Some s) = Err ValueError.
Proof. intros s c I N. unfold thread_count. rewrite (foreign_none s c I N). reflexivity. Qed.

Lemma comma_foreign : ~ in_numbers ",".
Proof.
  intros [H|[(d & D & H)|[H|[H|H]]]]; [apply space_white in H; discriminate H| |discriminate|discriminate|discriminate].
  assert (E : digit_of "," = Some d) by (apply digit_decimal; split; assumption). discriminate E.
Qed.

Lemma list_has_comma : forall ns, (2 <= length ns)%nat -> In ","%char (list_ascii_of_string (omp_value ns)).
Proof.
  intros [|a [|b ns]] L; cbn in L; try lia. unfold omp_value. cbn [map String.concat].
  rewrite las_app, las_app. apply in_or_app. right. apply in_or_app. left. left. reflexivity.
Qed.

Lemma list_raises : forall ns, (2 <= length ns)%nat -> thread_count (Some (omp_value ns)) = Err ValueError.
Proof. intros ns L. apply (foreign_raises _ ","%char); [apply list_has_comma; exact L|exact comma_foreign]. Qed.

Lemma digits_value : forall d acc, more_digits false acc (list_ascii_of_string (NilEmpty.string_of_uint d)) = Some (Nat.of_uint_acc d acc).
Proof.
  induction d as [|d IH|d IH|d IH|d IH|d IH|d IH|d IH|d IH|d IH|d IH]; intros acc; [reflexivity|..];
    cbn [NilEmpty.string_of_uint list_ascii_of_string more_digits]; unfold digit_of;
    match goal with |- context [nat_of_ascii ?c] => let v := eval vm_compute in (nat_of_ascii c) in change (nat_of_ascii c) with v end;
    cbn [Nat.leb andb Nat.sub]; rewrite IH; cbn [Nat.of_uint_acc]; f_equal; f_equal;
    rewrite Nat.tail_mul_spec; lia.
Qed.

Lemma numeral_shape : forall n, exists d c l, list_ascii_of_string (numeral n) = c :: l /\ digit_of c = Some d /\ more_digits false d l = Some n.
Proof.
  intros n. pose proof (Unsigned.of_to n) as R. assert (NN : Nat.to_uint n <> Decimal.Nil) by (intros E; rewrite E in R; cbn in R; subst n; discriminate E). unfold numeral.
  remember (Nat.to_uint n) as d eqn:D. destruct d; [congruence|..]; cbn [NilEmpty.string_of_uint list_ascii_of_string];
    eexists; eexists; eexists; (split; [reflexivity|]); (split; [vm_compute; reflexivity|]);
    rewrite digits_value; f_equal; rewrite <- R; reflexivity.
Qed.

Lemma strip_front_blank : forall p l, Forall (fun c => is_space c = true) p -> strip_front (p ++ l) = strip_front l.
Proof. intros p l H. induction H as [|c p C H IH]; [reflexivity|]. cbn [app strip_front]. rewrite C. exact IH. Qed.

Lemma strip_front_solid : forall l, Forall (fun c => is_space c = false) l -> l <> [] -> forall m, strip_front (l ++ m) = l ++ m.
Proof. intros l H N m. destruct H as [|c l C H]; [congruence|]. cbn [app strip_front]. rewrite C. reflexivity. Qed.

Lemma strip_around : forall p l q, Forall (fun c => is_space c = true) p -> Forall (fun c => is_space c = true) q ->
  Forall (fun c => is_space c = false) l -> l <> [] -> strip (p ++ l ++ q) = l.
Proof.
  intros p l q P Q L N. unfold strip. rewrite strip_front_blank by exact P. rewrite strip_front_solid by assumption.
  rewrite rev_app_distr. rewrite strip_front_blank by (apply Forall_rev; exact Q).
  rewrite <- (app_nil_r (rev l)). rewrite strip_front_solid.
  - rewrite app_nil_r. apply rev_involutive.
  - apply Forall_rev. exact L.
  - intros E. apply N. rewrite <- (rev_involutive l), E. reflexivity.
Qed.

Lemma digit_solid : forall c, digit_of c <> None \/ c = "_"%char \/ c = "+"%char \/ c = "-"%char -> is_space c = false.
Proof.
  intros c [H|[->|[->| ->]]]; [|reflexivity..]. unfold digit_of in H. unfold is_space.
  destruct ((48 <=? nat_of_ascii c) && (nat_of_ascii c <=? 57))%nat eqn:E; [|congruence].
  apply andb_prop in E. destruct E as [E _]. apply Nat.leb_le in E.
  replace (nat_of_ascii c <=? 13)%nat with false by (symmetry; apply Nat.leb_gt; lia).
  replace (nat_of_ascii c <=? 32)%nat with false by (symmetry; apply Nat.leb_gt; lia).
  rewrite !andb_false_r. reflexivity.
Qed.

Lemma numeral_unsigned : forall n, unsigned (list_ascii_of_string (numeral n)) = Some n.
Proof. intros n. destruct (numeral_shape n) as (d & c & l & -> & D & M). cbn [unsigned]. rewrite D. exact M. Qed.

Lemma numeral_solid : forall n, Forall (fun c => is_space c = false) (list_ascii_of_string (numeral n)).
Proof.
  intros n. apply Forall_forall. intros c I. apply digit_solid.
  destruct (unsigned_chars _ _ _ (numeral_unsigned n) I) as [H|H]; auto.
Qed.

Lemma numeral_count : forall pre n post, blank pre -> blank post ->
  thread_count (Some (pre ++ numeral n ++ post)%string) = Ok (Z.of_nat n)
  /\ thread_count (Some (pre ++ "+" ++ numeral n ++ post)%string) = Ok (Z.of_nat n)
  /\ thread_count (Some (pre ++ "-" ++ numeral n ++ post)%string) = Ok (- Z.of_nat n)%Z.
Proof.
  intros pre n post P Q. apply blank_spaces in P. apply blank_spaces in Q. unfold thread_count, py_int. rewrite !las_app.
  assert (X : list_ascii_of_string (numeral n) <> []) by (destruct (numeral_shape n) as (d & c & l & -> & _); discriminate).
  split; [|split].
  - rewrite strip_around; [|exact P|exact Q|apply numeral_solid|exact X].
    destruct (numeral_shape n) as (d & c & l & E & D & M). rewrite E.
    destruct (Ascii.eqb_spec c "-"); [subst c; discriminate D|]. destruct (Ascii.eqb_spec c "+"); [subst c; discriminate D|].
    rewrite <- E, numeral_unsigned. reflexivity.
  - rewrite app_assoc with (l := list_ascii_of_string "+").
    rewrite strip_around; [|exact P|exact Q|apply Forall_app; split; [repeat constructor|apply numeral_solid]|discriminate].
    cbn [list_ascii_of_string app Ascii.eqb Bool.eqb]. rewrite numeral_unsigned. reflexivity.
  - rewrite app_assoc with (l := list_ascii_of_string "-").
    rewrite strip_around; [|exact P|exact Q|apply Forall_app; split; [repeat constructor|apply numeral_solid]|discriminate].
    cbn [list_ascii_of_string app Ascii.eqb Bool.eqb]. rewrite numeral_unsigned. reflexivity.
Qed.

Lemma generator_raises : forall stored G seeded sampler C2 low_make plan a config w gn w' ns,
  construct_env stored G seeded sampler C2 low_make plan None a config w = Ok (gn, w') -> (2 <= length ns)%nat ->
  construct_env stored G seeded sampler C2 low_make plan (Some (omp_value ns)) a config w = Err ValueError.
Proof.
  intros stored G seeded sampler C2 low_make plan a config w gn w' ns H L. unfold construct_env in *.
  destruct (scales_of stored a) as [cs|e]; [|discriminate]. cbn [bind] in *.
  destruct (make_geometry _ _ _ _ _) as [geo|e]; [|discriminate]. cbn [bind] in *. rewrite list_raises by exact L. reflexivity.
Qed.

Lemma generator_same : forall stored G seeded sampler C2 low_make plan a config w pre n post, blank pre -> blank post ->
  plan (Z.of_nat n) = Ok tt -> plan 4%Z = Ok tt ->
  construct_env stored G seeded sampler C2 low_make plan (Some (pre ++ numeral n ++ post)%string) a config w
  = construct_env stored G seeded sampler C2 low_make plan None a config w
  /\ construct_env stored G seeded sampler C2 low_make plan None a config w = construct stored G seeded sampler C2 low_make a config w.
Proof.
  intros stored G seeded sampler C2 low_make plan a config w pre n post P Q H1 H2. unfold construct_env.
  destruct (numeral_count pre n post P Q) as (-> & _). cbn [thread_count bind]. rewrite H1, H2. cbn [bind]. split; [reflexivity|].
  unfold construct. destruct (scales_of stored a) as [cs|e]; [|reflexivity]. cbn [bind].
  destruct (make_geometry _ _ _ _ _) as [geo|e]; reflexivity.
Qed.

(** ** Directories *)

Lemma str_app_assoc : forall a b c : string, ((a ++ b) ++ c = a ++ b ++ c)%string.
Proof. induction a as [|x a IH]; intros b c; [reflexivity|]. cbn. rewrite IH. reflexivity. Qed.

Lemma str_cancel_r : forall a b c : string, (a ++ c = b ++ c)%string -> a = b.
Proof.
  intros a b c H. assert (E : list_ascii_of_string a = list_ascii_of_string b).
  { apply (app_inv_tail (list_ascii_of_string c)). rewrite <- !las_app. rewrite H. reflexivity. }
  rewrite <- (string_of_list_ascii_of_string a), E. apply string_of_list_ascii_of_string.
Qed.

Lemma default_save : forall A imp t (h : list (action A)) s0 content r s1,
  let out := output_attribute imp None in
  let s := acts out t h s0 in
  absolute imp ->
  act out t (SaveModel DNone content) s = (r, s1) ->
  (r = Ok tt <-> fs_dir (se_fs s) (imp ++ "/results") = true)
  /\ (r = Ok tt -> fs_file (se_fs s1) (model_file (imp ++ "/results") t) = Some content)
  /\ (r <> Ok tt -> r = Err ValueError /\ s1 = s)
  /\ forall p, p <> model_file (imp ++ "/results") t -> fs_file (se_fs s1) p = fs_file (se_fs s) p.
Proof.
  intros A imp t h s0 content r s1 out s (imp' & I) H. unfold act, out, output_attribute, default_output in H.
  assert (P : place (se_cwd s) (DPath (imp ++ "/results")) = DPath (imp ++ "/results")) by (rewrite I; reflexivity).
  rewrite P in H. cbn [place save_model] in H. destruct (fs_dir (se_fs s) (imp ++ "/results")%string) eqn:D.
  - cbn [orb] in H. injection H as <- <-. cbn [se_fs fs_file].
    split; [split; reflexivity|]. split; [|split; [congruence|]].
    + intros _. unfold model_path, model_file. rewrite String.eqb_refl. reflexivity.
    + intros p N. destruct (String.eqb_spec p (model_path (imp ++ "/results") t)); [exfalso; apply N; assumption|reflexivity].
  - injection H as <- <-. split; [split; discriminate|]. split; [discriminate|]. split; [|reflexivity].
    intros _. split; [reflexivity|]. destruct s as [cwd f]. reflexivity.
Qed.

Lemma default_elsewhere : forall A imp t (h : list (action A)) s0 content r s1,
  let out := output_attribute imp None in
  let s := acts out t h s0 in
  absolute imp -> se_cwd s <> imp ->
  act out t (SaveModel DNone content) s = (r, s1) ->
  fs_file (se_fs s1) (model_file (se_cwd s ++ "/results") t) = fs_file (se_fs s) (model_file (se_cwd s ++ "/results") t).
Proof.
  intros A imp t h s0 content r s1 out s I N H. destruct (default_save A imp t h s0 content r s1 I H) as (_ & _ & _ & K).
  apply K. intros E. apply N. unfold model_file in E. rewrite !str_app_assoc in E. apply str_cancel_r in E. exact E.
Qed.

Lemma default_missing : forall A imp t (s : session_state A) content,
  absolute imp -> fs_dir (se_fs s) (imp ++ "/results") = false -> fs_creatable (se_fs s) (imp ++ "/results") = true ->
  act (output_attribute imp None) t (SaveModel DNone content) s = (Err ValueError, s)
  /\ exists s1, act (output_attribute imp (Some (DStr (imp ++ "/results")))) t (SaveModel DNone content) s = (Ok tt, s1)
     /\ fs_file (se_fs s1) (model_file (imp ++ "/results") t) = Some content.
Proof.
  intros A imp t [cwd f] content (imp' & ->) D C. unfold act, output_attribute, default_output. cbn [se_cwd se_fs] in *.
  cbn [place save_model locate append Ascii.eqb Bool.eqb]. cbn [append] in D, C. rewrite D, C. cbn [orb]. split; [reflexivity|].
  eexists. split; [reflexivity|]. cbn [se_fs fs_file]. unfold model_path, model_file. cbn [append]. rewrite String.eqb_refl. reflexivity.
Qed.

Lemma act_dir : forall A out t (a : action A) s d, fs_dir (se_fs s) d = true -> fs_dir (se_fs (snd (act out t a s))) d = true.
Proof.
  intros A out t a [cwd f] d H. cbn [se_fs] in H. destruct a as [x|sd c|sd b i]; unfold act; cbn [se_cwd se_fs].
  - destruct (fs_dir f (locate cwd x)); exact H.
  - assert (K : forall w, fs_dir (snd (if (fs_dir f w || fs_creatable f w)%bool then
      (Ok tt, FS (fun d0 => (String.eqb d0 w || fs_dir f d0)%bool) (fs_creatable f) (fun p => if String.eqb p (model_path w t) then Some c else fs_file f p))
      else (Err GenericException, f))) d = true).
    { intros w. destruct (_ || _)%bool; cbn [snd fs_dir]; [rewrite H; apply orb_true_r|exact H]. }
    assert (L : fs_dir (snd (save_model f (place cwd sd) (place cwd out) t c)) d = true).
    { unfold save_model. destruct (place cwd sd) as [|w|w]; [destruct (place cwd out) as [|w|w]|..]; try exact H; try apply K;
        destruct (fs_dir f w) eqn:W; try exact H; cbn [orb snd fs_dir]; rewrite H; apply orb_true_r. }
    destruct (save_model _ _ _ _ _) as [r g]. exact L.
  - assert (L : fs_dir (snd (save_figure cwd f sd out b i)) d = true).
    { unfold save_figure. destruct sd as [|w|w]; [destruct out as [|w|w]|..]; try exact H;
        destruct (_ || _)%bool; cbn [snd fs_dir]; try exact H; rewrite H; apply orb_true_r. }
    destruct (save_figure _ _ _ _ _ _) as [r g]. exact L.
Qed.

Lemma acts_dir : forall A out t (l : list (action A)) s d, fs_dir (se_fs s) d = true -> fs_dir (se_fs (acts out t l s)) d = true.
Proof. intros A out t l. induction l as [|a l IH]; intros s d H; [exact H|]. cbn [acts]. apply IH. apply act_dir. exact H. Qed.

Lemma figure_first : forall A imp t (s s1 : session_state A) base img h content,
  absolute imp -> let out := output_attribute imp None in
  act out t (SaveFigure DNone base img) s = (Ok tt, s1) ->
  exists s2, act out t (SaveModel DNone content) (acts out t h s1) = (Ok tt, s2)
  /\ fs_file (se_fs s2) (model_file (imp ++ "/results") t) = Some content.
Proof.
  intros A imp t s s1 base img h content I out H.
  assert (D : fs_dir (se_fs s1) (imp ++ "/results") = true).
  { destruct I as (imp' & ->). destruct s as [cwd f]. unfold act, out, output_attribute, default_output, save_figure in H.
    cbn [se_cwd se_fs locate append Ascii.eqb Bool.eqb] in H. destruct (_ || _)%bool; [|discriminate H].
    injection H as <-. cbn [se_fs fs_dir append]. rewrite String.eqb_refl. reflexivity. }
  destruct (act out t (SaveModel DNone content) (acts out t h s1)) as [r s2] eqn:E. exists s2.
  destruct (default_save A imp t h s1 content r s2 I E) as (K1 & K2 & _).
  assert (R : r = Ok tt) by (apply K1; apply acts_dir; exact D). subst r. split; [reflexivity|apply K2; reflexivity].
Qed.

Lemma relative_place : forall cwd s, relative s -> place cwd (DStr s) = DStr (cwd ++ "/" ++ s).
Proof.
  intros cwd s (c & s' & -> & N). cbn [place locate]. destruct (Ascii.eqb_spec c "/"); [contradiction|reflexivity].
Qed.

Lemma relative_save : forall A name t (s : session_state A) content,
  relative name -> (fs_dir (se_fs s) (se_cwd s ++ "/" ++ name) = true \/ fs_creatable (se_fs s) (se_cwd s ++ "/" ++ name) = true) ->
  exists s1, act (DStr name) t (SaveModel DNone content) s = (Ok tt, s1)
  /\ fs_file (se_fs s1) (model_file (se_cwd s ++ "/" ++ name) t) = Some content
  /\ forall p, p <> model_file (se_cwd s ++ "/" ++ name) t -> fs_file (se_fs s1) p = fs_file (se_fs s) p.
Proof.
  intros A name t [cwd f] content R D. cbn [se_cwd se_fs] in *. unfold act. cbn [se_cwd se_fs]. rewrite relative_place by exact R.
  cbn [place save_model]. assert (O : orb (fs_dir f (cwd ++ "/" ++ name)) (fs_creatable f (cwd ++ "/" ++ name)) = true) by (apply orb_true_intro; exact D).
  rewrite O. eexists. split; [reflexivity|]. cbn [se_fs fs_file]. unfold model_path, model_file. split.
  - rewrite String.eqb_refl. reflexivity.
  - intros p N. destruct (String.eqb_spec p ((cwd ++ "/" ++ name) ++ "/" ++ eddy_name t ++ ".pkl")); [contradiction|reflexivity].
Qed.

Lemma relative_moves : forall A name t (s : session_state A) d c1 c2,
  relative name -> absolute d -> d <> se_cwd s -> fs_dir (se_fs s) d = true ->
  fs_creatable (se_fs s) (se_cwd s ++ "/" ++ name) = true -> fs_creatable (se_fs s) (d ++ "/" ++ name) = true ->
  let s' := acts (DStr name) t [SaveModel DNone c1; Chdir d; SaveModel DNone c2] s in
  fs_file (se_fs s') (model_file (se_cwd s ++ "/" ++ name) t) = Some c1
  /\ fs_file (se_fs s') (model_file (d ++ "/" ++ name) t) = Some c2.
Proof.
  intros A name t [cwd f] d c1 c2 R I N D C1 C2. cbn [se_cwd se_fs] in *. cbn zeta.
  assert (O1 : orb (fs_dir f (cwd ++ "/" ++ name)) (fs_creatable f (cwd ++ "/" ++ name)) = true) by (rewrite C1; apply orb_true_r).
  assert (L : locate cwd d = d) by (destruct I as (d' & ->); reflexivity).
  assert (S1 : snd (act (DStr name) t (SaveModel DNone c1) (Sess cwd f)) = Sess cwd (FS (fun x => orb (String.eqb x (cwd ++ "/" ++ name)) (fs_dir f x)) (fs_creatable f)
    (fun p => if String.eqb p (model_path (cwd ++ "/" ++ name) t) then Some c1 else fs_file f p))).
  { unfold act. cbn [se_cwd se_fs]. rewrite relative_place by exact R. cbn [place save_model]. rewrite O1. reflexivity. }
  match type of S1 with _ = Sess cwd ?g => assert (S2 : snd (act (DStr name) t (Chdir d) (Sess cwd g)) = Sess d g) end.
  { unfold act. cbn [se_cwd se_fs fs_dir]. rewrite L, D, orb_true_r. reflexivity. }
  cbn [acts]. rewrite S1, S2.
  unfold act. cbn [se_cwd se_fs]. rewrite relative_place by exact R. cbn [place save_model fs_dir fs_creatable]. rewrite C2, orb_true_r.
  cbn [snd se_fs fs_file]. unfold model_path, model_file. rewrite !String.eqb_refl.
  destruct (String.eqb_spec ((cwd ++ "/" ++ name) ++ "/" ++ eddy_name t ++ ".pkl") ((d ++ "/" ++ name) ++ "/" ++ eddy_name t ++ ".pkl")) as [E|E].
  - exfalso. apply N. rewrite !str_app_assoc in E. apply str_cancel_r in E. symmetry. exact E.
  - split; reflexivity.
Qed.

Lemma empty_root : forall A t (s : session_state A) content, fs_dir (se_fs s) "" = true -> se_cwd s <> ""%string ->
  exists s1, act (DStr "") t (SaveModel DNone content) s = (Ok tt, s1)
  /\ fs_file (se_fs s1) ("/" ++ eddy_name t ++ ".pkl") = Some content
  /\ fs_file (se_fs s1) (model_file (se_cwd s) t) = fs_file (se_fs s) (model_file (se_cwd s) t).
Proof.
  intros A t [cwd f] content D N. cbn [se_cwd se_fs] in *. unfold act. cbn [se_cwd se_fs place save_model]. rewrite D. cbn [orb].
  eexists. split; [reflexivity|]. cbn [se_fs fs_file]. unfold model_path, model_file. cbn [append]. rewrite String.eqb_refl. split; [reflexivity|].
  destruct (String.eqb_spec (cwd ++ String "/" (eddy_name t ++ ".pkl")) (String "/" (eddy_name t ++ ".pkl"))) as [E|E]; [|reflexivity].
  exfalso. apply N. apply (str_cancel_r cwd "" (String "/" (eddy_name t ++ ".pkl"))). exact E.
Qed.

(** ** Writers *)

Lemma comment_ignored : forall d c1 c2 now1 now2 host, writer_directory (Some d) c1 now1 host = writer_directory (Some d) c2 now2 host.
Proof. reflexivity. Qed.

Lemma str_cancel_l : forall c a b : string, (c ++ a = c ++ b)%string -> a = b.
Proof. induction c as [|x c IH]; intros a b H; [exact H|]. cbn in H. injection H as H. apply IH. exact H. Qed.

Lemma comment_distinguishes : forall c1 c2 now host, c1 <> c2 -> writer_directory None c1 now host <> writer_directory None c2 now host.
Proof. intros c1 c2 now host N E. apply N. unfold writer_directory in E. do 4 apply str_cancel_l in E. exact E. Qed.

(** ** Stored options *)

Lemma evaluations_split : forall k1 zref h g, exists s, snd (evaluations k1 zref h g) = Aggregator (ag_params g) s (ag_auto g) (ag_freq g) (ag_scales g).
Proof.
  intros k1 zref h. induction h as [|a h IH]; intros g.
  - exists (ag_state g). destruct g. reflexivity.
  - cbn [evaluations]. unfold evaluate. destruct (agg_eval _ _ _ _ _) as [r s1].
    destruct (IH (Aggregator (ag_params g) s1 (ag_auto g) (ag_freq g) (ag_scales g))) as (s2 & E).
    destruct (evaluations _ _ _ _) as [rs g2]. cbn [snd] in *. exists s2. exact E.
Qed.

Lemma evaluations_blind : forall k1 zref h p s a1 f1 c1 a2 f2 c2,
  fst (evaluations k1 zref h (Aggregator p s a1 f1 c1)) = fst (evaluations k1 zref h (Aggregator p s a2 f2 c2))
  /\ ag_state (snd (evaluations k1 zref h (Aggregator p s a1 f1 c1))) = ag_state (snd (evaluations k1 zref h (Aggregator p s a2 f2 c2))).
Proof.
  intros k1 zref h. induction h as [|a h IH]; intros p s a1 f1 c1 a2 f2 c2; [split; reflexivity|].
  cbn [evaluations]. unfold evaluate. cbn [ag_params ag_state ag_auto ag_freq ag_scales].
  destruct (agg_eval p k1 zref s a) as [r s1]. destruct (IH p s1 a1 f1 c1 a2 f2 c2) as (E1 & E2).
  destruct (evaluations k1 zref h (Aggregator p s1 a1 f1 c1)) as [rs g]. destruct (evaluations k1 zref h (Aggregator p s1 a2 f2 c2)) as [rs' g'].
  cbn [fst snd] in *. rewrite E1. split; [reflexivity|exact E2].
Qed.

Lemma evaluations_values : forall k1 zref h p s a1 f1 c1,
  let rs := fst (evaluations k1 zref h (Aggregator p s a1 f1 c1)) in
  length rs = length h
  /\ forall i a, nth_error h i = Some a -> nth_error rs i = Some (fst (agg_eval p k1 zref (agg_run p k1 zref s (firstn i h)) a)).
Proof.
  intros k1 zref h. induction h as [|x h IH]; intros p s a1 f1 c1; cbv zeta.
  - split; [reflexivity|]. intros [|i] a H; discriminate H.
  - cbn [evaluations]. unfold evaluate. cbn [ag_params ag_state ag_auto ag_freq ag_scales].
    destruct (agg_eval p k1 zref s x) as [r s1] eqn:E. destruct (IH p s1 a1 f1 c1) as (L & V).
    destruct (evaluations k1 zref h (Aggregator p s1 a1 f1 c1)) as [rs g]. cbn [fst] in *. split; [cbn [length]; rewrite L; reflexivity|].
    intros [|i] a H; cbn [nth_error] in H.
    + injection H as <-. cbn. rewrite E. reflexivity.
    + cbn [nth_error firstn]. rewrite (V i a H). unfold agg_run. cbn [fold_left]. rewrite E. reflexivity.
Qed.

Lemma balance_ignored : forall p b1 n1 b2 n2 k1 zref h,
  let r1 := evaluations k1 zref h (new_aggregator (LossOptions p b1 n1)) in
  let r2 := evaluations k1 zref h (new_aggregator (LossOptions p b2 n2)) in
  fst r1 = fst r2 /\ ag_state (snd r1) = ag_state (snd r2) /\ ag_scales (snd r1) = None /\ ag_freq (snd r1) = 10%nat
  /\ length (fst r1) = length h
  /\ forall i a, nth_error h i = Some a ->
       nth_error (fst r1) i = Some (fst (agg_eval p k1 zref (agg_run p k1 zref agg_init (firstn i h)) a)).
Proof.
  intros p b1 n1 b2 n2 k1 zref h r1 r2. destruct (evaluations_blind k1 zref h p agg_init b1 10 None b2 10 None) as (E1 & E2).
  split; [exact E1|]. split; [exact E2|]. unfold r1. destruct (evaluations_split k1 zref h (new_aggregator (LossOptions p b1 n1))) as (s & ->).
  split; [reflexivity|]. split; [reflexivity|]. apply evaluations_values.
Qed.
