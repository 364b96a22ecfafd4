(** Which texts are numbers, and where figures are saved. *)

From Coq Require Import String Ascii Reals List Arith ZArith Bool Lia.
From Verif Require Import Prelude SpectraModel LossModel CalModel GenModel LogModel EnvModel EnvSpec EnvProofs.
Import ListNotations.

Lemma more_app : forall l us acc n m, more_digits us acc l = Some n -> more_digits us acc (l ++ m) = more_digits false n m.
Proof.
  induction l as [|c l IH]; intros us acc n m H; cbn [more_digits app] in *.
  - destruct us; [discriminate|]. injection H as ->. reflexivity.
  - destruct (digit_of c) as [d|]; [apply IH; exact H|]. destruct (Ascii.eqb c "_"); [|discriminate]. destruct us; [discriminate|]. apply IH. exact H.
Qed.

Lemma digits_unsigned : forall l n, digits l n -> unsigned l = Some n.
Proof.
  intros l n H. induction H as [d D|l n d H IH D|l n d H IH D].
  - cbn [unsigned]. rewrite (proj2 (digit_decimal _ d) (conj D eq_refl)). reflexivity.
  - destruct l as [|c l]; [discriminate IH|]. cbn [unsigned app] in *. destruct (digit_of c); [|discriminate].
    rewrite (more_app _ _ _ _ _ IH). cbn [more_digits]. rewrite (proj2 (digit_decimal _ d) (conj D eq_refl)). reflexivity.
  - destruct l as [|c l]; [discriminate IH|]. cbn [unsigned app] in *. destruct (digit_of c); [|discriminate].
    rewrite (more_app _ _ _ _ _ IH). cbn [more_digits]. change (digit_of "_") with (@None nat). cbn [Ascii.eqb Bool.eqb].
    rewrite (proj2 (digit_decimal _ d) (conj D eq_refl)). reflexivity.
Qed.

Lemma more_digits_text : forall l us acc n l0, digits l0 acc -> more_digits us acc l = Some n ->
  digits (l0 ++ (if us then ["_"%char] else []) ++ l) n.
Proof.
  induction l as [|c l IH]; intros us acc n l0 H M; cbn [more_digits] in M.
  - destruct us; [discriminate|]. injection M as ->. cbn [app]. rewrite app_nil_r. exact H.
  - destruct (digit_of c) as [d|] eqn:E.
    + apply digit_decimal in E. destruct E as (D & ->). destruct us.
      * specialize (IH false (10 * acc + d)%nat n (l0 ++ ["_"%char; decimal d])). cbn [app] in IH. cbn [app].
        rewrite <- app_assoc in IH. apply IH; [apply digits_underscore; assumption|exact M].
      * specialize (IH false (10 * acc + d)%nat n (l0 ++ [decimal d])). cbn [app] in IH. cbn [app].
        rewrite <- app_assoc in IH. apply IH; [apply digits_next; assumption|exact M].
    + destruct (Ascii.eqb_spec c "_") as [->|]; [|discriminate]. destruct us; [discriminate|].
      specialize (IH true acc n l0 H M). cbn [app] in IH. exact IH.
Qed.

Lemma unsigned_digits : forall l n, unsigned l = Some n <-> digits l n.
Proof.
  intros l n. split; [|apply digits_unsigned]. intros H. destruct l as [|c l]; [discriminate|]. cbn [unsigned] in H.
  destruct (digit_of c) as [d|] eqn:E; [|discriminate]. apply digit_decimal in E. destruct E as (D & ->).
  apply (more_digits_text l false d n [decimal d] (digits_first d D) H).
Qed.

Lemma strip_front_split : forall l, exists p, l = p ++ strip_front l /\ Forall white p.
Proof.
  induction l as [|c l (p & E & P)]; [exists []; split; [reflexivity|constructor]|]. cbn [strip_front].
  destruct (is_space c) eqn:S; [|exists []; split; [reflexivity|constructor]].
  exists (c :: p). split; [cbn [app]; rewrite <- E; reflexivity|]. constructor; [apply space_white; exact S|exact P].
Qed.

Lemma strip_split : forall l, exists p q, l = p ++ strip l ++ q /\ Forall white p /\ Forall white q.
Proof.
  intros l. destruct (strip_front_split l) as (p & E & P). destruct (strip_front_split (rev (strip_front l))) as (q & F & Q).
  exists p, (rev q). split; [|split; [exact P|apply Forall_rev; exact Q]]. rewrite E at 1. f_equal. unfold strip.
  rewrite <- rev_app_distr, <- F, rev_involutive. reflexivity.
Qed.

Lemma text_of : forall l, list_ascii_of_string (string_of_list_ascii l) = l.
Proof. apply list_ascii_of_string_of_list_ascii. Qed.

Lemma sola_app : forall a b, string_of_list_ascii (a ++ b) = (string_of_list_ascii a ++ string_of_list_ascii b)%string.
Proof. induction a as [|c a IH]; intros b; [reflexivity|]. cbn. rewrite IH. reflexivity. Qed.

Lemma digits_solid : forall l n, digits l n -> Forall (fun c => is_space c = false) l.
Proof.
  intros l n H. apply Forall_forall. intros c I. apply digit_solid.
  destruct (unsigned_chars _ _ _ (digits_unsigned _ _ H) I) as [K|K]; auto.
Qed.

Lemma digits_start : forall l n, digits l n -> exists c l', l = c :: l' /\ c <> "-"%char /\ c <> "+"%char.
Proof.
  intros l n H. apply digits_unsigned in H. destruct l as [|c l]; [discriminate|]. exists c, l. split; [reflexivity|].
  cbn [unsigned] in H. split; intros ->; discriminate H.
Qed.

Lemma count_exact : forall s z, thread_count (Some s) = Ok z <-> integer_text s z.
Proof.
  intros s z. unfold thread_count. split.
  - destruct (py_int s) as [w|] eqn:H; [|discriminate]. intros E. injection E as ->. unfold py_int in H.
    destruct (strip_split (list_ascii_of_string s)) as (p & q & E & P & Q).
    assert (SE : forall m sign, strip (list_ascii_of_string s) = list_ascii_of_string sign ++ m ->
      s = (string_of_list_ascii p ++ sign ++ string_of_list_ascii m ++ string_of_list_ascii q)%string).
    { intros m sign S. rewrite S in E. rewrite <- (string_of_list_ascii_of_string s), E, <- app_assoc, !sola_app, string_of_list_ascii_of_string. reflexivity. }
    assert (G : forall m sign n, strip (list_ascii_of_string s) = list_ascii_of_string sign ++ m -> unsigned m = Some n ->
      ((sign = ""%string \/ sign = "+"%string) /\ z = Z.of_nat n \/ sign = "-"%string /\ z = (- Z.of_nat n)%Z) -> integer_text s z).
    { intros m sign n S U V. exists (string_of_list_ascii p), sign, (string_of_list_ascii m), (string_of_list_ascii q), n.
      split; [apply SE; exact S|]. unfold blank. rewrite !text_of. split; [exact P|]. split; [exact Q|]. split; [apply unsigned_digits; exact U|exact V]. }
    destruct (strip (list_ascii_of_string s)) as [|c l]; [discriminate|].
    destruct (Ascii.eqb_spec c "-") as [->|N1].
    + destruct (unsigned l) as [n|] eqn:U; [|discriminate]. cbn [option_map] in H. injection H as <-.
      apply (G l "-"%string n); [reflexivity|exact U|right; split; reflexivity].
    + destruct (Ascii.eqb_spec c "+") as [->|N2].
      * destruct (unsigned l) as [n|] eqn:U; [|discriminate]. cbn [option_map] in H. injection H as <-.
        apply (G l "+"%string n); [reflexivity|exact U|left; split; [right; reflexivity|reflexivity]].
      * destruct (unsigned (c :: l)) as [n|] eqn:U; [|discriminate]. cbn [option_map] in H. injection H as <-.
        apply (G (c :: l) ""%string n); [reflexivity|exact U|left; split; [left; reflexivity|reflexivity]].
  - intros (pre & sign & body & post & n & -> & P & Q & D & V). apply blank_spaces in P. apply blank_spaces in Q.
    pose proof (digits_solid _ _ D) as S. destruct (digits_start _ _ D) as (c & l & B & N1 & N2). pose proof (digits_unsigned _ _ D) as U.
    unfold py_int. rewrite !las_app. destruct V as [[[->| ->] ->]|[-> ->]].
    + change (list_ascii_of_string "") with (@nil ascii). cbn [app].
      rewrite strip_around; [|exact P|exact Q|exact S|rewrite B; discriminate]. rewrite B in *.
      destruct (Ascii.eqb_spec c "-"); [contradiction|]. destruct (Ascii.eqb_spec c "+"); [contradiction|]. rewrite U. reflexivity.
    + rewrite (app_assoc (list_ascii_of_string "+")).
      rewrite strip_around; [|exact P|exact Q|apply Forall_app; split; [repeat constructor|exact S]|discriminate].
      cbn [list_ascii_of_string app Ascii.eqb Bool.eqb]. rewrite U. reflexivity.
    + rewrite (app_assoc (list_ascii_of_string "-")).
      rewrite strip_around; [|exact P|exact Q|apply Forall_app; split; [repeat constructor|exact S]|discriminate].
      cbn [list_ascii_of_string app Ascii.eqb Bool.eqb]. rewrite U. reflexivity.
Qed.

Lemma figure_saved : forall A out t (s s1 : session_state A) dir name img r,
  act out t (SaveFigure (DStr dir) name img) s = (r, s1) -> absolute dir ->
  let file := figure_file dir (if String.eqb name "" then "drdmannturb_final_spectra_fit" else name) in
  (r = Ok tt <-> fs_dir (se_fs s) dir = true \/ fs_creatable (se_fs s) dir = true)
  /\ (r = Ok tt -> fs_file (se_fs s1) file = Some img /\ fs_dir (se_fs s1) dir = true)
  /\ (r <> Ok tt -> s1 = s)
  /\ forall p, p <> file -> fs_file (se_fs s1) p = fs_file (se_fs s) p.
Proof.
  intros A out t [cwd f] s1 dir name img r H (d & ->). cbv zeta. cbn [act save_figure se_cwd se_fs locate Ascii.eqb Bool.eqb] in H.
  cbn [se_fs]. unfold figure_file. set (nm := if String.eqb name "" then "drdmannturb_final_spectra_fit"%string else name) in *.
  destruct (fs_dir f (String "/" d) || fs_creatable f (String "/" d))%bool eqn:O; injection H as <- <-; cbn [se_fs fs_file fs_dir].
  - split; [|split; [|split]].
    + split; [intros _; apply orb_prop; exact O|reflexivity].
    + intros _. rewrite !String.eqb_refl. split; reflexivity.
    + congruence.
    + intros p Np. apply String.eqb_neq in Np. cbn [append] in *. rewrite Np. reflexivity.
  - apply orb_false_elim in O. destruct O as [O1 O2]. split; [|split; [|split]].
    + split; [discriminate|]. intros [E|E]; congruence.
    + discriminate.
    + reflexivity.
    + reflexivity.
Qed.
