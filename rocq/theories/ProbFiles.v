(** Lemmas about saving step by step, concurrent saving, and loss plots. *)

From Coq Require Import String Reals List Arith ZArith Bool Lra Lia Permutation.
From Verif Require Import Prelude RdtModel SpectraModel OpsModel LossModel CalModel ProbModel.
From Verif Require Import CalSpec ProbSpec CalProofs CalMore.
Import ListNotations.
Open Scope nat_scope.

(** ** One process *)

Lemma file_run_app : forall B (z : B) l1 l2 pos f,
  file_run z (l1 ++ l2) pos f
  = file_run z l2 (fst (file_run z l1 pos f)) (snd (file_run z l1 pos f)).
Proof.
  intros B z l1. induction l1 as [|s l1 IH]; intros l2 pos f; [reflexivity|].
  cbn [app file_run]. destruct (file_step z s pos f) as [p1 f1]. apply IH.
Qed.

Lemma write_end : forall B (z : B) chunk old, write_at z (length old) chunk old = old ++ chunk.
Proof.
  intros B z chunk old. unfold write_at. rewrite firstn_all, Nat.sub_diag. cbn [repeat app].
  rewrite skipn_all2 by lia. rewrite app_nil_r. reflexivity.
Qed.

Lemma writes_append : forall B (z : B) p chunks pos f old,
  fs_file f p = Some old -> pos = length old ->
  fs_file (snd (file_run z (map (Write p) chunks) pos f)) p = Some (old ++ concat chunks).
Proof.
  intros B z p chunks. induction chunks as [|c cs IH]; intros pos f old E L.
  - cbn. rewrite app_nil_r. exact E.
  - cbn [map file_run file_step concat]. rewrite app_assoc. apply IH.
    + cbn [fs_file]. rewrite String.eqb_refl, E, L, write_end. reflexivity.
    + rewrite app_length. lia.
Qed.

Definition touches {B : Type} (p : string) (s : fstep B) : Prop :=
  match s with MakeDir _ => False | Open q => q = p | Write q _ => q = p end.

Lemma step_other : forall B (z : B) p s pos f, ~ touches p s -> fs_file (snd (file_step z s pos f)) p = fs_file f p.
Proof.
  intros B z p s pos f N. destruct s as [d|q|q c]; cbn [file_step snd fs_file]; [reflexivity|..];
    destruct (String.eqb_spec p q) as [->|]; try reflexivity; exfalso; apply N; reflexivity.
Qed.

Lemma run_other : forall B (z : B) p l pos f, List.Forall (fun s => ~ touches p s) l ->
  fs_file (snd (file_run z l pos f)) p = fs_file f p.
Proof.
  intros B z p l. induction l as [|s l IH]; intros pos f F; [reflexivity|]. inversion F; subst.
  cbn [file_run]. pose proof (step_other B z p s pos f H1) as E. destruct (file_step z s pos f) as [p1 f1].
  cbn [snd] in E. rewrite IH by assumption. exact E.
Qed.

Lemma firstn_map' : forall A B (g : A -> B) n l, firstn n (map g l) = map g (firstn n l).
Proof. induction n as [|n IH]; intros [|a l]; cbn; [reflexivity..|]. f_equal. apply IH. Qed.

Lemma steps_touch : forall B p dir t (chunks : list (list B)), p <> model_path dir t ->
  List.Forall (fun s => ~ touches p s) (save_steps dir t chunks).
Proof.
  intros B p dir t chunks N. unfold save_steps. constructor; [intros []|]. constructor; [cbn; congruence|].
  apply Forall_forall. intros s I. apply in_map_iff in I. destruct I as (c & <- & _). cbn. congruence.
Qed.

Lemma Forall_firstn' : forall A (P : A -> Prop) n l, List.Forall P l -> List.Forall P (firstn n l).
Proof.
  intros A P n l F. revert n. induction F; intros [|n]; cbn; constructor; try assumption. apply IHF.
Qed.

Lemma crash_file : forall B (z : B) dir t chunks n pos f,
  let f' := snd (file_run z (firstn n (save_steps dir t chunks)) pos f) in
  fs_file f' (model_path dir t) = (if n <=? 1 then fs_file f (model_path dir t) else Some (concat (firstn (n - 2) chunks)))
  /\ (forall p, p <> model_path dir t -> fs_file f' p = fs_file f p).
Proof.
  intros B z dir t chunks n pos f f'. split.
  - unfold f'. destruct n as [|[|n]]; [reflexivity|reflexivity|].
    unfold save_steps. cbn [firstn]. rewrite firstn_map'. cbn [file_run file_step].
    replace (S (S n) - 2) with n by lia. replace (S (S n) <=? 1) with false by reflexivity.
    rewrite (writes_append B z _ _ _ _ []); [reflexivity| |reflexivity].
    cbn [fs_file]. rewrite String.eqb_refl. reflexivity.
  - intros p N. apply run_other. apply Forall_firstn'. apply steps_touch. exact N.
Qed.

Lemma concat_prefix : forall A n (l : list (list A)), exists rest, concat l = concat (firstn n l) ++ rest.
Proof.
  intros A n l. exists (concat (skipn n l)). rewrite <- concat_app, firstn_skipn. reflexivity.
Qed.

Lemma crash_states : forall B (z : B) dir t chunks n pos f,
  let f' := snd (file_run z (firstn n (save_steps dir t chunks)) pos f) in
  (fs_file f' (model_path dir t) = fs_file f (model_path dir t)
   \/ exists written rest, fs_file f' (model_path dir t) = Some written /\ concat chunks = written ++ rest)
  /\ (forall p, p <> model_path dir t -> fs_file f' p = fs_file f p)
  /\ (length (save_steps dir t chunks) <= n -> fs_file f' (model_path dir t) = Some (concat chunks) /\ fs_dir f' dir = true).
Proof.
  intros B z dir t chunks n pos f f'. destruct (crash_file B z dir t chunks n pos f) as (E & O). fold f' in E, O.
  split; [|split; [exact O|]].
  - destruct (n <=? 1); [left; exact E|right]. destruct (concat_prefix B (n - 2) chunks) as (rest & C).
    eexists. exists rest. split; [exact E|exact C].
  - intros L. assert (L2 : length (save_steps dir t chunks) = S (S (length chunks))).
    { unfold save_steps. cbn [length]. rewrite map_length. reflexivity. }
    split.
    + rewrite E. destruct (Nat.leb_spec n 1); [lia|]. rewrite firstn_all2 by lia. reflexivity.
    + unfold f'. rewrite firstn_all2 by exact L. unfold save_steps. cbn [file_run file_step].
      assert (G : forall l pos (g : fs (list B)), fs_dir g dir = true -> fs_dir (snd (file_run z (map (Write (model_path dir t)) l) pos g)) dir = true).
      { induction l as [|c l IH]; intros q g Hg; [exact Hg|]. cbn [map file_run file_step]. apply IH. exact Hg. }
      apply G. cbn [fs_dir]. rewrite String.eqb_refl. reflexivity.
Qed.

(** Emptied but not yet written. *)
Lemma crash_loses : forall B (z : B) dir t chunks pos f old,
  fs_file f (model_path dir t) = Some old -> old <> [] -> concat chunks <> [] ->
  exists n, let f' := snd (file_run z (firstn n (save_steps dir t chunks)) pos f) in
    fs_file f' (model_path dir t) <> Some old /\ fs_file f' (model_path dir t) <> Some (concat chunks).
Proof.
  intros B z dir t chunks pos f old E O C. exists 2.
  destruct (crash_file B z dir t chunks 2 pos f) as (F & _). cbv zeta. rewrite F. cbn. split; congruence.
Qed.

Lemma crash_read : forall B A (enc : A -> list B) dec (z : B) dir t chunks n pos f new,
  prefix_safe enc dec -> concat chunks = enc new ->
  let f' := snd (file_run z (firstn n (save_steps dir t chunks)) pos f) in
  read_file dec f' (model_path dir t) = read_file dec f (model_path dir t)
  \/ read_file dec f' (model_path dir t) = None \/ read_file dec f' (model_path dir t) = Some new.
Proof.
  intros B A enc dec z dir t chunks n pos f new (D & P) C f'.
  destruct (crash_states B z dir t chunks n pos f) as ([E|(w & rest & E & W)] & _); fold f' in E.
  - left. unfold read_file. rewrite E. reflexivity.
  - right. unfold read_file. rewrite E. rewrite C in W. destruct rest as [|b rest].
    + right. rewrite app_nil_r in W. rewrite <- W. apply D.
    + left. replace w with (firstn (length w) (enc new)); [apply P; rewrite W, app_length; cbn; lia|].
      rewrite W, firstn_app, firstn_all, Nat.sub_diag. cbn. apply app_nil_r.
Qed.

(** A completed save is the atomic one of the model of `save_model`. *)
Lemma complete_refines : forall B A (enc : A -> list B) dec (z : B) dir t chunks pos f fa new,
  prefix_safe enc dec -> concat chunks = enc new -> (forall p, fs_file fa p = read_file dec f p) ->
  orb (fs_dir fa dir) (fs_creatable fa dir) = true ->
  exists fa', save_model fa (DStr dir) DNone t new = (Ok tt, fa')
    /\ forall p, fs_file fa' p = read_file dec (snd (file_run z (save_steps dir t chunks) pos f)) p.
Proof.
  intros B A enc dec z dir t chunks pos f fa new (D & P) C R U.
  unfold save_model. rewrite U. eexists. split; [reflexivity|]. intros p. cbn [fs_file].
  destruct (crash_states B z dir t chunks (length (save_steps dir t chunks)) pos f) as (_ & O & F).
  rewrite firstn_all in O, F. destruct (F (le_n _)) as (F1 & _).
  unfold read_file. destruct (String.eqb_spec p (model_path dir t)) as [->|N].
  - rewrite F1, C, D. reflexivity.
  - rewrite O by exact N. apply R.
Qed.

(** ** Two processes *)

Lemma step_agree : forall B (z : B) p s pos f g, fs_file f p = fs_file g p ->
  fst (file_step z s pos f) = fst (file_step z s pos g)
  /\ fs_file (snd (file_step z s pos f)) p = fs_file (snd (file_step z s pos g)) p.
Proof.
  intros B z p s pos f g E. destruct s as [d|q|q c]; cbn [file_step fst snd fs_file]; (split; [reflexivity|]); [exact E|..];
    rewrite E; reflexivity.
Qed.

Lemma race_alone : forall B (z : B) p l1 l2 l, interleaving l1 l2 l -> List.Forall (fun s => ~ touches p s) l2 ->
  forall pos1 pos2 f g, fs_file f p = fs_file g p ->
  fs_file (file_race z l pos1 pos2 f) p = fs_file (snd (file_run z l1 pos1 g)) p.
Proof.
  intros B z p l1 l2 l I. induction I as [|a l1 l2 l I IH|a l1 l2 l I IH]; intros F pos1 pos2 f g E; [exact E|..].
  - cbn [file_race file_run]. destruct (step_agree B z p a pos1 f g E) as (P & Q).
    destruct (file_step z a pos1 f) as [q1 f1]. destruct (file_step z a pos1 g) as [q2 g1]. cbn [fst snd] in P, Q. subst q2.
    apply IH; assumption.
  - inversion F as [|? ? N F']; subst. cbn [file_race]. pose proof (step_other B z p a pos2 f N) as O.
    destruct (file_step z a pos2 f) as [q f1]. cbn [snd] in O. apply IH; [exact F'|]. rewrite O. exact E.
Qed.

Definition flip {A : Type} (l : list (bool * A)) : list (bool * A) := map (fun x => (negb (fst x), snd x)) l.

Lemma interleaving_flip : forall A (l1 l2 : list A) l, interleaving l1 l2 l -> interleaving l2 l1 (flip l).
Proof. intros A l1 l2 l I. induction I; cbn; constructor; assumption. Qed.

Lemma race_flip : forall B (z : B) l pos1 pos2 f, file_race z (flip l) pos2 pos1 f = file_race z l pos1 pos2 f.
Proof.
  intros B z l. induction l as [|[[|] s] l IH]; intros pos1 pos2 f; [reflexivity|..]; cbn [flip map negb fst snd file_race];
    destruct (file_step _ _ _ _); apply IH.
Qed.

Lemma race_distinct : forall B (z : B) d1 t1 c1 d2 t2 c2 l pos1 pos2 f,
  interleaving (save_steps d1 t1 c1) (save_steps d2 t2 c2) l -> d1 <> d2 \/ t1 <> t2 ->
  fs_file (file_race z l pos1 pos2 f) (model_path d1 t1) = Some (concat c1)
  /\ fs_file (file_race z l pos1 pos2 f) (model_path d2 t2) = Some (concat c2)
  /\ forall p, p <> model_path d1 t1 -> p <> model_path d2 t2 -> fs_file (file_race z l pos1 pos2 f) p = fs_file f p.
Proof.
  intros B z d1 t1 c1 d2 t2 c2 l pos1 pos2 f I N.
  assert (P : model_path d1 t1 <> model_path d2 t2).
  { intros E. apply path_inj in E. destruct E, N; congruence. }
  assert (G : forall d t c pos, fs_file (snd (file_run z (save_steps d t c) pos f)) (model_path d t) = Some (concat c)).
  { intros d t c pos. destruct (crash_states B z d t c (length (save_steps d t c)) pos f) as (_ & _ & F).
    rewrite firstn_all in F. apply F. apply le_n. }
  split; [|split].
  - rewrite (race_alone B z _ _ _ _ I) with (g := f); [apply G|apply steps_touch; exact P|reflexivity].
  - rewrite <- race_flip.
    rewrite (race_alone B z _ _ _ _ (interleaving_flip _ _ _ _ I)) with (g := f); [apply G|apply steps_touch; congruence|reflexivity].
  - intros p N1 N2. rewrite (race_alone B z _ _ _ _ I) with (g := f); [|apply steps_touch; exact N2|reflexivity].
    apply run_other. apply steps_touch. exact N1.
Qed.

(** *** The same file *)

Lemma nth_write : forall B (z : B) pos chunk F i,
  nth_error (write_at z pos chunk F) i
  = if i <? pos then (if i <? length F then nth_error F i else Some z)
    else if i <? pos + length chunk then nth_error chunk (i - pos) else nth_error F i.
Proof.
  intros B z pos chunk F i. unfold write_at.
  assert (N : forall n (l : list B) j, nth_error (firstn n l) j = if j <? n then nth_error l j else None).
  { induction n as [|n IH]; intros l j; [cbn; destruct j; reflexivity|]. destruct l as [|b l]; [cbn [firstn]; destruct (j <? S n); destruct j; reflexivity|].
    destruct j as [|j]; [reflexivity|]. cbn [firstn nth_error]. rewrite IH. reflexivity. }
  assert (Rp : forall n j, nth_error (repeat z n) j = if j <? n then Some z else None).
  { induction n as [|n IH]; intros j; [destruct j; reflexivity|]. destruct j as [|j]; [reflexivity|]. cbn [repeat nth_error]. rewrite IH. reflexivity. }
  assert (Sk : forall n (l : list B) j, nth_error (skipn n l) j = nth_error l (n + j)).
  { induction n as [|n IH]; intros l j; [reflexivity|]. destruct l as [|b l]; [destruct j; reflexivity|]. cbn [skipn]. rewrite IH. reflexivity. }
  assert (LF : length (firstn pos F) = Nat.min pos (length F)) by apply firstn_length.
  destruct (Nat.ltb_spec i pos) as [H|H].
  - destruct (Nat.ltb_spec i (length F)) as [H2|H2].
    + rewrite nth_error_app1 by lia. rewrite N. destruct (Nat.ltb_spec i pos); [reflexivity|lia].
    + rewrite nth_error_app2 by lia. rewrite nth_error_app1 by (rewrite repeat_length; lia).
      rewrite Rp, LF. destruct (Nat.ltb_spec (i - Nat.min pos (length F)) (pos - length F)); [reflexivity|lia].
  - rewrite nth_error_app2 by lia. rewrite nth_error_app2 by (rewrite repeat_length; lia).
    rewrite repeat_length, LF. replace (i - Nat.min pos (length F) - (pos - length F)) with (i - pos) by lia.
    destruct (Nat.ltb_spec i (pos + length chunk)) as [H2|H2].
    + rewrite nth_error_app1 by lia. reflexivity.
    + rewrite nth_error_app2 by lia. rewrite Sk. f_equal. lia.
Qed.

Lemma length_write : forall B (z : B) pos chunk F, length (write_at z pos chunk F) = Nat.max (pos + length chunk) (length F).
Proof.
  intros B z pos chunk F. unfold write_at. rewrite !app_length, firstn_length, repeat_length, skipn_length. lia.
Qed.

Lemma nth_ext_list : forall B (a b : list B), (forall i, nth_error a i = nth_error b i) -> a = b.
Proof.
  induction a as [|x a IH]; intros [|y b] H; [reflexivity|specialize (H 0); discriminate..|].
  pose proof (H 0) as E. cbn in E. inversion E; subst. f_equal. apply IH. intros i. exact (H (S i)).
Qed.

Section SameFile.
  Variable B : Type.
  Variable z : B.
  Variable p : string.
  Variable c : list B.

  (** Remaining steps of a process which has not opened the file yet. *)
  Definition pending (l : list (fstep B)) : Prop :=
    exists d chunks, concat chunks = c /\ (l = MakeDir d :: Open p :: map (Write p) chunks \/ l = Open p :: map (Write p) chunks).

  (** Remaining steps of a process which has written its first [pos] bytes. *)
  Definition writing (pos : nat) (l : list (fstep B)) : Prop :=
    exists chunks, l = map (Write p) chunks /\ pos <= length c /\ concat chunks = skipn pos c.

  (** The file when the process at [q] was the last to open it. *)
  Definition covered (q : nat) (f : fs (list B)) : Prop :=
    exists F, fs_file f p = Some F /\ length F <= length c /\ q <= length F
      /\ forall i, i < q -> nth_error F i = nth_error c i.

  Lemma writing_step : forall pos a l, writing pos (a :: l) ->
    exists chunk, a = Write p chunk /\ pos + length chunk <= length c
      /\ (forall i, i < length chunk -> nth_error chunk i = nth_error c (pos + i))
      /\ writing (pos + length chunk) l.
  Proof.
    intros pos a l (chunks & E & L & C). destruct chunks as [|chunk cs]; [discriminate|]. cbn in E. inversion E; subst.
    exists chunk. split; [reflexivity|]. cbn [concat] in C.
    assert (L2 : length chunk + length (concat cs) = length c - pos) by (rewrite <- app_length, C, skipn_length; reflexivity).
    split; [lia|]. split.
    - intros i Hi. assert (Sk : forall n (l : list B) j, nth_error (skipn n l) j = nth_error l (n + j)).
      { induction n as [|n IH]; intros l j; [reflexivity|]. destruct l as [|b l]; [destruct j; reflexivity|]. cbn [skipn]. rewrite IH. reflexivity. }
      rewrite <- Sk, <- C, nth_error_app1 by exact Hi. reflexivity.
    - exists cs. split; [reflexivity|]. split; [lia|].
      assert (G : skipn (length chunk) (chunk ++ concat cs) = skipn (length chunk) (skipn pos c)) by (rewrite C; reflexivity).
      rewrite skipn_app, skipn_all, Nat.sub_diag in G. cbn in G. rewrite G.
      clear. revert pos. generalize (length chunk). intros n pos. revert c. induction pos as [|pos IH]; intros l; [reflexivity|].
      destruct l as [|b l]; [cbn; rewrite !skipn_nil; reflexivity|]. cbn [skipn Nat.add]. apply IH.
  Qed.

  (** Second process was the last to open. *)
  Lemma race_covered : forall l1 l2 l, interleaving l1 l2 l -> forall pos1 pos2 f,
    writing pos1 l1 -> writing pos2 l2 -> covered pos2 f ->
    fs_file (file_race z l pos1 pos2 f) p = Some c.
  Proof.
    intros l1 l2 l I. induction I as [|a l1 l2 l I IH|a l1 l2 l I IH]; intros pos1 pos2 f W1 W2 (F & E & L & Q & N).
    - cbn [file_race]. rewrite E. f_equal. destruct W2 as (chunks & Z & L2 & C). destruct chunks; [|discriminate].
      cbn in C. assert (K : length c - pos2 = 0) by (rewrite <- skipn_length, <- C; reflexivity).
      apply nth_ext_list. intros i. destruct (Nat.lt_ge_cases i pos2) as [Hi|Hi]; [apply N; exact Hi|].
      rewrite (proj2 (nth_error_None F i)), (proj2 (nth_error_None c i)) by lia. reflexivity.
    - apply writing_step in W1. destruct W1 as (chunk & -> & B1 & V & W1). cbn [file_race file_step].
      apply IH; [exact W1|exact W2|]. exists (write_at z pos1 chunk F). cbn [fs_file]. rewrite String.eqb_refl, E.
      split; [reflexivity|]. rewrite length_write. split; [lia|]. split; [lia|]. intros i Hi. rewrite nth_write.
      destruct (Nat.ltb_spec i pos1) as [H|H].
      + destruct (Nat.ltb_spec i (length F)); [apply N; exact Hi|lia].
      + destruct (Nat.ltb_spec i (pos1 + length chunk)); [|apply N; exact Hi].
        rewrite V by lia. f_equal. lia.
    - apply writing_step in W2. destruct W2 as (chunk & -> & B1 & V & W2). cbn [file_race file_step].
      apply IH; [exact W1|exact W2|]. exists (write_at z pos2 chunk F). cbn [fs_file]. rewrite String.eqb_refl, E.
      split; [reflexivity|]. rewrite length_write. split; [lia|]. split; [lia|]. intros i Hi. rewrite nth_write.
      destruct (Nat.ltb_spec i pos2) as [H|H].
      + destruct (Nat.ltb_spec i (length F)); [apply N; exact H|lia].
      + destruct (Nat.ltb_spec i (pos2 + length chunk)); [|lia].
        rewrite V by lia. f_equal. lia.
  Qed.

  Lemma pending_step : forall pos a l f, pending (a :: l) ->
    (fst (file_step z a pos f) = pos /\ pending l)
    \/ (fst (file_step z a pos f) = 0 /\ writing 0 l /\ covered 0 (snd (file_step z a pos f))).
  Proof.
    intros pos a l f (d & chunks & C & [E|E]); inversion E; subst.
    - left. split; [reflexivity|]. exists d, chunks. split; [exact C|right; reflexivity].
    - right. split; [reflexivity|]. split.
      + exists chunks. split; [reflexivity|]. split; [lia|]. exact C.
      + exists []. cbn [file_step snd fs_file]. rewrite String.eqb_refl. split; [reflexivity|]. cbn. repeat split; try lia.
  Qed.

  Lemma race_same : forall l1 l2 l, interleaving l1 l2 l -> forall pos1 pos2 f,
    pending l1 \/ writing pos1 l1 -> pending l2 \/ writing pos2 l2 -> pending l1 \/ pending l2 ->
    fs_file (file_race z l pos1 pos2 f) p = Some c.
  Proof.
    intros l1 l2 l I. induction I as [|a l1 l2 l I IH|a l1 l2 l I IH]; intros pos1 pos2 f S1 S2 P.
    - exfalso. destruct P as [(d & k & _ & [E|E])|(d & k & _ & [E|E])]; discriminate.
    - cbn [file_race]. destruct S1 as [S1|S1].
      + destruct (pending_step pos1 a l1 f S1) as [(E & Q)|(E & Q & K)];
          destruct (file_step z a pos1 f) as [q f1]; cbn [fst snd] in *; subst q.
        * apply IH; [left; exact Q|exact S2|left; exact Q].
        * destruct S2 as [S2|S2]; [apply IH; [right; exact Q|left; exact S2|right; exact S2]|].
          rewrite <- race_flip. eapply race_covered; [exact (interleaving_flip _ _ _ _ I)|exact S2|exact Q|exact K].
      + assert (P2 : pending l2).
        { destruct P as [P|P]; [|exact P]. destruct S1 as (k & E & _). destruct P as (d & k' & _ & [E'|E']); rewrite E' in E; destruct k; discriminate. }
        apply writing_step in S1. destruct S1 as (chunk & -> & _ & _ & W). cbn [file_step].
        apply IH; [right; exact W|exact S2|right; exact P2].
    - cbn [file_race]. destruct S2 as [S2|S2].
      + destruct (pending_step pos2 a l2 f S2) as [(E & Q)|(E & Q & K)];
          destruct (file_step z a pos2 f) as [q f1]; cbn [fst snd] in *; subst q.
        * apply IH; [exact S1|left; exact Q|right; exact Q].
        * destruct S1 as [S1|S1]; [apply IH; [left; exact S1|right; exact Q|left; exact S1]|].
          eapply race_covered; [exact I|exact S1|exact Q|exact K].
      + assert (P1 : pending l1).
        { destruct P as [P|P]; [exact P|]. destruct S2 as (k & E & _). destruct P as (d & k' & _ & [E'|E']); rewrite E' in E; destruct k; discriminate. }
        apply writing_step in S2. destruct S2 as (chunk & -> & _ & _ & W). cbn [file_step].
        apply IH; [exact S1|right; exact W|left; exact P1].
  Qed.

End SameFile.

Lemma race_same_content : forall B (z : B) d t c1 c2 l pos1 pos2 f,
  interleaving (save_steps d t c1) (save_steps d t c2) l -> concat c1 = concat c2 ->
  fs_file (file_race z l pos1 pos2 f) (model_path d t) = Some (concat c1).
Proof.
  intros B z d t c1 c2 l pos1 pos2 f I E. eapply race_same; [exact I|left|left|left];
    try (exists d, c1; split; [reflexivity|left; reflexivity]). exists d, c2. split; [symmetry; exact E|left; reflexivity].
Qed.

(** One save after the other. *)
Lemma race_sequential : forall B (z : B) d t c1 c2 pos1 pos2 f,
  let l := map (pair true) (save_steps d t c1) ++ map (pair false) (save_steps d t c2) in
  interleaving (save_steps d t c1) (save_steps d t c2) l
  /\ fs_file (file_race z l pos1 pos2 f) (model_path d t) = Some (concat c2).
Proof.
  intros B z d t c1 c2 pos1 pos2 f l. split.
  - unfold l. generalize (save_steps d t c1) as a, (save_steps d t c2) as b. intros a b.
    induction a as [|x a IH]; cbn; [|constructor; exact IH]. induction b; cbn; constructor; assumption.
  - unfold l. assert (G : forall a b p1 p2 (g : fs (list B)), exists q h, file_race z (map (pair true) a ++ b) p1 p2 g = file_race z b q p2 h).
    { induction a as [|x a IH]; intros b p1 p2 g; [exists p1, g; reflexivity|]. cbn [map app file_race].
      destruct (file_step z x p1 g) as [q h]. apply IH. }
    destruct (G (save_steps d t c1) (map (pair false) (save_steps d t c2)) pos1 pos2 f) as (q & h & ->).
    assert (K : forall b p1 p2 (g : fs (list B)), file_race z (map (pair false) b) p1 p2 g = snd (file_run z b p2 g)).
    { induction b as [|x b IH]; intros p1 p2 g; [reflexivity|]. cbn [map file_race file_run]. destruct (file_step z x p2 g). apply IH. }
    rewrite K. destruct (crash_states B z d t c2 (length (save_steps d t c2)) pos2 h) as (_ & _ & F).
    rewrite firstn_all in F. apply F. apply le_n.
Qed.

(** A schedule which mixes the two contents. *)
Lemma race_mixes : forall B (z : B) d t (a b : B) rest pos1 pos2 f, a <> b ->
  exists l, interleaving (save_steps d t [a :: rest ++ [a]]) (save_steps d t [[b]]) l
    /\ fs_file (file_race z l pos1 pos2 f) (model_path d t) = Some (b :: rest ++ [a])
    /\ b :: rest ++ [a] <> a :: rest ++ [a] /\ b :: rest ++ [a] <> [b].
Proof.
  intros B z d t a b rest pos1 pos2 f N.
  exists [(true, MakeDir d); (false, MakeDir d); (true, Open (model_path d t)); (false, Open (model_path d t));
     (true, Write (model_path d t) (a :: rest ++ [a])); (false, Write (model_path d t) [b])].
  split; [repeat constructor|]. split.
  - cbn [file_race file_step fs_file]. rewrite !String.eqb_refl. cbn. rewrite ?skipn_nil, ?app_nil_r. cbn. reflexivity.
  - split; [congruence|]. intros E. inversion E. destruct rest; discriminate.
Qed.

(** ** Loss plots *)

Lemma curves_value : forall (A : Type) (series : list (string * list A)), 2 <= length series -> List.Forall (fun s => snd s <> []) series ->
  plot_loss_logs series = Ok (rev (map (fun s => (fst s, skipn 2 (snd s))) series)).
Proof.
  intros A series L F. unfold plot_loss_logs.
  assert (E : existsb (fun s : string * list A => match snd s with [] => true | _ => false end) series = false).
  { clear L. induction F as [|s l Hs F IH]; [reflexivity|]. cbn [existsb]. destruct (snd s); [congruence|]. exact IH. }
  rewrite E. destruct series as [|a [|b l]]; cbn [length] in L; [lia|lia|]. f_equal.
  rewrite map_rev. f_equal. rewrite map_map. apply map_ext. intros [n [|x [|y v]]]; reflexivity.
Qed.

Lemma curves_errors : forall (A : Type) (series : list (string * list A)),
  (series = [] -> plot_loss_logs series = Err ValueError)
  /\ (forall n v, series = [(n, v)] -> v <> [] -> plot_loss_logs series = Err TypeError).
Proof.
  intros A series. split; [intros ->; reflexivity|]. intros n v -> H. unfold plot_loss_logs. cbn [existsb snd].
  destruct v; [congruence|]. reflexivity.
Qed.

Lemma curves_lose : forall (A : Type) (series : list (string * list A)) name x y v, 2 <= length series -> List.Forall (fun s => snd s <> []) series ->
  In (name, x :: y :: v) series ->
  exists drawn, plot_loss_logs series = Ok drawn /\ In (name, v) drawn.
Proof.
  intros A series name x y v L F I. eexists. split; [apply curves_value; assumption|].
  apply in_rev. rewrite rev_involutive. apply (in_map (fun s => (fst s, skipn 2 (snd s)))) in I. exact I.
Qed.

Lemma losses_errors : forall (A : Type) (log : string -> list (string * list A)) run,
  plot_losses log None run = Err AssertionError
  /\ forall l, (Z.of_nat (length l) <= run)%Z \/ (run < - Z.of_nat (length l))%Z -> plot_losses log (Some l) run = Err IndexError.
Proof.
  intros B log run. split; [reflexivity|]. intros l H. unfold plot_losses, py_index.
  destruct (Z.leb_spec 0 run).
  - destruct (Z.ltb_spec run (Z.of_nat (length l))); [lia|reflexivity].
  - destruct (Z.leb_spec (- Z.of_nat (length l)) run); [lia|reflexivity].
Qed.

Lemma losses_listed : forall (A : Type) (log : string -> list (string * list A)) l i name, nth_error l i = Some name ->
  plot_losses log (Some l) (Z.of_nat i) = plot_loss_logs (log name)
  /\ plot_losses log (Some l) (Z.of_nat i - Z.of_nat (length l)) = plot_loss_logs (log name).
Proof.
  intros B log l i name H. assert (L : i < length l) by (apply nth_error_Some; congruence).
  unfold plot_losses, py_index. split.
  - destruct (Z.leb_spec 0 (Z.of_nat i)); [|lia]. destruct (Z.ltb_spec (Z.of_nat i) (Z.of_nat (length l))); [|lia].
    rewrite Nat2Z.id, H. reflexivity.
  - destruct (Z.leb_spec 0 (Z.of_nat i - Z.of_nat (length l))); [lia|].
    destruct (Z.leb_spec (- Z.of_nat (length l)) (Z.of_nat i - Z.of_nat (length l))); [|lia].
    replace (Z.to_nat (Z.of_nat i - Z.of_nat (length l) + Z.of_nat (length l))) with i by lia. rewrite H. reflexivity.
Qed.

Lemma losses_order : forall (A : Type) (log : string -> list (string * list A)) l i j a b, i < j -> nth_error l i = Some a -> nth_error l j = Some b ->
  plot_loss_logs (log a) <> plot_loss_logs (log b) ->
  exists l', Permutation l l' /\ plot_losses log (Some l) (Z.of_nat i) <> plot_losses log (Some l') (Z.of_nat i).
Proof.
  intros B log l i j a b L A Bn N.
  apply nth_error_split in A. destruct A as (l1 & r & -> & A). subst i.
  rewrite nth_error_app2 in Bn by lia. destruct (j - length l1) as [|k] eqn:E; [lia|]. cbn in Bn.
  apply nth_error_split in Bn. destruct Bn as (l2 & l3 & -> & Bn).
  exists (l1 ++ b :: l2 ++ a :: l3). split.
  - apply Permutation_app_head. transitivity (b :: a :: l2 ++ l3).
    + transitivity (a :: b :: l2 ++ l3); [apply perm_skip; symmetry; apply Permutation_middle|apply perm_swap].
    + apply perm_skip. apply Permutation_middle.
  - assert (Z1 : nth_error (l1 ++ a :: l2 ++ b :: l3) (length l1) = Some a) by (rewrite nth_error_app2, Nat.sub_diag by lia; reflexivity).
    assert (Z2 : nth_error (l1 ++ b :: l2 ++ a :: l3) (length l1) = Some b) by (rewrite nth_error_app2, Nat.sub_diag by lia; reflexivity).
    rewrite (proj1 (losses_listed B log _ _ _ Z1)), (proj1 (losses_listed B log _ _ _ Z2)). exact N.
Qed.
