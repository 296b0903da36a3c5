(** C153: directories read through static.FS. *)
From Verif Require Import Base M_Readdir S_Readdir.
Local Open Scope Z_scope.

Section R.
  Context {I D : Type}.
  Variable read : D -> Z -> list (option I) * option derr * D.
  Variable rest : D -> list (option I).
  Hypothesis law : lawful read rest.

  Lemma add_infos_app (l : list I) ds : forall is, infos ds is -> add_infos l ds = l ++ is.
  Proof.
    intros is H. revert l. unfold add_infos. induction H as [|ds is H IH|i ds is H IH]; intros l; cbn [fold_left].
    - rewrite app_nil_r. reflexivity.
    - apply IH.
    - rewrite IH, <- app_assoc. reflexivity.
  Qed.
  Lemma infos_ex (ds : list (option I)) : exists is, infos ds is.
  Proof. induction ds as [|[i|] ds [is H]]; [exists []|exists (i :: is)|exists is]; constructor; exact H. Qed.
  Lemma infos_det (ds : list (option I)) : forall a b, infos ds a -> infos ds b -> a = b.
  Proof.
    intros a b H. revert b. induction H as [|ds is H IH|i ds is H IH]; intros b Hb; inversion Hb; subst; [reflexivity|auto|].
    f_equal; auto.
  Qed.
  Lemma infos_app (a b : list (option I)) x y : infos a x -> infos b y -> infos (a ++ b) (x ++ y).
  Proof. intros H Hb. induction H; cbn [app]; [exact Hb|constructor; assumption..]. Qed.
  Lemma infos_len (a : list (option I)) x : infos a x -> (length x <= length a)%nat.
  Proof. induction 1; cbn [length]; lia. Qed.

  (** what one call returns, in terms of what was left *)
  Definition result (count : Z) (d : D) (l : list I) (e : option derr) (d' : D) : Prop :=
    exists got, rest d = got ++ rest d' /\ infos got l /\
      match e with
      | None => if count <=? 0 then rest d' = [] else Z.of_nat (length l) = count
      | Some EOF => count > 0 /\ rest d' = [] /\ Z.of_nat (length l) < count
      | Some MissingReadDir => False
      | Some (Other _) => count > 0 -> Z.of_nat (length l) <= count
      end.

  Lemma loop_result count : forall fuel l d, (length (rest d) < fuel)%nat ->
    (l = [] \/ Z.of_nat (length l) < count) ->
    exists l' e d', readdir_loop read fuel count l d = Some (l ++ l', e, d') /\
      exists got, rest d = got ++ rest d' /\ infos got l' /\
      match e with
      | None => if count <=? 0 then rest d' = [] else Z.of_nat (length (l ++ l')) = count
      | Some EOF => count > 0 /\ rest d' = [] /\ Z.of_nat (length (l ++ l')) < count
      | Some MissingReadDir => False
      | Some (Other w) => (count > 0 -> Z.of_nat (length (l ++ l')) <= count)
      end.
  Proof.
    induction fuel as [|fuel IH]; intros l d F L; [lia|]. cbn [readdir_loop].
    pose proof (law d (count - Z.of_nat (length l))) as A.
    destruct (read d (count - Z.of_nat (length l))) as [[dirs err] d1]. cbn [fst snd] in A.
    destruct (infos_ex dirs) as [is Hi]. rewrite (add_infos_app l dirs is Hi). pose proof (infos_len _ _ Hi) as Hl.
    inversion A as [N E1 E2 E3|got lft N E0 Ne Le E1 E2 E3|N E0 E1 E2 E3|got lft w E0 Le E1 E2 E3]; subst.
    - assert (count <= 0) as C by (destruct L as [-> | L]; cbn [length] in N; lia).
      assert (l = []) as -> by (destruct L as [-> | L]; [reflexivity|lia]).
      assert (((count <? 0) || (count <=? Z.of_nat (length ([] ++ is)))) = true) as -> by (destruct (Z.ltb_spec count 0), (Z.leb_spec count (Z.of_nat (length ([] ++ is)))); cbn; lia).
      exists is, None, d1. split; [reflexivity|]. exists (rest d). split; [rewrite <- E3, app_nil_r; reflexivity|]. split; [exact Hi|].
      destruct (Z.leb_spec count 0); [|lia]. symmetry. exact E3.
    - rewrite app_length, Nat2Z.inj_add in *. assert (count > 0) as C by lia.
      destruct (Z.ltb_spec count 0) as [?|_]; [lia|]. cbn [orb].
      destruct (Z.leb_spec count (Z.of_nat (length l) + Z.of_nat (length is))) as [G|G].
      + exists is, None, d1. split; [reflexivity|]. exists dirs. split; [exact E0|]. split; [exact Hi|].
        destruct (Z.leb_spec count 0); [lia|]. rewrite app_length, Nat2Z.inj_add. lia.
      + destruct (IH (l ++ is) d1) as (l' & e & d' & R & got & E & Hg & Post).
        { assert (length (rest d) = length dirs + length (rest d1))%nat by (rewrite E0, app_length; reflexivity).
          destruct dirs; [congruence|]. cbn [length] in *. lia. }
        { right. rewrite app_length. lia. }
        exists (is ++ l'), e, d'. rewrite app_assoc. split; [exact R|]. exists (dirs ++ got).
        split; [rewrite E0, E, app_assoc; reflexivity|]. split; [apply infos_app; assumption|exact Post].
    - inversion Hi; subst. exists [], (Some EOF), d1. rewrite app_nil_r. split; [reflexivity|]. exists [].
      split; [rewrite E0; assumption|]. split; [constructor|]. cbn [length] in *. split; [lia|]. split; [congruence|]. destruct L as [-> |L]; cbn [length] in *; lia.
    - exists is, (Some (Other w)), d1. split; [reflexivity|]. exists dirs. split; [exact E0|]. split; [exact Hi|].
      intros C. rewrite app_length, Nat2Z.inj_add. destruct L as [-> | L]; cbn [length] in *; [specialize (Le ltac:(lia))|specialize (Le ltac:(lia))]; lia.
  Qed.

  (** Every call returns. *)
  Theorem C153_one_call : forall count d fuel, (length (rest d) < fuel)%nat ->
    exists l e d', readdir read fuel true count d = Some (l, e, d') /\ result count d l e d'.
  Proof.
    intros count d fuel F. destruct (loop_result count fuel [] d F (or_introl eq_refl)) as (l & e & d' & R & got & E & Hi & Post).
    exists l, e, d'. split; [exact R|]. exists got. split; [exact E|]. split; [exact Hi|]. exact Post.
  Qed.

  (** Page by page: all entries, each once, in their order, all pages but the last full, then io.EOF. *)
  Theorem C153_page_by_page : forall count d fuel, sound read -> count > 0 -> (length (rest d) < fuel)%nat ->
    exists ps last, paged (fun d r => readdir read fuel true count d = Some r) d (ps ++ [last]) EOF /\
      infos (rest d) (concat ps ++ last) /\
      Forall (fun p => Z.of_nat (length p) = count) ps /\ Z.of_nat (length last) < count.
  Proof.
    intros count d fuel. intros So C. remember (length (rest d)) as n eqn:En. revert d En. induction n as [n IH] using lt_wf_ind. intros d -> F.
    destruct (C153_one_call count d fuel F) as (l & e & d' & R & got & E & Hi & Post).
    destruct e as [e|].
    - assert (e = EOF /\ rest d' = [] /\ Z.of_nat (length l) < count) as (-> & E' & Le).
      { destruct e; [tauto|destruct Post|]. exfalso. clear - R So. unfold readdir in R. revert R. generalize (@nil I). revert d. induction fuel as [|fuel IHf]; intros d l0; cbn [readdir_loop]; [discriminate|].
        specialize (So d (count - Z.of_nat (length l0)) what). destruct (read d (count - Z.of_nat (length l0))) as [[ds er] d1]. cbn [fst snd] in So.
        destruct er as [er|]; [intros R; inversion R; subst; congruence|]. destruct ((count <? 0) || _); [discriminate|]. apply IHf. }
      exists [], l. cbn [app concat]. split; [econstructor; exact R|]. split; [rewrite E, E', app_nil_r; exact Hi|]. split; [constructor|exact Le].
    - destruct (Z.leb_spec count 0) as [?|_]; [lia|].
      assert (length (rest d) = length got + length (rest d'))%nat as El by (rewrite E at 1; apply app_length).
      pose proof (infos_len _ _ Hi).
      destruct (IH (length (rest d')) ltac:(lia) d' eq_refl ltac:(lia)) as (ps & last & P & Hp & Fu & Le).
      exists (l :: ps), last. cbn [app concat]. split; [econstructor; [exact R|exact P]|]. split; [rewrite E, <- app_assoc; apply infos_app; assumption|].
      split; [constructor; assumption|exact Le].
  Qed.
End R.

(** A file without ReadDir: an error, nothing read. *)
Theorem C153_not_a_directory : forall (I D : Type) (read : D -> Z -> list (option I) * option derr * D) fuel count d,
  readdir read fuel false count d = Some ([], Some MissingReadDir, d).
Proof. reflexivity. Qed.

(** Example: an embedded directory (embed.FS's openDir.ReadDir): whatever is asked for, up to what is left *)
Definition embed_read {A} (d : list A) (n : Z) : list A * option derr * list A :=
  if n <=? 0 then (d, None, [])
  else match d with [] => ([], Some EOF, []) | _ => (firstn (Z.to_nat n) d, None, skipn (Z.to_nat n) d) end.
Example embed_lawful : forall A, lawful (@embed_read A) (fun d => d) /\ sound (@embed_read A).
Proof.
  intros A. split.
  - intros d n. unfold embed_read. destruct (Z.leb_spec n 0); [constructor; assumption|]. destruct d as [|x d].
    + constructor; [lia|reflexivity].
    + cbn [fst snd]. apply Some_of_them; [lia|symmetry; apply firstn_skipn| |].
      * destruct (Z.to_nat n) eqn:E; [lia|discriminate].
      * rewrite firstn_length. lia.
  - intros d n w. unfold embed_read. destruct (n <=? 0); [discriminate|]. destruct d; discriminate.
Qed.
Example embed_pages :
  let d := [Some 1; None; Some 2; Some 3; None]%nat in
  readdir embed_read 9 true 2 d = Some ([1; 2]%nat, None, [Some 3; None]%nat) /\
  readdir embed_read 9 true 2 [Some 3; None]%nat = Some ([3]%nat, Some EOF, []) /\
  readdir embed_read 9 true (-1) d = Some ([1; 2; 3]%nat, None, []).
Proof. vm_compute. auto. Qed.
Print Assumptions C153_one_call.
Print Assumptions C153_page_by_page.
Print Assumptions C153_not_a_directory.
