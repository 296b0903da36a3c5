From Verif Require Import Base GoStrings GoInt M_Range S_Range P_Range M_Cond S_Cond.

Lemma etag_byte_iff c : etag_byte c = true <-> etagc c.
Proof.
  unfold etag_byte, etagc. rewrite !orb_true_iff, andb_true_iff, N.eqb_eq, !N.leb_le. tauto.
Qed.
Lemma quote_not_etagc : ~ etagc """".
Proof. unfold etagc. change (bv """") with 34%N. lia. Qed.
Lemma etagc_not_blank c : etagc c -> ~ blank_byte c.
Proof.
  unfold etagc. intros H [<-|[<-|[<-|[<-|[]]]]]; vm_compute in H;
    destruct H as [H|[[H1 H2]|H]]; congruence.
Qed.

Lemma scan_quoted_ok o : Forall etagc o -> forall seen rest,
  scan_quoted seen (o ++ """"%char :: rest) = (rev seen ++ o ++ [""""%char], rest).
Proof.
  induction 1 as [|c o Hc Ho IH]; intros seen rest; cbn [scan_quoted app].
  - assert (E : etag_byte """" = false) by reflexivity. rewrite E, Ascii.eqb_refl. cbn [rev]. reflexivity.
  - rewrite (proj2 (etag_byte_iff c) Hc), IH. cbn [rev]. rewrite <- app_assoc. reflexivity.
Qed.
Lemma scan_quoted_inv rest : forall seen e r, scan_quoted seen rest = (e, r) -> e <> [] ->
  exists o, Forall etagc o /\ rest = o ++ """"%char :: r /\ e = rev seen ++ o ++ [""""%char].
Proof.
  induction rest as [|c rest IH]; intros seen e r H Ne; cbn [scan_quoted] in H; [congruence|].
  destruct (etag_byte c) eqn:Ec.
  - destruct (IH (c :: seen) e r H Ne) as (o & Fo & -> & ->). exists (c :: o). split; [|split].
    + constructor; [apply etag_byte_iff; exact Ec|exact Fo].
    + reflexivity.
    + cbn [rev]. rewrite <- app_assoc. reflexivity.
  - destruct (Ascii.eqb_spec c """") as [->|N]; [|congruence].
    injection H as <- <-. exists []. split; [constructor|split; reflexivity].
Qed.

Lemma render_first e s : exists c t, render e ++ s = c :: t /\ (c = """"%char \/ c = "W"%char).
Proof. destruct e as [[|] o]; cbn; eauto 10. Qed.

(** the scanner on a trimmed string *)
Lemma scan_etag_body s : tight s ->
  scan_etag s = 
  let start := if has_prefix s (B"W/") then 2 else 0 in
  match skipn start s with
  | c :: (_ :: _) as rest =>
      if Ascii.eqb c """" then scan_quoted (rev (firstn (start + 1) s)) rest else ([], [])
  | _ => ([], [])
  end.
Proof.
  intros T. unfold scan_etag.
  assert (E : textproto_trim s = s).
  { rewrite <- (app_nil_r s) at 1. apply (trim_ows [] s []); [constructor|constructor|exact T]. }
  rewrite E. reflexivity.
Qed.
Lemma scan_render e s : valid_etag e -> tight (render e ++ s) -> scan_etag (render e ++ s) = (render e, s).
Proof.
  intros V T. rewrite (scan_etag_body _ T). cbv zeta. destruct e as [[|] o]; unfold render, quoted in *; cbn [e_weak e_opaque] in *.
  - change ((B"W/" ++ """"%char :: o ++ [""""%char]) ++ s) with ("W"%char :: "/"%char :: """"%char :: (o ++ [""""%char]) ++ s) in *.
    change (has_prefix ("W"%char :: "/"%char :: """"%char :: (o ++ [""""%char]) ++ s) (B"W/")) with true.
    cbv iota. cbn [skipn]. rewrite <- app_assoc. cbn [app].
    destruct (o ++ """"%char :: s) as [|x y] eqn:Ex; [destruct o; discriminate|].
    rewrite <- Ex, Ascii.eqb_refl. rewrite (scan_quoted_ok o V). reflexivity.
  - change (([] ++ """"%char :: o ++ [""""%char]) ++ s) with (""""%char :: (o ++ [""""%char]) ++ s) in *.
    change (has_prefix (""""%char :: (o ++ [""""%char]) ++ s) (B"W/")) with false.
    cbv iota. cbn [skipn]. rewrite <- app_assoc. cbn [app].
    destruct (o ++ """"%char :: s) as [|x y] eqn:Ex; [destruct o; discriminate|].
    rewrite <- Ex, Ascii.eqb_refl. rewrite (scan_quoted_ok o V). reflexivity.
Qed.
Lemma strip_prefix_app p s t : strip_prefix p s = Some t -> s = p ++ t.
Proof.
  revert s; induction p as [|a p IH]; intros [|b s] X; cbn [strip_prefix] in X; try discriminate;
    try (injection X as <-; reflexivity).
  destruct (Ascii.eqb_spec a b) as [->|_]; [|discriminate]. apply IH in X. subst. reflexivity.
Qed.
Lemma scan_inv s e r : tight s -> scan_etag s = (e, r) -> e <> [] ->
  exists t, valid_etag t /\ e = render t /\ s = render t ++ r.
Proof.
  intros T H Ne. rewrite (scan_etag_body _ T) in H. cbv zeta in H.
  unfold has_prefix in H. destruct (strip_prefix (B"W/") s) as [t|] eqn:P.
  - apply strip_prefix_app in P. subst s. change (skipn 2 (B"W/" ++ t)) with t in H.
    destruct t as [|c [|d t]]; try congruence.
    destruct (Ascii.eqb_spec c """") as [->|]; [|congruence].
    destruct (scan_quoted_inv _ _ _ _ H Ne) as (o & Fo & Er & Ee).
    exists (ETag true o). split; [exact Fo|]. split.
    + rewrite Ee. reflexivity.
    + rewrite Er. unfold render, quoted. cbn [e_weak e_opaque]. rewrite <- !app_assoc. cbn [app]. rewrite <- ?app_assoc. reflexivity.
  - cbn [skipn] in H. destruct s as [|c [|d t]]; try congruence.
    destruct (Ascii.eqb_spec c """") as [->|]; [|congruence].
    destruct (scan_quoted_inv _ _ _ _ H Ne) as (o & Fo & Er & Ee).
    exists (ETag false o). split; [exact Fo|]. split.
    + rewrite Ee. reflexivity.
    + rewrite Er. unfold render, quoted. cbn [e_weak e_opaque app]. rewrite <- app_assoc. reflexivity.
Qed.

(** [listed] is insensitive to surrounding blanks *)
Lemma listed_ows o s x : ows o -> listed s x -> listed (o ++ s) x.
Proof. induction 1; intros L; [exact L|]. cbn [app]. constructor; auto. Qed.
Lemma listed_ows_end o s x : ows o -> listed s x -> listed (s ++ o) x.
Proof.
  intros O L; induction L; cbn [app].
  - apply L_blank; assumption.
  - apply L_comma; assumption.
  - apply L_star.
  - rewrite <- app_assoc. apply L_here; assumption.
  - rewrite <- app_assoc. apply L_after; assumption.
Qed.
Lemma render_prefix_free e s e' s' : valid_etag e -> valid_etag e' -> render e ++ s = render e' ++ s' -> e = e' /\ s = s'.
Proof.
  assert (Q : forall o o' s s', Forall etagc o -> Forall etagc o' ->
     o ++ """"%char :: s = o' ++ """"%char :: s' -> o = o' /\ s = s').
  { induction o as [|c o IH]; intros [|c' o'] u u' F F' E; cbn [app] in E.
    - injection E as ->. split; reflexivity.
    - injection E as <- _. inversion F'; subst. exfalso. apply quote_not_etagc. assumption.
    - injection E as -> _. inversion F; subst. exfalso. apply quote_not_etagc. assumption.
    - injection E as -> E. inversion F; inversion F'; subst. destruct (IH o' u u' ltac:(assumption) ltac:(assumption) E) as [-> ->].
      split; reflexivity. }
  intros V V' E. unfold valid_etag in V, V'. destruct e as [[|] o], e' as [[|] o']; cbn [e_opaque] in V, V'; unfold render, quoted in E; cbn [e_weak e_opaque] in E;
    repeat rewrite <- app_assoc in E; cbn [B String.list_ascii_of_string app] in E; repeat rewrite <- app_assoc in E; cbn [app] in E;
    try discriminate.
  - injection E as E. destruct (Q _ _ _ _ V V' E) as [-> ->]. split; reflexivity.
  - injection E as E. destruct (Q _ _ _ _ V V' E) as [-> ->]. split; reflexivity.
Qed.
Lemma blank_facts : ~ blank_byte "*" /\ ~ blank_byte """" /\ ~ blank_byte "W".
Proof. repeat split; intros [X|[X|[X|[X|[]]]]]; discriminate. Qed.
(** inversion according to the first byte *)
Lemma listed_nil x : ~ listed [] x.
Proof.
  intros H. inversion H as [| | |e s V E|e s y V L E].
  - destruct (render_first e s) as (c & t & Er & _). congruence.
  - destruct (render_first e s) as (c & t & Er & _). congruence.
Qed.
Lemma listed_skip c s x : blank_byte c \/ c = ","%char -> listed (c :: s) x -> listed s x.
Proof.
  intros Hc H.
  assert (R : forall e t, render e ++ t = c :: s -> False).
  { intros e t E. destruct (render_first e t) as (d & u & Er & Hd). rewrite E in Er. injection Er as -> _.
    destruct blank_facts as (_ & B2 & B3). destruct Hc as [Hc|Hc]; destruct Hd; subst; try discriminate; contradiction. }
  inversion H as [c' s' x' Hb L E1 E2|s' x' L E1 E2|s' E1 E2|e s' V E1 E2|e s' y V L E1 E2]; subst.
  - exact L.
  - exact L.
  - destruct Hc as [Hc|Hc]; [exfalso; apply (proj1 blank_facts); exact Hc|discriminate].
  - exfalso. eapply R; eassumption.
  - exfalso. eapply R; eassumption.
Qed.
Lemma listed_star s x : listed ("*"%char :: s) x -> x = Star.
Proof.
  intros H.
  assert (R : forall e t, render e ++ t = "*"%char :: s -> False).
  { intros e t E. destruct (render_first e t) as (d & u & Er & Hd). rewrite E in Er. injection Er as <- _.
    destruct Hd; discriminate. }
  inversion H as [c' s' x' Hb L E1 E2|s' x' L E1 E2|s' E1 E2|e s' V E1 E2|e s' y V L E1 E2]; subst.
  - exfalso. apply (proj1 blank_facts). exact Hb.
  - reflexivity.
  - exfalso. eapply R; eassumption.
  - exfalso. eapply R; eassumption.
Qed.
Lemma listed_render e s x : valid_etag e -> listed (render e ++ s) x -> x = Tag e \/ listed s x.
Proof.
  intros V H. destruct (render_first e s) as (d & u & Er & Hd).
  remember (render e ++ s) as w eqn:Ew.
  inversion H as [c' s' x' Hb L E1 E2|s' x' L E1 E2|s' E1 E2|e' s' V' E1 E2|e' s' y V' L E1 E2]; subst.
  - rewrite Er in E1. injection E1 as -> _. destruct blank_facts as (_ & B2 & B3). destruct Hd; subst; contradiction.
  - rewrite Er in E1. injection E1 as <- _. destruct Hd; discriminate.
  - rewrite Er in E1. injection E1 as <- _. destruct Hd; discriminate.
  - destruct (render_prefix_free _ _ _ _ V' V E1) as [-> ->]. left. reflexivity.
  - destruct (render_prefix_free _ _ _ _ V' V E1) as [-> ->]. right. exact L.
Qed.
Lemma listed_ows_inv o s x : ows o -> listed (o ++ s) x -> listed s x.
Proof.
  induction 1 as [|c o Hc _ IH]; intros L; [exact L|]. apply IH. eapply listed_skip; [left; exact Hc|exact L].
Qed.
Lemma listed_ows_end_inv o : ows o -> forall s x, listed (s ++ o) x -> listed s x.
Proof.
  intros O s x L. remember (s ++ o) as w eqn:Ew. revert s Ew.
  induction L as [c s' x Hb L IH|s' x L IH|s'|e s' V|e s' x V L IH]; intros s Ew.
  - destruct s as [|d s].
    + exfalso. cbn in Ew. apply (listed_nil x). apply (listed_ows_inv o [] x O). rewrite app_nil_r, <- Ew.
      constructor; assumption.
    + injection Ew as -> Ew. constructor; [exact Hb|]. apply IH. exact Ew.
  - destruct s as [|d s].
    + exfalso. cbn in Ew. rewrite <- Ew in O. inversion O; subst. exact (comma_not_blank ltac:(assumption)).
    + injection Ew as <- Ew. apply L_comma. apply IH. exact Ew.
  - destruct s as [|d s].
    + exfalso. cbn in Ew. rewrite <- Ew in O. inversion O; subst. exact (proj1 blank_facts ltac:(assumption)).
    + injection Ew as <- Ew. apply L_star.
  - assert (H : exists t, s = render e ++ t).
    { assert (NB : Forall (fun c => ~ blank_byte c) (render e)).
      { destruct e as [wk o']; unfold render, quoted; cbn [e_weak e_opaque]. destruct blank_facts as (_ & B2 & B3).
        apply Forall_app. split.
        - destruct wk; [|constructor]. repeat constructor; [exact B3|]. intros [X|[X|[X|[X|[]]]]]; discriminate.
        - constructor; [exact B2|]. apply Forall_app. split; [|constructor; [exact B2|constructor]].
          eapply Forall_impl; [|exact V]. intros a. apply etagc_not_blank. }
      clear V. revert s Ew. induction (render e) as [|c r IHr]; intros s Ew; [exists s; reflexivity|].
      inversion NB as [|? ? Hc Hr]; subst. destruct s as [|d s].
      - exfalso. cbn in Ew. rewrite <- Ew in O. inversion O; subst. contradiction.
      - injection Ew as <- Ew. destruct (IHr Hr s Ew) as (t & ->). exists t. reflexivity. }
    destruct H as (t & ->). apply L_here. exact V.
  - assert (H : exists t, s = render e ++ t).
    { assert (NB : Forall (fun c => ~ blank_byte c) (render e)).
      { destruct e as [wk o']; unfold render, quoted; cbn [e_weak e_opaque]. destruct blank_facts as (_ & B2 & B3).
        apply Forall_app. split.
        - destruct wk; [|constructor]. repeat constructor; [exact B3|]. intros [X|[X|[X|[X|[]]]]]; discriminate.
        - constructor; [exact B2|]. apply Forall_app. split; [|constructor; [exact B2|constructor]].
          eapply Forall_impl; [|exact V]. intros a. apply etagc_not_blank. }
      clear V IH. revert s Ew. induction (render e) as [|c r IHr]; intros s Ew; [exists s; reflexivity|].
      inversion NB as [|? ? Hc Hr]; subst. destruct s as [|d s].
      - exfalso. cbn in Ew. rewrite <- Ew in O. inversion O; subst. contradiction.
      - injection Ew as <- Ew. destruct (IHr Hr s Ew) as (t & ->). exists t. reflexivity. }
    destruct H as (t & ->). rewrite <- app_assoc in Ew. apply app_inv_head in Ew. apply L_after; [exact V|]. apply IH. exact Ew.
Qed.
Lemma listed_trim s x : listed (textproto_trim s) x <-> listed s x.
Proof.
  destruct (trim_split s) as (a & b & Oa & Ob & E). rewrite E at 2. split; intros L.
  - apply listed_ows; [exact Oa|]. apply listed_ows_end; assumption.
  - apply (listed_ows_inv _ _ _ Oa) in L. exact (listed_ows_end_inv b Ob _ _ L).
Qed.
Lemma trim_length s : length (textproto_trim s) <= length s.
Proof. destruct (trim_split s) as (a & b & _ & _ & E). rewrite E at 2. rewrite !app_length. lia. Qed.
Lemma scan_length s e r : scan_etag s = (e, r) -> e <> [] -> length r < length s.
Proof.
  intros H Ne. assert (E : scan_etag (textproto_trim s) = (e, r)).
  { rewrite <- H. unfold scan_etag.
    assert (X : textproto_trim (textproto_trim s) = textproto_trim s).
    { rewrite <- (app_nil_r (textproto_trim s)) at 1. apply (trim_ows [] _ []); [constructor|constructor|apply trim_tight]. }
    rewrite X. reflexivity. }
  destruct (scan_inv _ _ _ (trim_tight s) E Ne) as (t & _ & _ & Es).
  pose proof (trim_length s). rewrite Es in H0. rewrite app_length in H0.
  destruct (render_first t []) as (c & u & Er & _). rewrite app_nil_r in Er. rewrite Er in H0. simpl in H0. lia.
Qed.

(** ** The loop *)
Definition hit (same : bytes -> bool) (s : bytes) : Prop :=
  listed s Star \/ exists e, listed s (Tag e) /\ same (render e) = true.
Lemma etag_loop_ok same : forall fuel s, length s <= fuel ->
  exists b, etag_loop fuel same s = Some b /\ (b = true <-> hit same s).
Proof.
  assert (HT : forall s, hit same (textproto_trim s) <-> hit same s).
  { intros s. unfold hit. rewrite listed_trim. split; (intros [H|(e & L & E)]; [left; exact H|right; exists e; split; [|exact E]; apply listed_trim; exact L]). }
  induction fuel as [|fuel IH]; intros s Hl; pose proof (trim_length s) as TL; pose proof (trim_tight s) as TT;
    specialize (HT s); cbn [etag_loop]; destruct (textproto_trim s) as [|c im'] eqn:E.
  - exists false. split; [reflexivity|]. rewrite <- HT. split; [discriminate|].
    intros [H|(e & H & _)]; exfalso; exact (listed_nil _ H).
  - simpl in TL. lia.
  - exists false. split; [reflexivity|]. rewrite <- HT. split; [discriminate|].
    intros [H|(e & H & _)]; exfalso; exact (listed_nil _ H).
  - simpl in TL. destruct (Ascii.eqb_spec c ",") as [->|Nc].
    { destruct (IH im' ltac:(lia)) as (b & Eb & Hb). exists b. split; [exact Eb|]. rewrite Hb, <- HT.
      unfold hit. split; (intros [H|(e & L & X)]; [left|right; exists e; split; [|exact X]]).
      - apply L_comma; exact H.
      - apply L_comma; exact L.
      - eapply listed_skip; [right; reflexivity|exact H].
      - eapply listed_skip; [right; reflexivity|exact L]. }
    destruct (Ascii.eqb_spec c "*") as [->|Ns].
    { exists true. split; [reflexivity|]. rewrite <- HT. split; [intros _; left; apply L_star|reflexivity]. }
    destruct (scan_etag (c :: im')) as [e r] eqn:Sc.
    destruct (is_empty e) eqn:Em.
    { exists false. split; [reflexivity|]. rewrite <- HT. split; [discriminate|].
      assert (NL : forall x, ~ listed (c :: im') x).
      { intros x L. remember (c :: im') as w eqn:Ew.
        assert (R : forall t u, valid_etag t -> render t ++ u = w -> False).
        { intros t u V Er. assert (T2 : tight (render t ++ u)) by (rewrite Er; exact TT).
          pose proof (scan_render t u V T2) as S2. rewrite Er, Sc in S2. injection S2 as -> _.
          destruct (render_first t []) as (d & y & Ed & _). rewrite app_nil_r in Ed. rewrite Ed in Em. discriminate. }
        inversion L as [c' s' x' Hb L' E1 E2|s' x' L' E1 E2|s' E1 E2|t s' V E1 E2|t s' y V L' E1 E2]; subst.
        - injection E1 as -> ->. destruct TT as [T1 _]. exact (T1 c eq_refl Hb).
        - injection E1 as <- _. congruence.
        - injection E1 as <- _. congruence.
        - eapply R; [exact V|exact E1].
        - eapply R; [exact V|exact E1]. }
      intros [H|(t & H & _)]; exfalso; exact (NL _ H). }
    apply is_empty_false in Em.
    destruct (scan_inv _ _ _ TT Sc Em) as (t & V & -> & Et).
    destruct (same (render t)) eqn:Sm.
    { exists true. split; [reflexivity|]. rewrite <- HT. split; [intros _|reflexivity]. right. exists t.
      split; [rewrite Et; apply L_here; exact V|exact Sm]. }
    pose proof (scan_length _ _ _ Sc Em) as SL. simpl in SL.
    destruct (IH r ltac:(lia)) as (b & Eb & Hb). exists b. split; [exact Eb|]. rewrite Hb, <- HT, Et.
    unfold hit. split; (intros [H|(e & L & X)]; [left|right]).
    + apply L_after; assumption.
    + exists e. split; [apply L_after; assumption|exact X].
    + apply (listed_render t r Star V) in H. destruct H as [H|H]; [discriminate|exact H].
    + apply (listed_render t r (Tag e) V) in L. destruct L as [L|L]; [injection L as ->; congruence|].
      exists e. split; [exact L|exact X].
Qed.

Lemma beq_true x y : beq x y = true <-> x = y.
Proof. apply beq_eq. Qed.
Lemma strong_iff e v : etag_strong (render e) v = true <-> strong_eq e v.
Proof.
  unfold etag_strong, strong_eq. rewrite !andb_true_iff, beq_true. destruct e as [[|] o]; cbn.
  - split; [intros [_ H]; discriminate|intros [H _]; discriminate].
  - split; [intros [[<- _] _]; split; reflexivity|intros [_ ->]; repeat split].
Qed.
Lemma weak_iff e v : etag_weak (render e) v = true <-> weak_eq e v.
Proof.
  unfold etag_weak, weak_eq. rewrite beq_true.
  assert (E : trim_prefix (render e) (B"W/") = quoted (e_opaque e)) by (destruct e as [[|] o]; reflexivity).
  rewrite E. unfold trim_prefix. destruct (strip_prefix (B"W/") v) as [t|] eqn:P.
  - apply strip_prefix_app in P. subst v. split.
    + intros <-. right. reflexivity.
    + intros [H|H]; [discriminate H|]. apply app_inv_head in H. congruence.
  - split; [intros <-; left; reflexivity|]. intros [H|H]; [congruence|]. subst v. discriminate P.
Qed.
