(** C115: the challenge a refused request is answered with. *)
From Verif Require Import Base GoStrings M_Pipeline M_Auth M_Challenge S_Challenge.

(** * C115 The challenge shows the configured message *)
(** the message and charset of an authentication object after some calls of its setters *)
Definition configured (os : list auth_op) : bytes * bytes :=
  fold_left (fun mc o => match o with SetMessage m c => (m, c) | _ => mc end) os
            (B"Access to the staging site", B"UTF-8").
(** The claim: every challenge sent is read as the message and the charset last set. *)
Definition C115_claim : Prop := forall uni s os rq ev r v,
  sv_auth s = Some (auth_run os) -> serve_http uni s rq = (ev, r) -> In v (challenges ev) ->
  client_challenge v = Some (configured os).

Definition challenge_text (m c : bytes) : bytes := B"Basic realm=""" ++ m ++ B""", charset=""" ++ c ++ B"""".
Lemma header_is os : a_header (auth_run os) = challenge_text (fst (configured os)) (snd (configured os)).
Proof.
  unfold auth_run, configured.
  assert (G : forall os h mc, a_header h = challenge_text (fst mc) (snd mc) ->
    a_header (fold_left auth_step os h) =
    challenge_text (fst (fold_left (fun mc o => match o with SetMessage m c => (m, c) | _ => mc end) os mc))
                   (snd (fold_left (fun mc o => match o with SetMessage m c => (m, c) | _ => mc end) os mc))).
  { induction os0 as [|o os0 IH]; intros h mc H; [exact H|]. cbn [fold_left]. apply IH.
    destruct o; cbn [auth_step a_header]; try exact H. reflexivity. }
  apply G. reflexivity.
Qed.
Lemma challenges_are uni s os rq ev r : sv_auth s = Some (auth_run os) -> serve_http uni s rq = (ev, r) ->
  challenges ev = [] \/ challenges ev = [header_value (challenge_text (fst (configured os)) (snd (configured os)))].
Proof.
  intros A H. unfold serve_http in H. rewrite A in H.
  assert (P : forall ev0, challenges (ev0 ++ fst (run_request s rq)) = challenges ev0).
  { intros ev0. unfold challenges. rewrite flat_map_app. cbn. apply app_nil_r. }
  assert (P0 : challenges (fst (run_request s rq)) = []) by (apply (P [])).
  destruct (if a_use (auth_run os) then match a_access (auth_run os) with None => Panic | Some f => f rq end else Ok false)
    as [[|]|].
  - unfold check in H. destruct (negb (a_use (auth_run os))).
    { destruct (run_request s rq) as [ev2 r2] eqn:E. injection H as <- <-. left. exact P0. }
    destruct (get_user_password uni (rq_auth rq)) as [u p].
    destruct (a_use_log (auth_run os) && a_log_nil (auth_run os)).
    { injection H as <- <-. left. reflexivity. }
    match type of H with context [if ?b then (_, Ok true) else _] => destruct b end.
    + destruct (run_request s rq) as [ev2 r2] eqn:E. injection H as <- <-. left.
      change ev2 with (fst (ev2, r2)). rewrite (P _). destruct (a_use_log (auth_run os)); reflexivity.
    + injection H as <- <-. right. rewrite header_is. destruct (a_use_log (auth_run os)); reflexivity.
  - left. replace ev with (fst (run_request s rq)) by (rewrite H; reflexivity). exact P0.
  - injection H as <- <-. left. reflexivity.
Qed.
(** ** reading it *)
Lemma after_app p s : after p (p ++ s) = Some s.
Proof. induction p as [|a p IH]; [reflexivity|]. cbn [after app]. rewrite Ascii.eqb_refl. exact IH. Qed.
Lemma after_inv p : forall s r, after p s = Some r -> s = p ++ r.
Proof.
  induction p as [|a p IH]; intros s r H; cbn [after] in H; [injection H as <-; reflexivity|].
  destruct s as [|b s]; [discriminate|]. destruct (Ascii.eqb_spec a b) as [->|]; [|discriminate].
  cbn [app]. f_equal. apply IH, H.
Qed.
Lemma quoted_quotable t r : (forall c, In c t -> c <> """"%char /\ c <> ch 92) -> quoted_text (t ++ """"%char :: r) = Some (t, r).
Proof.
  induction t as [|c t IH]; intros H; [reflexivity|]. cbn [app quoted_text].
  destruct (H c (or_introl eq_refl)) as [H1 H2].
  destruct (Ascii.eqb_spec c """"); [contradiction|]. destruct (Ascii.eqb_spec c (ch 92)); [contradiction|].
  rewrite IH; [reflexivity|]. intros d I. apply H. right. exact I.
Qed.
(** a text with backslashes in front never reads as itself *)
Lemma quoted_never w : forall k rest r, quoted_text (w ++ """"%char :: rest) <> Some (repeat (ch 92) (S k) ++ w, r).
Proof.
  remember (length w) as n eqn:En. assert (Ln : length w <= n) by lia. clear En. revert w Ln.
  induction n as [|n IH]; intros w Ln k rest r H.
  - destruct w; [|cbn in Ln; lia]. cbn in H. discriminate H.
  - destruct w as [|c w]; [cbn in H; discriminate H|]. cbn [app quoted_text] in H.
    destruct (Ascii.eqb_spec c """") as [->|N1]; [discriminate H|].
    destruct (Ascii.eqb_spec c (ch 92)) as [->|N2].
    + destruct w as [|d w].
      * cbn [app] in H. destruct (quoted_text rest) as [[t r']|]; discriminate H.
      * cbn [app] in H. destruct (quoted_text (w ++ """"%char :: rest)) as [[t r']|] eqn:E; [|discriminate H].
        cbn [repeat app] in H. inversion H as [[E1 E2 E3]]. subst d r'.
        apply (IH w ltac:(cbn in Ln; lia) (S k) rest r). rewrite E. f_equal. f_equal. rewrite E2.
        clear. cbn [repeat app]. f_equal. induction k as [|k IHk]; [reflexivity|]. cbn [repeat app]. f_equal. exact IHk.
    + destruct (quoted_text (w ++ """"%char :: rest)) as [[t r']|]; [|discriminate H].
      cbn [repeat app] in H. inversion H. congruence.
Qed.
Lemma quoted_itself t rest r : quoted_text (t ++ """"%char :: rest) = Some (t, r) -> forall c, In c t -> c <> """"%char /\ c <> ch 92.
Proof.
  induction t as [|a t IH]; intros H; [intros c []|]. cbn [app quoted_text] in H.
  destruct (Ascii.eqb_spec a """") as [->|N1]; [discriminate H|].
  destruct (Ascii.eqb_spec a (ch 92)) as [->|N2].
  - exfalso. destruct t as [|d w].
    + cbn [app] in H. destruct (quoted_text rest) as [[t r']|]; discriminate H.
    + cbn [app] in H. destruct (quoted_text (w ++ """"%char :: rest)) as [[t r']|] eqn:E; [|discriminate H].
      inversion H. subst. exact (quoted_never w 0 rest r E).
  - destruct (quoted_text (t ++ """"%char :: rest)) as [[t' r']|] eqn:E; [|discriminate H]. inversion H. subst.
    intros c [<-|I]; [split; assumption|]. exact (IH eq_refl c I).
Qed.
Lemma header_value_id v : (forall c, In c v -> c <> ch 13 /\ c <> ch 10) -> header_value v = v.
Proof.
  intros H. unfold header_value. rewrite <- (map_id v) at 2. apply map_ext_in. intros c I.
  destruct (H c I) as [H1 H2]. unfold bv.
  destruct (N.eqb_spec (N_of_ascii c) 13) as [E|_].
  { contradiction H1. rewrite <- (ascii_N_embedding c), E. reflexivity. }
  destruct (N.eqb_spec (N_of_ascii c) 10) as [E|_]; [|reflexivity].
  contradiction H2. rewrite <- (ascii_N_embedding c), E. reflexivity.
Qed.
Lemma header_value_no v c : In c (header_value v) -> c <> ch 13 /\ c <> ch 10.
Proof.
  unfold header_value. rewrite in_map_iff. intros (x & E & _). destruct ((bv x =? 13)%N || (bv x =? 10)%N) eqn:X.
  - subst c. split; discriminate.
  - subst c. rewrite orb_false_iff in X. destruct X as [X1 X2]. apply N.eqb_neq in X1, X2.
    split; intros ->; [apply X1|apply X2]; reflexivity.
Qed.
Lemma quoted_sub s : forall t r, quoted_text s = Some (t, r) -> (forall c, In c t -> In c s) /\ (forall c, In c r -> In c s).
Proof.
  remember (length s) as n eqn:En. assert (Ln : length s <= n) by lia. clear En. revert s Ln.
  induction n as [|n IH]; intros s Ln t r H; (destruct s as [|c s]; [discriminate H|]); [cbn in Ln; lia|].
  cbn [length] in Ln. cbn [quoted_text] in H. destruct (Ascii.eqb c """").
  { injection H as <- <-. split; [intros x []|intros x I; right; exact I]. }
  destruct (Ascii.eqb c (ch 92)).
  - destruct s as [|d s]; [discriminate H|]. destruct (quoted_text s) as [[t' r']|] eqn:E; [|discriminate H].
    injection H as <- <-. cbn [length] in Ln. destruct (IH s ltac:(lia) t' r' E) as [It Ir]. split.
    + intros x [<-|I]; [right; left; reflexivity|right; right; exact (It x I)].
    + intros x I. right. right. exact (Ir x I).
  - destruct (quoted_text s) as [[t' r']|] eqn:E; [|discriminate H].
    injection H as <- <-. destruct (IH s ltac:(lia) t' r' E) as [It Ir]. split.
    + intros x [<-|I]; [left; reflexivity|right; exact (It x I)].
    + intros x I. right. exact (Ir x I).
Qed.
Lemma header_value_app a b : header_value (a ++ b) = header_value a ++ header_value b.
Proof. apply map_app. Qed.
Lemma reads_iff m c : client_challenge (header_value (challenge_text m c)) = Some (m, c) <-> quotable m /\ quotable c.
Proof.
  unfold challenge_text. rewrite !header_value_app.
  change (header_value (B"Basic realm=""")) with (B"Basic realm=""").
  change (header_value (B""", charset=""")) with ("""" %char :: B", charset=""").
  change (header_value (B"""")) with (B"""").
  unfold client_challenge. rewrite after_app.
  change ((""""%char :: B", charset=""") ++ header_value c ++ B"""") with (""""%char :: (B", charset=""" ++ header_value c ++ B"""")).
  split.
  - intros H.
    destruct (quoted_text (header_value m ++ """"%char :: (B", charset=""" ++ header_value c ++ B""""))) as [[realm s1]|] eqn:E1; [|discriminate H].
    destruct (after (B", charset=""") s1) as [s2|] eqn:E2; [|discriminate H].
    destruct (quoted_text s2) as [[charset [|x r]]|] eqn:E3; try discriminate H. injection H as -> ->.
    assert (Nm : forall x, In x m -> x <> ch 13 /\ x <> ch 10).
    { intros x I. apply (quoted_sub _ _ _ E1) in I. apply in_app_or in I as [I|[<-|I]].
      - exact (header_value_no m x I).
      - split; discriminate.
      - apply in_app_or in I as [I|I].
        + cbn in I. repeat destruct I as [<-|I]; try (split; discriminate). destruct I.
        + apply in_app_or in I as [I|[<-|[]]]; [exact (header_value_no c x I)|split; discriminate]. }
    rewrite (header_value_id m Nm) in E1.
    pose proof (quoted_itself m _ _ E1) as Qm.
    rewrite (quoted_quotable m _ Qm) in E1. 
    assert (Es : s1 = B", charset=""" ++ header_value c ++ B"""") by congruence. rewrite Es, after_app in E2.
    assert (Es2 : s2 = header_value c ++ B"""") by congruence. rewrite Es2 in E3.
    assert (Nc : forall x, In x c -> x <> ch 13 /\ x <> ch 10).
    { intros x I. apply (quoted_sub _ _ _ E3) in I. apply in_app_or in I as [I|[<-|[]]]; [exact (header_value_no c x I)|split; discriminate]. }
    rewrite (header_value_id c Nc) in E3. pose proof (quoted_itself c _ _ E3) as Qc.
    split; intros x I; unfold unquotable; [destruct (Nm x I), (Qm x I)|destruct (Nc x I), (Qc x I)]; intuition.
  - intros [Qm Qc].
    assert (Hm : forall x, In x m -> (x <> """"%char /\ x <> ch 92) /\ x <> ch 13 /\ x <> ch 10).
    { intros x I. specialize (Qm x I). unfold unquotable in Qm. tauto. }
    assert (Hc : forall x, In x c -> (x <> """"%char /\ x <> ch 92) /\ x <> ch 13 /\ x <> ch 10).
    { intros x I. specialize (Qc x I). unfold unquotable in Qc. tauto. }
    rewrite (header_value_id m) by (intros x I; apply Hm, I). rewrite (header_value_id c) by (intros x I; apply Hc, I).
    rewrite quoted_quotable by (intros x I; apply Hm, I). rewrite after_app.
    change (c ++ B"""") with (c ++ """"%char :: []).
    rewrite quoted_quotable by (intros x I; apply Hc, I). reflexivity.
Qed.
(** False: a message with a quote in it. *)
Definition quoting_server : server := Server (Some (auth_run [SetMessage (B"the ""red"" door") (B"UTF-8"); SetUse true]))
  (fun _ _ => None) None 0%Z (fun l => l).
Theorem C115_challenge_refuted : ~ C115_claim.
Proof.
  intros H. specialize (H (fun x => x) quoting_server [SetMessage (B"the ""red"" door") (B"UTF-8"); SetUse true]
    (Request (B"GET") (B"/") []) _ _ (header_value (challenge_text (B"the ""red"" door") (B"UTF-8"))) eq_refl eq_refl).
  assert (I : In (header_value (challenge_text (B"the ""red"" door") (B"UTF-8"))) (challenges
    (fst (serve_http (fun x => x) quoting_server (Request (B"GET") (B"/") []))))) by (left; reflexivity).
  specialize (H I). vm_compute in H. discriminate H.
Qed.
(** ** Exactly when it is true *)
(** Missing: the texts with a quote, a backslash or a line break, which are never read back. *)
Theorem C115_challenge_partial : forall uni s os rq ev r v,
  sv_auth s = Some (auth_run os) -> serve_http uni s rq = (ev, r) -> In v (challenges ev) ->
  (client_challenge v = Some (configured os) <-> quotable (fst (configured os)) /\ quotable (snd (configured os))).
Proof.
  intros uni s os rq ev r v A H I. destruct (challenges_are uni s os rq ev r A H) as [E|E]; rewrite E in I; [destruct I|].
  destruct I as [<-|[]]. rewrite <- reads_iff. destruct (configured os). reflexivity.
Qed.
(** and a refused request carries exactly one challenge, an accepted one none *)
Theorem C115_one_challenge : forall uni s os rq ev r,
  sv_auth s = Some (auth_run os) -> serve_http uni s rq = (ev, r) ->
  length (challenges ev) = if existsb (fun e => match e with EvStatus 401 => true | _ => false end) ev then 1 else 0.
Proof.
  intros uni s os rq ev r A H. unfold serve_http in H. rewrite A in H.
  destruct (if a_use (auth_run os) then match a_access (auth_run os) with None => Panic | Some f => f rq end else Ok false)
    as [[|]|].
  - unfold check in H. destruct (negb (a_use (auth_run os))).
    { unfold run_request in H. injection H as <- <-. reflexivity. }
    destruct (get_user_password uni (rq_auth rq)) as [u p].
    destruct (a_use_log (auth_run os) && a_log_nil (auth_run os)); [injection H as <- <-; reflexivity|].
    match type of H with context [if ?b then (_, Ok true) else _] => destruct b end.
    + unfold run_request in H. injection H as <- <-. destruct (a_use_log (auth_run os)); reflexivity.
    + injection H as <- <-. destruct (a_use_log (auth_run os)); reflexivity.
  - unfold run_request in H. injection H as <- <-. reflexivity.
  - injection H as <- <-. reflexivity.
Qed.
Example C115_example : exists ev v,
  serve_http (fun x => x) (Server (Some (auth_run [SetUse true; SetMessage (B"Members only") (B"UTF-8")])) (fun _ _ => None) None 0%Z (fun l => l))
    (Request (B"GET") (B"/") []) = (ev, Ok tt) /\ challenges ev = [v] /\
  client_challenge v = Some (B"Members only", B"UTF-8") /\ quotable (B"Members only").
Proof.
  eexists. eexists. split; [reflexivity|]. split; [reflexivity|]. split; [vm_compute; reflexivity|].
  intros c I [->|[->|[->| ->]]]; cbn in I; repeat destruct I as [I|I]; try discriminate I; exact I.
Qed.
Print Assumptions C115_challenge_refuted.
Print Assumptions C115_challenge_partial.
Print Assumptions C115_one_challenge.
