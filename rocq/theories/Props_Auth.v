(** C33-C37: basic authentication. *)
From Verif Require Import Base GoStrings M_Pipeline M_Auth S_Auth P_Auth.

(** * C33 With basic auth on, no handler runs for an unauthorised request *)
(** For every server, request and log configuration: if authentication is on, the
    access function selects the request and the request is not admitted, then the
    only things that happen are the (optional) log call, status 401 and the
    WWW-Authenticate header: no route lookup, no initialiser, no handler. *)
Theorem C33_refused : forall uni s h rq f,
  sv_auth s = Some h -> a_use h = true -> a_access h = Some f -> f rq = Ok true ->
  log_ok h -> ~ admitted uni h rq ->
  exists lg, serve_http uni s rq =
    (lg ++ [EvStatus 401; EvHeader (B"WWW-Authenticate") (a_header h)], Ok tt) /\
    (lg = [] \/ exists u p, lg = [EvLog u p false]).
Proof.
  intros uni s h rq f Ha U Hf Hr L N. unfold serve_http. rewrite Ha, U, Hf, Hr.
  unfold admitted in N. rewrite (check_eq uni h rq U L) in N.
  unfold check. rewrite U. cbn [negb].
  destruct (get_user_password uni (rq_auth rq)) as [u p].
  destruct (negb (is_empty u) && _) eqn:E; [exfalso; apply N; reflexivity|].
  assert (El : a_use_log h && a_log_nil h = false).
  { unfold log_ok in L. destruct (a_use_log h); [rewrite L by reflexivity|]; reflexivity. }
  rewrite El. destruct (a_use_log h).
  - exists [EvLog u p false]. split; [reflexivity|eauto].
  - exists []. auto.
Qed.
(** An admitted request is served exactly as without authentication, after the
    optional log call. *)
Theorem C33_admitted : forall uni s h rq f,
  sv_auth s = Some h -> a_use h = true -> a_access h = Some f -> f rq = Ok true ->
  admitted uni h rq ->
  exists lg, serve_http uni s rq = (lg ++ fst (run_request s rq), snd (run_request s rq)) /\
    (lg = [] \/ exists u p, lg = [EvLog u p true]).
Proof.
  intros uni s h rq f Ha U Hf Hr A. pose proof (check_admit_log uni h rq U A) as L.
  unfold serve_http. rewrite Ha, U, Hf, Hr. pose proof A as A'. unfold admitted in A.
  rewrite (check_eq uni h rq U L) in A.
  unfold check. rewrite U. cbn [negb].
  destruct (get_user_password uni (rq_auth rq)) as [u p].
  destruct (negb (is_empty u) && _) eqn:E; [|discriminate].
  assert (El : a_use_log h && a_log_nil h = false).
  { unfold log_ok in L. destruct (a_use_log h); [rewrite L by reflexivity|]; reflexivity. }
  rewrite El. destruct (run_request s rq) as [ev r]. destruct (a_use_log h).
  - exists [EvLog u p true]. split; [reflexivity|eauto].
  - exists []. auto.
Qed.
(** When authentication is off, or does not select the request, it does not
    interfere at all. *)
Theorem C33_not_selected : forall uni s h rq,
  sv_auth s = Some h ->
  a_use h = false \/ (exists f, a_access h = Some f /\ f rq = Ok false) ->
  serve_http uni s rq = run_request s rq.
Proof.
  intros uni s h rq Ha [U|(f & Hf & Hr)]; unfold serve_http; rewrite Ha.
  - rewrite U. reflexivity.
  - rewrite Hf, Hr. destruct (a_use h); reflexivity.
Qed.
(** The header sent is the one configured: the default, or that of the last
    SetMessage; and the other settings are those last made. *)
Definition last_message (os : list auth_op) : bytes * bytes :=
  fold_left (fun mc o => match o with SetMessage m c => (m, c) | _ => mc end) os
            (B"Access to the staging site", B"UTF-8").
Definition last_use (os : list auth_op) : bool :=
  fold_left (fun u o => match o with SetUse b => b | _ => u end) os false.
Definition last_roles (os : list auth_op) : list (bytes * bytes) :=
  fold_left (fun r o => match o with SetRoles x => x | _ => r end) os [].
Theorem C33_configured : forall os,
  let '(m, c) := last_message os in
  a_header (auth_run os) = B"Basic realm=""" ++ m ++ B""", charset=""" ++ c ++ B"""" /\
  a_use (auth_run os) = last_use os /\ a_roles (auth_run os) = last_roles os.
Proof.
  intros os. induction os as [|o os IH] using rev_ind; [vm_compute; auto|].
  unfold last_message, last_use, last_roles, auth_run in *. rewrite !fold_left_app. cbn [fold_left].
  destruct (fold_left _ os _) as [m c] eqn:E. destruct IH as (I1 & I2 & I3).
  destruct o; cbn; try (rewrite I1); try (rewrite I2); try (rewrite I3); auto.
Qed.
Example C33_example :
  let h := auth_run [SetRoles [(B"bob", B"secret")]; SetUse true] in
  let rq := Request (B"GET") (B"/") (B"Basic eDp5") in
  let s := Server (Some h) (fun _ _ => None) None 5 (fun l => l) in
  sv_auth s = Some h /\ a_use h = true /\ log_ok h /\ ~ admitted (fun x => x) h rq /\
  serve_http (fun x => x) s rq =
    ([EvStatus 401; EvHeader (B"WWW-Authenticate") (B"Basic realm=""Access to the staging site"", charset=""UTF-8""")], Ok tt) /\
  (* the right password: base64 of "bob:secret" *)
  admitted (fun x => x) h (Request (B"GET") (B"/") (B"Basic Ym9iOnNlY3JldA==")).
Proof.
  cbn zeta. split; [reflexivity|]. split; [reflexivity|]. split; [intros H; discriminate|].
  split; [intros H; vm_compute in H; discriminate|]. split; vm_compute; reflexivity.
Qed.
Print Assumptions C33_refused.
Print Assumptions C33_admitted.
Print Assumptions C33_not_selected.
Print Assumptions C33_configured.

(** * C34 Only listed users with their password are admitted *)
Definition C34_claim : Prop := forall uni h rq,
  a_use h = true -> admitted uni h rq ->
  exists user pw, carries (rq_auth rq) user pw /\ aget (to_lower uni user) (a_roles h) = Some pw.
(** False: an unknown user with an empty password is admitted. *)
Theorem C34_unknown_user_admitted : forall uni h method path user,
  a_use h = true -> log_ok h -> ~ In ":"%char user -> to_lower uni user <> [] ->
  aget (to_lower uni user) (a_roles h) = None ->
  admitted uni h (Request method path (B"Basic " ++ b64_encode (user ++ B":"))).
Proof.
  intros uni h method path user U L Hn He Ha. unfold admitted. rewrite check_eq by assumption.
  cbn [rq_auth].
  rewrite (get_carries uni _ user []).
  - rewrite Ha. apply is_empty_false in He. rewrite He. reflexivity.
  - split; [|exact Hn]. exists (B"Basic"), (b64_encode (user ++ B":")). split; [reflexivity|].
    split; [left; reflexivity|apply b64_decode_iff, b64_roundtrip].
Qed.
Theorem C34_only_listed_users_refuted : ~ C34_claim.
Proof.
  intros H.
  pose (h := auth_run [SetRoles [(B"bob", B"secret")]; SetUse true]).
  destruct (H (fun x => x) h (Request [] [] (B"Basic " ++ b64_encode (B"eve:"))) eq_refl) as (u & p & C & A).
  - apply (C34_unknown_user_admitted (fun x => x) h [] [] (B"eve")); try reflexivity; try discriminate.
    vm_compute. intuition discriminate.
  - pose proof (get_carries (fun x => x) _ u p C) as G. vm_compute in G.
    change (to_lower (fun x => x) u) with (if forallb is_ascii u then map lower_ascii u else u) in A.
    assert (E : (if forallb is_ascii u then map lower_ascii u else u) = B"eve").
    { clear - G. injection G as G _. unfold B. cbn. symmetry. exact G. }
    rewrite E in A. vm_compute in A. discriminate.
Qed.
(** What does hold: with a table that maps no missing user, i.e. for requests whose
    user is listed, the password's part before any further colon equals the user's
    password.  Missing: users that are not listed (see above), colons (C37). *)
Theorem C34_only_listed_users_partial : forall uni h rq user pw,
  a_use h = true -> admitted uni h rq -> carries (rq_auth rq) user pw ->
  aget (to_lower uni user) (a_roles h) <> None -> ~ In ":"%char pw ->
  aget (to_lower uni user) (a_roles h) = Some pw.
Proof.
  intros uni h rq user pw U A C Hl Hc. pose proof (check_admit_log uni h rq U A) as L.
  unfold admitted in A. rewrite check_eq, (get_carries uni _ user pw C), (upto_colon_id pw Hc) in A by assumption.
  injection A as A. apply andb_true_iff in A as [_ A].
  destruct (aget (to_lower uni user) (a_roles h)) as [p|]; [|congruence]. apply beq_eq in A. congruence.
Qed.
Print Assumptions C34_only_listed_users_partial.

(** * C35 Any admitted request with a non-empty password names a listed user *)
(** Exact characterisation of the admitted requests. *)
Theorem C35_admitted_iff : forall uni h rq,
  a_use h = true -> log_ok h ->
  (admitted uni h rq <->
   exists user pw, carries (rq_auth rq) user pw /\ to_lower uni user <> [] /\
     (aget (to_lower uni user) (a_roles h) = Some (upto_colon pw) \/
      (aget (to_lower uni user) (a_roles h) = None /\ upto_colon pw = []))).
Proof.
  intros uni h rq U L. unfold admitted. rewrite check_eq by assumption. split.
  - intros A. destruct (get_user_password uni (rq_auth rq)) as [u p] eqn:G. injection A as A.
    apply andb_true_iff in A as [A1 A2]. apply negb_true_iff, is_empty_false in A1. apply beq_eq in A2.
    destruct (get_inv uni _ u p G A1) as (user & pw & C & -> & ->). exists user, pw.
    split; [exact C|]. split; [exact A1|].
    destruct (aget (to_lower uni user) (a_roles h)); [left; congruence|right; auto].
  - intros (user & pw & C & N & H). rewrite (get_carries uni _ user pw C).
    apply is_empty_false in N. rewrite N. cbn [negb andb].
    destruct H as [->|[-> ->]]; [rewrite beq_refl|]; reflexivity.
Qed.
Theorem C35_nonempty_password_listed : forall uni h rq,
  a_use h = true -> admitted uni h rq ->
  exists user pw, carries (rq_auth rq) user pw /\
    (upto_colon pw <> [] -> In (to_lower uni user, upto_colon pw) (a_roles h) /\
                            aget (to_lower uni user) (a_roles h) = Some (upto_colon pw)).
Proof.
  intros uni h rq U A. pose proof (check_admit_log uni h rq U A) as L.
  apply (C35_admitted_iff uni h rq U L) in A as (user & pw & C & _ & H). exists user, pw.
  split; [exact C|]. intros N. destruct H as [H|[_ H]]; [|congruence]. split; [apply aget_In|]; exact H.
Qed.
(** The user and password a header carries are determined by the header. *)
Theorem C35_carries_unique : forall auth u p u' p', carries auth u p -> carries auth u' p' -> u = u' /\ p = p'.
Proof.
  intros auth u p u' p' [(s & t & E & Hs & Hd) N] [(s' & t' & E' & Hs' & Hd') N'].
  apply equal_fold_spec, equal_fold_no_space in Hs, Hs'.
  assert (X : s = s' /\ t = t').
  { subst auth. clear - Hs Hs' E'. revert s' Hs' E'. induction s as [|x s IH]; intros [|x' s'] H' E; simpl in *.
    - injection E; auto.
    - injection E as Eq _. exfalso; subst; intuition auto.
    - injection E as Eq _. exfalso; subst; intuition auto.
    - injection E as -> E. destruct (IH ltac:(tauto) s' ltac:(tauto) E) as [-> ->]. auto. }
  destruct X as [-> ->]. apply b64_decode_iff in Hd, Hd'. rewrite Hd in Hd'. injection Hd' as X. clear - X N N'.
  revert u' N' X. induction u as [|x u IH]; intros [|x' u'] N' X; simpl in *.
  - injection X; auto.
  - injection X as Eq _. exfalso; subst; intuition auto.
  - injection X as Eq _. exfalso; subst; intuition auto.
  - injection X as -> X. destruct (IH ltac:(tauto) u' ltac:(tauto) X) as [-> ->]. auto.
Qed.
Example C35_example :
  let h := auth_run [SetRoles [(B"bob", B"secret")]; SetUse true] in
  let rq := Request [] [] (B"bAsIc Qm9COnNlY3JldDp4") in   (* "BoB:secret:x" *)
  a_use h = true /\ admitted (fun x => x) h rq /\ carries (rq_auth rq) (B"BoB") (B"secret:x").
Proof.
  cbn zeta. split; [reflexivity|]. split; [vm_compute; reflexivity|]. split; [|vm_compute; intuition discriminate].
  exists (B"bAsIc"), (B"Qm9COnNlY3JldDp4"). split; [reflexivity|]. split; [left; reflexivity|apply b64_decode_iff; vm_compute; reflexivity].
Qed.
Print Assumptions C35_admitted_iff.
Print Assumptions C35_nonempty_password_listed.
Print Assumptions C35_carries_unique.

(** * C36 Correct credentials are admitted *)
Theorem C36_correct_credentials : forall uni h method path scheme user pw,
  a_use h = true -> log_ok h ->
  aget user (a_roles h) = Some pw ->
  user <> [] -> ~ In ":"%char user -> to_lower uni user = user -> ~ In ":"%char pw ->
  basic_any_case scheme ->
  admitted uni h (Request method path (scheme ++ B" " ++ b64_encode (user ++ B":" ++ pw))).
Proof.
  intros uni h method path scheme user pw U L Hr He Hu Hl Hp Hs.
  apply C35_admitted_iff; [exact U|exact L|]. exists user, pw. rewrite Hl. split; [|split].
  - split; [|exact Hu]. exists scheme, (b64_encode (user ++ B":" ++ pw)). split; [reflexivity|].
    split; [left; exact Hs|apply b64_decode_iff, b64_roundtrip].
  - exact He.
  - left. rewrite upto_colon_id by exact Hp. exact Hr.
Qed.
Example C36_example :
  let h := auth_run [SetRoles [(B"bob", B"se cret=")]; SetUse true] in
  aget (B"bob") (a_roles h) = Some (B"se cret=") /\ to_lower (fun x => x) (B"bob") = B"bob" /\
  basic_any_case (B"bASIC") /\
  B"bASIC" ++ B" " ++ b64_encode (B"bob" ++ B":" ++ B"se cret=") = B"bASIC Ym9iOnNlIGNyZXQ9".
Proof. vm_compute. auto. Qed.
Print Assumptions C36_correct_credentials.

(** * C37 Passwords containing ':' are compared whole *)
Definition C37_claim : Prop := forall uni h rq user pw,
  a_use h = true -> log_ok h -> carries (rq_auth rq) user pw -> to_lower uni user <> [] ->
  (admitted uni h rq <-> aget (to_lower uni user) (a_roles h) = Some pw).
(** False in both directions: only the part before the second colon is compared. *)
Theorem C37_colon_password_refuted : ~ C37_claim.
Proof.
  intros H.
  pose (h := auth_run [SetRoles [(B"bob", B"a:b")]; SetUse true]).
  pose (rq := Request [] [] (B"Basic Ym9iOmE6Yg==")).        (* "bob:a:b" *)
  assert (C : carries (rq_auth rq) (B"bob") (B"a:b")).
  { split; [|vm_compute; intuition discriminate]. exists (B"Basic"), (B"Ym9iOmE6Yg==").
    split; [reflexivity|]. split; [left; reflexivity|apply b64_decode_iff; vm_compute; reflexivity]. }
  destruct (H (fun x => x) h rq (B"bob") (B"a:b") eq_refl ltac:(intros X; discriminate) C) as [_ X]; [discriminate|].
  specialize (X eq_refl). vm_compute in X. discriminate.
Qed.
Theorem C37_other_direction : exists uni h rq user pw,
  a_use h = true /\ log_ok h /\ carries (rq_auth rq) user pw /\ admitted uni h rq /\
  aget (to_lower uni user) (a_roles h) <> Some pw /\ pw = B"a:b" /\ a_roles h = [(B"bob", B"a")].
Proof.
  exists (fun x => x), (auth_run [SetRoles [(B"bob", B"a")]; SetUse true]), (Request [] [] (B"Basic Ym9iOmE6Yg==")), (B"bob"), (B"a:b").
  split; [reflexivity|]. split; [intros X; discriminate|]. split.
  - split; [|vm_compute; intuition discriminate]. exists (B"Basic"), (B"Ym9iOmE6Yg==").
    split; [reflexivity|]. split; [left; reflexivity|apply b64_decode_iff; vm_compute; reflexivity].
  - split; [vm_compute; reflexivity|]. split; [vm_compute; discriminate|]. auto.
Qed.
(** What does hold: for listed users and passwords without a colon, admission is
    equality with the table; and no entry whose password has a colon is ever
    usable.  Missing: headers whose password has a colon. *)
Theorem C37_colon_password_partial : forall uni h rq user pw,
  a_use h = true -> log_ok h -> carries (rq_auth rq) user pw -> to_lower uni user <> [] ->
  aget (to_lower uni user) (a_roles h) <> None -> ~ In ":"%char pw ->
  (admitted uni h rq <-> aget (to_lower uni user) (a_roles h) = Some pw).
Proof.
  intros uni h rq user pw U L C N Hl Hp. split.
  - intros A. exact (C34_only_listed_users_partial uni h rq user pw U A C Hl Hp).
  - intros E. apply C35_admitted_iff; [exact U|exact L|]. exists user, pw. rewrite upto_colon_id by exact Hp. auto.
Qed.
Theorem C37_colon_entry_unusable_partial : forall uni h rq user pw p,
  a_use h = true -> carries (rq_auth rq) user pw ->
  aget (to_lower uni user) (a_roles h) = Some p -> In ":"%char p -> ~ admitted uni h rq.
Proof.
  intros uni h rq user pw p U C Hr Hp A. pose proof (check_admit_log uni h rq U A) as L.
  apply (C35_admitted_iff uni h rq U L) in A as (u' & p' & C' & _ & H).
  destruct (C35_carries_unique _ _ _ _ _ C C') as [<- <-]. destruct H as [H|[H _]]; [|congruence].
  rewrite Hr in H. injection H as ->. exact (upto_colon_no pw Hp).
Qed.
Print Assumptions C37_colon_password_partial.
Print Assumptions C37_colon_entry_unusable_partial.
