(** C168: files without a modification time. *)
From Verif Require Import Base GoStrings GoPath GoInt GoTime M_Cond M_Content M_Static M_Mount S_Range S_Cond S_Date P_Date P_Date2 Props_Cond Props_Content S_Answer Props_Answer Props_Date Props_MountAnswer.
From Coq Require Import ZifyNat ZifyN ZifyBool.
Ltac Zify.zify_post_hook ::= Z.to_euclidean_division_equations.
Local Open Scope Z_scope.

(** two requests that differ in nothing but their date conditions *)
Definition same_but_dates (q q' : sreq) : Prop :=
  q_method q = q_method q' /\ q_uri q = q_uri q' /\
  forall k, k <> B"If-Modified-Since" -> k <> B"If-Unmodified-Since" -> hdr q k = hdr q' k.
(** a file system all of whose files are without a modification time, such as an embed.FS *)
Definition undated (fsys : iofs) : Prop :=
  forall name f info, io_open fsys name = inl f -> g_stat f = inl info -> ~ known (fi_mod info).
(** [h] is the handler of a mount of [fsys] *)
Definition mount_of (h : handler) (fsys : iofs) : Prop :=
  match h with HFile x _ | HEmbed x _ _ | HFix x _ => x = fsys | HUser _ => False end.

Section Env.
  Variable time_parse : bytes -> bytes -> option gtime.
  Variable fmt_time : gtime -> bytes.
  Variable mime_type : bytes -> bytes.
  Variables b1 b2 : bytes.
  Variable url_string : bytes -> bytes.

  Lemma unknown_zero m : ~ known m -> is_zero_time m = true.
  Proof. unfold known, is_zero_time, year1, zero_time. lia. Qed.
  Lemma peek_same q q' k : same_but_dates q q' -> k <> B"If-Modified-Since" -> k <> B"If-Unmodified-Since" -> hpeek (q_hdr q) k = hpeek (q_hdr q') k.
  Proof. intros (_ & _ & H). apply H. Qed.
  Lemma method_same q q' : same_but_dates q q' -> q_method q = q_method q'.
  Proof. intros (H & _). exact H. Qed.
  Lemma uri_same q q' : same_but_dates q q' -> q_uri q = q_uri q'.
  Proof. intros (_ & H & _). exact H. Qed.
  Lemma unmod_none q m : ~ known m -> check_if_unmodified_since time_parse q m = CNone.
  Proof. intros K. unfold check_if_unmodified_since. cbv zeta. rewrite (unknown_zero m K), orb_true_r. reflexivity. Qed.
  Lemma mod_none q m : ~ known m -> check_if_modified_since time_parse q m = CNone.
  Proof. intros K. unfold check_if_modified_since. cbv zeta. rewrite (unknown_zero m K), orb_true_r. destruct (negb _); reflexivity. Qed.
  Ltac peek H k := rewrite (peek_same _ _ k H) by discriminate.
  Lemma pre_same q q' p m : same_but_dates q q' -> ~ known m -> check_preconditions time_parse q p m = check_preconditions time_parse q' p m.
  Proof.
    intros H K. unfold check_preconditions, check_if_match, check_if_none_match, check_if_range, get_or_head. cbv zeta.
    rewrite !(unmod_none _ m K), !(mod_none _ m K). peek H (B"If-Match"). peek H (B"If-None-Match"). peek H (B"If-Range"). peek H (B"Range").
    rewrite (method_same q q' H). reflexivity.
  Qed.
  Lemma content_same q q' p name m size c : same_but_dates q q' -> ~ known m ->
    serve_content time_parse fmt_time mime_type b1 b2 q p name m size c = serve_content time_parse fmt_time mime_type b1 b2 q' p name m size c.
  Proof.
    intros H K. unfold serve_content. cbv zeta. rewrite (pre_same q q' _ m H K). peek H (B"Content-Type").
    unfold M_Content.finish. rewrite (method_same q q' H). reflexivity.
  Qed.
  Lemma redirect_same q q' p t : same_but_dates q q' -> local_redirect q p t = local_redirect q' p t.
  Proof. intros H. unfold local_redirect. rewrite (uri_same q q' H). reflexivity. Qed.
  Lemma file_same q q' path p open name sd rd : same_but_dates q q' ->
    (forall name f info, fst (open name) = inl f -> g_stat f = inl info -> ~ known (fi_mod info)) ->
    serve_file time_parse fmt_time mime_type b1 b2 url_string q path p open name sd rd =
    serve_file time_parse fmt_time mime_type b1 b2 url_string q' path p open name sd rd.
  Proof.
    intros H U. unfold serve_file. rewrite (redirect_same q q' _ _ H). destruct (has_suffix path (B"/index.html")); [reflexivity|].
    destruct (open name) as [r calls] eqn:O1. destruct r as [f|e]; [|reflexivity].
    destruct (g_stat f) as [info|e] eqn:S1; [|reflexivity].
    assert (K1 : ~ known (fi_mod info)) by (apply (U name f info); [rewrite O1; reflexivity|exact S1]).
    destruct (negb sd && fi_dir info); [reflexivity|].
    match goal with |- match ?x with _ => _ end = _ => destruct x as [[t|]|] end; [rewrite (redirect_same q q' _ _ H); reflexivity| |reflexivity].
    cbv zeta. rewrite (redirect_same q q' _ _ H). rewrite (content_same q q' _ _ _ _ _ H K1). rewrite !(mod_none _ _ K1).
    destruct (fi_dir info); [|reflexivity].
    match goal with |- (if ?x then _ else _) = _ => destruct x end; [reflexivity|].
    destruct (open (trim_suffix name (B"/") ++ B"/index.html")) as [r2 calls2] eqn:O2. destruct r2 as [ff|e2]; [|reflexivity].
    destruct (g_stat ff) as [dd|e2] eqn:S2; [|reflexivity].
    assert (K2 : ~ known (fi_mod dd)) by (apply (U _ ff dd (f_equal fst O2)); exact S2).
    rewrite (content_same q q' _ _ _ _ _ H K2). rewrite !(mod_none _ _ K2). reflexivity.
  Qed.
  Lemma iofs_undated fsys : undated fsys -> forall name f info, fst (iofs_open fsys name) = inl f -> g_stat f = inl info -> ~ known (fi_mod info).
  Proof.
    intros U name f info O. unfold iofs_open in O. cbv zeta in O.
    destruct (io_open fsys _) as [g|e] eqn:E.
    - cbn [fst] in O. injection O as <-. exact (U _ _ _ E).
    - destruct (map_open_error _ _ _). discriminate O.
  Qed.
  Lemma http_same q q' path p fsys : same_but_dates q q' -> undated fsys ->
    serve_http time_parse fmt_time mime_type b1 b2 url_string q path p (iofs_open fsys) =
    serve_http time_parse fmt_time mime_type b1 b2 url_string q' path p (iofs_open fsys).
  Proof.
    intros H U. unfold serve_http. destruct (has_prefix path (B"/")); rewrite (file_same q q' _ _ _ _ _ _ H (iofs_undated fsys U)); reflexivity.
  Qed.
  (** Every mount of such a file system gives the same answers, whatever the date conditions. *)
  Theorem C168_dates_ignored : forall h fsys q q' path p, mount_of h fsys -> undated fsys -> same_but_dates q q' ->
    handler_run time_parse fmt_time mime_type b1 b2 url_string h q path p = handler_run time_parse fmt_time mime_type b1 b2 url_string h q' path p.
  Proof.
    intros h fsys q q' path p M U H. destruct h; cbn [mount_of] in M; try contradiction; subst; unfold handler_run, static_file_run, static_embed_run, static_fix_run; cbv zeta;
      rewrite (http_same q q' _ _ _ H U); reflexivity.
  Qed.
End Env.

(** ** Asking with a date *)
Section Ask.
  Variable zone : bytes -> Z -> Z.
  Variable mime_type : bytes -> bytes.
  Variables b1 b2 : bytes.
  Hypothesis same_length : length b1 = length b2.
  Notation tp := (go_parse zone).
  Notation serves := (serves zone mime_type b1 b2).
  Notation sound := (sound zone mime_type b2).
  Lemma answer_304 q p name m c st body h v t :
    answer tp format_http mime_type b2 q p name m c st body h -> asks q (B"If-Modified-Since") v -> http_date tp time_formats v t ->
    (st = 304 <-> known m /\ ~ modified_after m t) /\ (st = 304 -> body = []).
  Proof. clear same_length b1.
    intros A (Gh & Hk & Ho) D.
    assert (H1 := Ho (B"If-Match") ltac:(cbn; tauto) ltac:(discriminate)). assert (H2 := Ho (B"If-Unmodified-Since") ltac:(cbn; tauto) ltac:(discriminate)).
    assert (H3 := Ho (B"If-None-Match") ltac:(cbn; tauto) ltac:(discriminate)). clear Ho.
    pose proof (no_step1 q p H1) as N1. pose proof (no_step2 zone q m H2) as N2. pose proof (no_step3 q p H3) as N3.
    assert (Nv : v <> []).
    { intros ->. apply (date_iff tp) in D. vm_compute in D. discriminate D. }
    assert (S4 : step4_fails tp q m <-> known m /\ ~ modified_after m t).
    { unfold step4_fails. rewrite Hk. split.
      - intros (_ & _ & K2 & _ & t' & D' & M). apply (date_iff tp) in D, D'. rewrite D in D'. injection D' as <-. auto.
      - intros [K2 L]. split; [exact H3|]. split; [exact Gh|]. split; [exact K2|]. split; [exact Nv|]. exists t. auto. }
    rewrite <- S4.
    destruct A as [h Fl Dn|h Fl Dn Dd|h ct G|h ct l a n part G Dn Ct Ra|h ct l body G Dn Ct Ra|h l G Dn Ra|h G Dn Ra].
    - exfalso. destruct Fl as [Fl|[Fl|[Fl _]]]; contradiction.
    - split; [tauto|reflexivity].
    - split; [split; [lia|]; destruct G as (_ & _ & _ & G); contradiction|lia].
    - split; [split; [lia|]; destruct G as (_ & _ & _ & G); contradiction|lia].
    - split; [split; [lia|]; destruct G as (_ & _ & _ & G); contradiction|lia].
    - split; [split; [lia|]; destruct G as (_ & _ & _ & G); contradiction|lia].
    - split; [split; [lia|]; destruct G as (_ & _ & _ & G); contradiction|lia].
  Qed.
  (** C168: a client that asks for changes since [t].  Proved: it is told that there are none exactly if the file has a known modification
      time that is not in a second after [t].  Missing (false): that a file of unknown date, which is not after [t] either, is not sent again. *)
  Theorem C168_not_modified_partial : forall q p name m c r v t,
    serves q p name m c r -> sound q p name m c -> asks q (B"If-Modified-Since") v -> http_date tp time_formats v t ->
    (p_status r = 304 <-> known m /\ ~ modified_after m t) /\ (p_status r = 304 -> p_body r = p_body p).
  Proof.
    intros q p name m c r v t Sv F As D.
    destruct (answer_of zone mime_type b1 b2 same_length _ _ _ _ _ _ Sv F) as (st & body & h & A & E1 & E2 & _). rewrite E1, E2.
    destruct (answer_304 _ _ _ _ _ _ _ _ v t A As D) as [X Y]. split; [exact X|]. intros E. rewrite (Y E). apply app_nil_r.
  Qed.
  (** The same for what a mount sends for the thing called [name] (C144).  Missing: as above. *)
  Theorem C168_mount_partial : forall fsys name q p st body h v t,
    response tp format_http mime_type b2 fsys name q p st body h -> asks q (B"If-Modified-Since") v -> http_date tp time_formats v t ->
    (st = 304 <-> exists f info, io_open fsys name = inl f /\ g_stat f = inl info /\ fi_dir info = false /\
                    known (fi_mod info) /\ ~ modified_after (fi_mod info) t) /\
    (st = 304 -> body = []).
  Proof. clear same_length b1.
    intros fsys name q p st body h v t R As D.
    destruct R as [f info st body h Hf Hs Hd Ha|f info Hf Hs Hd|f err Hf Hs He|f err Hf Hs He Hp|f err Hf Hs He Hp|err Hf Hm|err Hf Hm Hp|err Hf Hm Hp].
    { destruct (answer_304 _ _ _ _ _ _ _ _ v t Ha As D) as [X Y]. split; [|exact Y]. rewrite X. split.
      - intros [K N]. exists f, info. auto.
      - intros (f' & info' & Hf' & Hs' & _ & K & N). rewrite Hf in Hf'. injection Hf' as <-. rewrite Hs in Hs'. injection Hs' as <-. auto. }
    all: split; [split; [lia|]; intros (f' & info' & Hf' & Hs' & Hd' & _); exfalso; rewrite Hf in Hf'; try discriminate Hf'; injection Hf' as <-; congruence|lia].
  Qed.
  (** Nor is a client given a date to ask with: the field is the one the response had. *)
  Theorem C168_no_date : forall q p name m c r, serves q p name m c r -> sound q p name m c -> ~ known m -> p_status r = 200 \/ p_status r = 206 ->
    rhdr r (B"Last-Modified") = rhdr p (B"Last-Modified").
  Proof.
    intros q p name m c r Sv F K St. destruct (answer_of zone mime_type b1 b2 same_length q p name m c r Sv F) as (st & body & h & A & E1 & _ & E3). rewrite E3. rewrite E1 in St.
    assert (D : forall h', dated format_http m (rhdr p) h' -> h' (B"Last-Modified") = rhdr p (B"Last-Modified")).
    { intros h' [[N _]|[_ ->]]; [contradiction|reflexivity]. }
    assert (Sz : forall n h', sized n h' (B"Last-Modified") = h' (B"Last-Modified")).
    { intros n h'. unfold sized. destruct (h' (B"Content-Encoding")); reflexivity. }
    assert (Ty : forall ct h', typed q ct h' (B"Last-Modified") = h' (B"Last-Modified")).
    { intros ct h'. unfold typed. destruct (hdr q (B"Content-Type")); reflexivity. }
    destruct A; try (exfalso; lia); rewrite Sz.
    - rewrite Ty. auto.
    - change (typed q ct h (B"Last-Modified") = rhdr p (B"Last-Modified")). rewrite Ty. auto.
    - change (h (B"Last-Modified") = rhdr p (B"Last-Modified")). auto.
  Qed.
End Ask.
(** The claim: a file not modified after the date a client sends is not sent again. *)
Definition C168_claim : Prop := forall zone mime_type b1 b2 q p name m c r v t, length b1 = length b2 ->
  serves zone mime_type b1 b2 q p name m c r -> sound zone mime_type b2 q p name m c -> asks q (B"If-Modified-Since") v ->
  http_date (go_parse zone) time_formats v t -> ~ modified_after m t -> p_status r = 304.
Theorem C168_not_modified_refuted : ~ C168_claim.
Proof.
  intros H.
  assert (E : exists r e, d_serve (d_get [(B"If-Modified-Since", d_text)]) d_p (B"a.txt") year1 (d_c (B"old")) = Some (r, e) /\ p_status r = 200)
    by (eexists _, _; split; vm_compute; reflexivity).
  destruct E as (r & e & Sv & St).
  assert (X : p_status r = 304).
  { refine (H (fun _ _ => 0) (fun _ => B"text/plain") (B"x") (B"x") _ _ _ _ _ r d_text 784111777000000000 eq_refl (d_serves _ _ _ _ _ _ Sv) _ (d_asks _ (or_introl eq_refl)) _ _).
    - apply sound_plain; [reflexivity|apply d_seek|vm_compute; reflexivity].
    - apply (date_iff (go_parse (fun _ _ => 0))). vm_compute. reflexivity.
    - intros (s & I & L). unfold in_second, year1 in I. lia. }
  lia.
Qed.

(** ** A concrete case: an embedded file asked for with and without dates *)
Definition u_file : gofile := GoFile (inl (FInfo (B"a.txt") false year1 3)) (d_c (B"old")) (inr err_not_exist).
Definition u_fs : iofs := IoFs (fun n => if beq n (B"a.txt") then inl u_file else inr err_not_exist) (fun _ => inr err_not_exist).
Definition u_run (q : sreq) := handler_run (go_parse (fun _ _ => 0)) format_http (fun _ => B"text/plain") (B"x") (B"x") (fun s => s) (HFile u_fs (B"s/")) q (B"/s/a.txt") d_p.
Example C168_case : mount_of (HFile u_fs (B"s/")) u_fs /\ undated u_fs /\ same_but_dates (d_get [(B"If-Modified-Since", d_text)]) (d_get []) /\
  (exists r e, u_run (d_get [(B"If-Modified-Since", d_text)]) = Some (Some (r, FNil, e), B"/s/a.txt") /\ p_status r = 200 /\ p_body r = B"old" /\ aget (B"Last-Modified") (p_hdr r) = None) /\
  (exists t, http_date (go_parse (fun _ _ => 0)) time_formats d_text t /\ ~ modified_after d_m t).
Proof.
  split; [reflexivity|]. split.
  { intros name f info O E. unfold u_fs in O. cbn [io_open] in O. destruct (beq name (B"a.txt")); [|discriminate O]. injection O as <-. injection E as <-. intros [K _]. apply K. reflexivity. }
  split.
  { split; [reflexivity|]. split; [reflexivity|]. intros k N1 N2. unfold hdr, hpeek, d_get. cbn [q_hdr aget].
    destruct (beq k (B"If-Modified-Since")) eqn:E; [apply beq_eq in E; contradiction|reflexivity]. }
  split; [eexists _, _; split; [vm_compute; reflexivity|]; split; [reflexivity|]; split; reflexivity|].
  exists 784111777000000000. split; [apply (date_iff (go_parse (fun _ _ => 0))); vm_compute; reflexivity|].
  intros (s & I & L). unfold in_second, d_m in I. lia.
Qed.

(** a file of known date: 304 *)
Definition v_file : gofile := GoFile (inl (FInfo (B"a.txt") false d_m 3)) (d_c (B"old")) (inr err_not_exist).
Definition v_fs : iofs := IoFs (fun n => if beq n (B"a.txt") then inl v_file else inr err_not_exist) (fun _ => inr err_not_exist).
Example C168_mount_case : asks (d_get [(B"If-Modified-Since", d_text)]) (B"If-Modified-Since") d_text /\
  exists h, response (go_parse (fun _ _ => 0)) format_http (fun _ => B"text/plain") (B"x") v_fs (B"a.txt") (d_get [(B"If-Modified-Since", d_text)]) d_p 304 [] h.
Proof.
  split; [apply d_asks; left; reflexivity|].
  destruct (C144_total (go_parse (fun _ _ => 0)) format_http (fun _ => B"text/plain") (B"x") (B"x") v_fs (B"a.txt") (d_get [(B"If-Modified-Since", d_text)]) d_p) as (st & body & h & R).
  { intros f info Hf Hs _. injection Hf as <-. injection Hs as <-. split.
    - exists (B"old"). repeat split. exists (FInfo (B"a.txt") false d_m 3). auto.
    - apply (sound_plain (fun _ _ => 0) (fun _ => B"text/plain") (B"x")); [reflexivity|apply d_seek|vm_compute; reflexivity]. }
  destruct (C168_mount_partial (fun _ _ => 0) (fun _ => B"text/plain") (B"x") _ _ _ _ _ _ _ d_text 784111777000000000 R (d_asks _ (or_introl eq_refl))) as [X Y].
  { apply (date_iff (go_parse (fun _ _ => 0))). vm_compute. reflexivity. }
  assert (st = 304) as ->.
  { apply X. exists v_file, (FInfo (B"a.txt") false d_m 3). split; [reflexivity|]. split; [reflexivity|]. split; [reflexivity|]. split; [exact d_known|].
    intros (s & I & L). cbn [fi_mod] in I. unfold in_second, d_m in I. lia. }
  rewrite (Y eq_refl) in R. eauto.
Qed.

Print Assumptions C168_dates_ignored.
Print Assumptions C168_not_modified_partial.
Print Assumptions C168_mount_partial.
Print Assumptions C168_no_date.
Print Assumptions C168_not_modified_refuted.
