(** C144: the complete response of a static mount: routing, the file opened, status, body and
    every header field, for every request to it. *)
From Verif Require Import Base GoStrings GoPath GoInt M_Tree M_RegTree S_Route M_Range P_Range S_Range M_Cond S_Cond M_Sniff M_Content S_Content
  S_Static P_GoPath M_Static Props_Cond Props_Sniff Props_Content Props_Static Props_Static2 M_Mount S_Mount P_RegTree P_Mount Props_Mount
  S_Exposed P_Exposed P_Dotted Props_RegTree Props_Exposed.
From Verif Require S_Answer Props_Answer.

Section Mounts.
  Variable time_parse : bytes -> bytes -> option gtime.
  Variable fmt_time : gtime -> bytes.
  Variable mime_type : bytes -> bytes.
  Variables b1 b2 : bytes.
  Variable url_string : bytes -> bytes.
  Notation content_response := (Props_Answer.answer time_parse fmt_time mime_type b2).

  (** What is sent for the thing called [name]: status, text and header fields.  A file is
      answered as ServeContent answers for its contents, name and date (C139) *)
  Inductive response (fsys : iofs) (name : bytes) (q : sreq) (p : sresp) : Z -> bytes -> S_Answer.headers -> Prop :=
  | R_file f info st body h : io_open fsys name = inl f -> g_stat f = inl info -> fi_dir info = false ->
      content_response q p (fi_name info) (fi_mod info) (g_content f) st body h ->
      response fsys name q p st body h
  | R_directory f info : io_open fsys name = inl f -> g_stat f = inl info -> fi_dir info = true ->
      response fsys name q p 403 (B"403 Forbidden") (S_Answer.refused (rhdr p))
  | R_unknown f err : io_open fsys name = inl f -> g_stat f = inr err -> e_not_exist err = true ->
      response fsys name q p 404 (B"404 page not found") (S_Answer.refused (rhdr p))
  | R_unknown_forbidden f err : io_open fsys name = inl f -> g_stat f = inr err -> e_not_exist err = false -> e_permission err = true ->
      response fsys name q p 403 (B"403 Forbidden") (S_Answer.refused (rhdr p))
  | R_unknown_broken f err : io_open fsys name = inl f -> g_stat f = inr err -> e_not_exist err = false -> e_permission err = false ->
      response fsys name q p 500 (B"500 Internal Server Error") (S_Answer.refused (rhdr p))
  | R_missing err : io_open fsys name = inr err -> missing (io_stat fsys) name err ->
      response fsys name q p 404 (B"404 page not found") (S_Answer.refused (rhdr p))
  | R_forbidden err : io_open fsys name = inr err -> ~ missing (io_stat fsys) name err -> e_permission err = true ->
      response fsys name q p 403 (B"403 Forbidden") (S_Answer.refused (rhdr p))
  | R_broken err : io_open fsys name = inr err -> ~ missing (io_stat fsys) name err -> e_permission err = false ->
      response fsys name q p 500 (B"500 Internal Server Error") (S_Answer.refused (rhdr p)).

  (** The environment: a file that is opened and is no directory has the size it tells, can be
      read and sought, and its answer stays below 2^63 bytes *)
  Definition sound_file (fsys : iofs) (name : bytes) (q : sreq) (p : sresp) : Prop :=
    forall f info, io_open fsys name = inl f -> g_stat f = inl info -> fi_dir info = false ->
      (exists data, regular f data) /\ Props_Answer.moderate time_parse mime_type b2 q p (fi_name info) (fi_mod info) (g_content f).

  (** the handler's whole effect: only [name] is opened, and this is sent *)
  Definition gives (o : option (sresp * ferr * list call)) (p : sresp) (name : bytes) (st : Z) (body : bytes) (h : S_Answer.headers) : Prop :=
    exists r e calls, o = Some (r, e, calls) /\ opened calls = [name] /\
      p_status r = st /\ p_body r = p_body p ++ body /\ forall k, rhdr r k = h k.

  (** ** C144: the answer of C134, completely *)
  Theorem C144_response : forall fsys name q p o st body h,
    length b1 = length b2 -> sound_file fsys name q p ->
    file_answer time_parse fmt_time mime_type b1 b2 fsys name q p o ->
    response fsys name q p st body h -> gives o p name st body h.
  Proof.
    intros fsys name q p o st body h Lb Sf [(r0 & e0 & calls0 & Eo & Op) A] R.
    destruct R as [f info st body h Hf Hs Hd Ha|f info Hf Hs Hd|f err Hf Hs He|f err Hf Hs He Hp|f err Hf Hs He Hp|err Hf Hm|err Hf Hm Hp|err Hf Hm Hp]; rewrite Hf in A; try rewrite Hs in A; try rewrite Hd in A; try rewrite He in A; try rewrite Hp in A.
    - destruct A as (r & e & Ec & fe & E & _).
      destruct (Sf f info Hf Hs Hd) as [[data (D1 & D2 & D3 & D4 & info' & Hs' & _ & Sz)] Mo].
      assert (info' = info) as -> by congruence.
      assert (Sk : seekable (g_content f)) by (split; assumption).
      assert (Zs : size_of (g_content f) = fi_size info) by (unfold size_of; rewrite D1, Sz; reflexivity).
      destruct (Props_Answer.C139_answer time_parse fmt_time mime_type b1 b2 q p (fi_name info) (fi_mod info) (g_content f) st body h Sk Mo Lb Ha)
        as (r' & e' & E' & St & Bd & Hh & _).
      rewrite serve_content_seek_eq, Zs, Ec in E' by exact Sk. injection E' as <- <-.
      exists r, fe, [COpen name]. auto.
    - destruct A as (r & E & St & Bd & Hh). exists r, FNil, [COpen name]. auto.
    - destruct A as (r & E & St & Bd & Hh). exists r, (FErr err), [COpen name]. auto.
    - destruct A as (r & E & St & Bd & Hh). exists r, (FErr err), [COpen name]. auto.
    - destruct A as (r & E & St & Bd & Hh). exists r, (FErr err), [COpen name]. auto.
    - destruct A as (r & e & calls & E & (A1 & _) & Hh). rewrite E in Eo. injection Eo as -> -> ->. destruct (A1 Hm). exists r0, e0, calls0. auto.
    - destruct A as (r & e & calls & E & (_ & A1 & _) & Hh). rewrite E in Eo. injection Eo as -> -> ->. destruct (A1 Hm Hp). exists r0, e0, calls0. auto.
    - destruct A as (r & e & calls & E & (_ & _ & A1) & Hh). rewrite E in Eo. injection Eo as -> -> ->. destruct (A1 Hm Hp). exists r0, e0, calls0. auto.
  Qed.

  Lemma missing_dec stat name err : missing stat name err \/ ~ missing stat name err.
  Proof.
    unfold missing. destruct (e_not_exist err); [left; left; reflexivity|]. destruct (e_permission err).
    { right. intros [X|[X _]]; discriminate. }
    destruct (map_open_loop_spec err stat (split "/" name) []) as [[_ H]|[_ H]].
    - right. intros [X|[_ X]]; [discriminate|]. exact (H X).
    - left. right. split; [reflexivity|exact H].
  Qed.
  (** there is one for every request, and only one *)
  Theorem C144_total : forall fsys name q p, sound_file fsys name q p ->
    exists st body h, response fsys name q p st body h.
  Proof.
    intros fsys name q p Sf. destruct (io_open fsys name) as [f|err] eqn:Hf.
    - destruct (g_stat f) as [info|err] eqn:Hs.
      + destruct (fi_dir info) eqn:Hd; [eexists _, _, _; eapply R_directory; eassumption|].
        destruct (Sf f info Hf Hs Hd) as [_ [Mo _]].
        destruct (Props_Answer.C139_total time_parse fmt_time mime_type b1 b2 q p (fi_name info) (fi_mod info) (g_content f) Mo) as (st & body & h & A).
        exists st, body, h. eapply R_file; eassumption.
      + destruct (e_not_exist err) eqn:He; [eexists _, _, _; eapply R_unknown; eassumption|].
        destruct (e_permission err) eqn:Hp; eexists _, _, _; [eapply R_unknown_forbidden|eapply R_unknown_broken]; eassumption.
    - destruct (missing_dec (io_stat fsys) name err) as [M|M]; [eexists _, _, _; eapply R_missing; eassumption|].
      destruct (e_permission err) eqn:Hp; eexists _, _, _; [eapply R_forbidden|eapply R_broken]; eassumption.
  Qed.
  Theorem C144_unique : forall fsys name q p st body h st' body' h', length b1 = length b2 -> sound_file fsys name q p ->
    response fsys name q p st body h -> response fsys name q p st' body' h' ->
    st = st' /\ body = body' /\ forall k, h k = h' k.
  Proof.
    intros fsys name q p st body h st' body' h' Lb Sf R R'.
    destruct R as [f info st body h Hf Hs Hd Ha|f info Hf Hs Hd|f err Hf Hs He|f err Hf Hs He Hp|f err Hf Hs He Hp|err Hf Hm|err Hf Hm Hp|err Hf Hm Hp];
    destruct R' as [f' info' st' body' h' Hf' Hs' Hd' Ha'|f' info' Hf' Hs' Hd'|f' err' Hf' Hs' He'|f' err' Hf' Hs' He' Hp'|f' err' Hf' Hs' He' Hp'|err' Hf' Hm'|err' Hf' Hm' Hp'|err' Hf' Hm' Hp'];
      try congruence; rewrite Hf in Hf'; injection Hf' as <-; try (rewrite Hs in Hs'; injection Hs' as <-); try congruence; auto; try contradiction.
    destruct (Sf f info Hf Hs Hd) as [[data (D1 & D2 & D3 & _)] Mo].
    apply (Props_Answer.C139_unique time_parse fmt_time mime_type b1 b2 q p (fi_name info) (fi_mod info) (g_content f)); try assumption. split; assumption.
  Qed.
End Mounts.

(** ** ... for the requests to a server with such a mount *)
Section Servers.
  Context {U : Type}.
  Variable other : bytes -> option matcher.
  Variable dir_fs : bytes -> iofs.
  Variable fresh_set : bytes -> U.
  Variable time_parse : bytes -> bytes -> option gtime.
  Variable fmt_time : gtime -> bytes.
  Variable mime_type : bytes -> bytes.
  Variables b1 b2 : bytes.
  Variable url_string : bytes -> bytes.
  Notation response := (response time_parse fmt_time mime_type b2).
  Notation sound_file := (sound_file time_parse mime_type b2).

  (** the request is routed to a handler of the mount, whose effect is [P] *)
  Definition answered (order : rmap (@hs U) -> rmap (@hs U)) (sv : srv U) (q : sreq) (path : bytes) (p : sresp)
      (P : option (sresp * ferr * list call) -> Prop) : Prop :=
    forall old, exists u h o path', srv_find order sv (q_method q) path old = (TFound (u, h), []) /\
      handler_run time_parse fmt_time mime_type b1 b2 url_string h q path p = Some (o, path') /\ P o.
  (** the complete answer: a redirect for index.html, else the response for the thing [name] *)
  Definition complete (fsys : iofs) (name last : bytes) (q : sreq) (p : sresp) (o : option (sresp * ferr * list call)) : Prop :=
    (last = B"index.html" -> index_answer q p o) /\
    (last <> B"index.html" -> forall st body h, sound_file fsys name q p -> response fsys name q p st body h -> gives o p name st body h).

  Lemma complete_of fsys name last q p o : length b1 = length b2 ->
    (last = B"index.html" -> index_answer q p o) /\
    (last <> B"index.html" -> file_answer time_parse fmt_time mime_type b1 b2 fsys name q p o) -> complete fsys name last q p o.
  Proof.
    intros Lb [A C]. split; [exact A|]. intros N st body h Sf R.
    exact (C144_response time_parse fmt_time mime_type b1 b2 fsys name q p o st body h Lb Sf (C N) R).
  Qed.

  Theorem C144_directory_mount : forall order os1 os2 file up sets (sv : srv U) q path p rest r0 d u,
    let url := "/"%char :: up in
    let o := OStaticFile file url sets in
    length b1 = length b2 ->
    any_order order -> setup other dir_fs fresh_set new_srv (os1 ++ o :: os2) = Ok sv -> Forall proper (os1 ++ o :: os2) ->
    chosen fresh_set sets url = Some u -> dotted_url url ->
    (forall o', In o' (os1 ++ os2) -> ~ claims other o' (q_method q) path) ->
    In (q_method q) [B"GET"; B"HEAD"] -> dot_match url path ("/"%char :: r0) ->
    remainder up path rest -> decodes rest d ->
    answered order sv q path p (complete (dir_fs file) (name_of (walk [] (split "/" d))) (final d) q p).
  Proof.
    intros order os1 os2 file up sets sv q path p rest r0 d u url o Lb Ho Hs Hw Hu Hd Hno Hm Hdm Hr Hdec old.
    destruct (C137_dotted_mount U other dir_fs fresh_set order os1 os2 o url sv (q_method q) path old (u, file_handler dir_fs file url)) as [Hf _]; try assumption.
    { reflexivity. }
    { unfold o. cbn [S_Mount.set_of]. rewrite Hu. reflexivity. }
    specialize (Hf (conj Hm (ex_intro _ r0 Hdm))).
    pose proof (C134_directory_mount time_parse fmt_time mime_type b1 b2 url_string (dir_fs file) up q path p rest d Hr Hdec) as K.
    apply complete_of in K; [|exact Lb].
    exists u, (file_handler dir_fs file url). unfold file_handler in *.
    assert (Et : trim_prefix url (B"/") = up) by reflexivity. rewrite Et in *. cbn [M_Mount.handler_run].
    destruct (static_file_run time_parse fmt_time mime_type b1 b2 url_string (dir_fs file) up q path p) as [x y].
    exists x, y. split; [exact Hf|]. split; [reflexivity|exact K].
  Qed.

  Theorem C144_embedded_mount : forall order os1 os2 file fsys up sets (sv : srv U) q target p rest r0 d df l u,
    let url := "/"%char :: up in
    let path := normalize_path target in
    let o := OStaticFileFS file url fsys sets in
    length b1 = length b2 ->
    any_order order -> setup other dir_fs fresh_set new_srv (os1 ++ o :: os2) = Ok sv -> Forall proper (os1 ++ o :: os2) ->
    chosen fresh_set sets url = Some u -> dotted_url url ->
    (forall o', In o' (os1 ++ os2) -> ~ claims other o' (q_method q) path) ->
    In (q_method q) [B"GET"; B"HEAD"] -> dot_match url path ("/"%char :: r0) ->
    remainder up path rest -> ~ In (B"..") (split "/" file) ->
    decodes rest d -> decodes file df -> decodes (last (plain_elems file ++ plain_elems rest) []) l ->
    answered order sv q path p (complete fsys (name_of (walk (walk [] (split "/" df)) (split "/" d))) (final l) q p).
  Proof.
    intros order os1 os2 file fsys up sets sv q target p rest r0 d df l u url path o Lb Ho Hs Hw Hu Hd Hno Hm Hdm Hr Ndf Hdec Hdf Hl old.
    destruct (C137_dotted_mount U other dir_fs fresh_set order os1 os2 o url sv (q_method q) path old (u, embed_handler file url fsys)) as [Hf _]; try assumption.
    { reflexivity. }
    { unfold o. cbn [S_Mount.set_of]. rewrite Hu. reflexivity. }
    specialize (Hf (conj Hm (ex_intro _ r0 Hdm))).
    set (fp := trim_prefix file (B"/")).
    assert (Fp : plain_elems fp = plain_elems file /\ ~ In (B"..") (split "/" fp) /\
                 exists df', decodes fp df' /\ walk [] (split "/" df') = walk [] (split "/" df)).
    { unfold fp, trim_prefix. change (B"/") with ["/"%char]. destruct file as [|c file']; [split; [reflexivity|]; split; [exact Ndf|]; exists df; auto|]. cbn [strip_prefix].
      destruct (Ascii.eqb_spec "/"%char c) as [<-|]; [|split; [reflexivity|]; split; [exact Ndf|]; exists df; auto]. split; [|split].
      - unfold plain_elems. cbn [split]. rewrite Ascii.eqb_refl. reflexivity.
      - intros X. apply Ndf. cbn [split]. rewrite Ascii.eqb_refl. right. exact X.
      - apply decodes_iff in Hdf. subst df. exists (pct_decode file'). split; [apply decodes_iff; reflexivity|].
        rewrite decode_rooted. cbn [split]. rewrite Ascii.eqb_refl. reflexivity. }
    destruct Fp as (Fe & Fd & df' & Hdf' & Ew). rewrite <- Fe in Hl.
    pose proof (C134_embedded_mount time_parse fmt_time mime_type b1 b2 url_string fsys fp up q target p rest d df' l Hr Fd Hdec Hdf' Hl) as K.
    rewrite Ew in K. apply complete_of in K; [|exact Lb]. fold path in K.
    exists u, (embed_handler file url fsys). unfold embed_handler in *. fold fp. fold fp in Hf.
    assert (Et : trim_prefix url (B"/") = up) by reflexivity. rewrite Et in *. cbn [M_Mount.handler_run].
    destruct (static_embed_run time_parse fmt_time mime_type b1 b2 url_string fsys fp up q path p) as [x y].
    exists x, y. split; [exact Hf|]. split; [reflexivity|exact K].
  Qed.

  Theorem C144_fixed_file : forall order os1 os2 file url fsys sets (sv : srv U) q path p old df u,
    let o := OFixStaticFileFS file url fsys sets in
    length b1 = length b2 ->
    setup other dir_fs fresh_set new_srv (os1 ++ o :: os2) = Ok sv -> Forall proper (os1 ++ o :: os2) ->
    chosen fresh_set sets url = Some u -> In (q_method q) [B"GET"; B"POST"] ->
    fits (pattern_of url) (segments path) -> Forall (stays_clear path) (os1 ++ os2) -> decodes file df ->
    exists h x path', srv_find order sv (q_method q) path old = (TFound (u, h), bindings (pattern_of url) (segments path)) /\
      handler_run time_parse fmt_time mime_type b1 b2 url_string h q path p = Some (x, path') /\
      complete fsys (name_of (walk [] (split "/" df))) (final df) q p x.
  Proof.
    intros order os1 os2 file url fsys sets sv q path p old df u o Lb Hs Hw Hu Hm Hfit Hc Hdf.
    pose proof (C100_fixed_file_partial other dir_fs fresh_set order os1 os2 file url fsys sets sv (q_method q) path old u Hs Hw Hu Hm Hfit Hc) as Hf.
    pose proof (C134_fixed_file time_parse fmt_time mime_type b1 b2 url_string fsys file q path p df Hdf) as K.
    apply complete_of in K; [|exact Lb]. exists (HFix fsys file). cbn [M_Mount.handler_run].
    destruct (static_fix_run time_parse fmt_time mime_type b1 b2 url_string fsys file q path p) as [x y].
    exists x, y. split; [exact Hf|]. split; [reflexivity|exact K].
  Qed.
End Servers.

(** ** The hypotheses are met: a range of a file in a mounted directory, with a directory and a
    missing file beside it *)
Definition w_name := B"files/css/a.css".
Definition w_q := ex_q (B"bytes=1-1").
Lemma w_type : S_Answer.content_type x_mt (hdr w_q (B"Content-Type")) (B"a.css") (B"b{}") (B"text/css").
Proof.
  apply (S_Answer.CT_extension x_mt [] (B"a.css") (B"b{}") (B".css")); [reflexivity| |discriminate].
  exists [], (B"a.css"). split; [reflexivity|]. split; [left; reflexivity|].
  split; [intros X; repeat (destruct X as [X|X]; [discriminate X|]); exact X|]. right.
  exists (B"a"), (B"css"). split; [reflexivity|]. split; [|reflexivity].
  intros X; repeat (destruct X as [X|X]; [discriminate X|]); exact X.
Qed.
Lemma w_moderate : Props_Answer.moderate x_tp x_mt (B"yy") w_q ex_p (B"a.css") x_time (Content (B"b{}") (fun _ => true) true).
Proof. apply (Props_Answer.moderate_small x_tp x_ft x_mt (B"yy") w_q ex_p _ x_time _ (B"text/css")); [exact w_type|vm_compute; reflexivity]. Qed.
Lemma w_sound : sound_file x_tp x_mt (B"yy") x_fs w_name w_q ex_p.
Proof.
  intros f info Hf Hs Hd. vm_compute in Hf. injection Hf as <-. vm_compute in Hs. injection Hs as <-.
  split; [|exact w_moderate]. exists (B"b{}"). apply (x_regular (B"a.css")). reflexivity.
Qed.
Lemma w_response : response x_tp x_ft x_mt (B"yy") x_fs w_name w_q ex_p 206 (B"{")
  (S_Answer.sized 1 (S_Answer.put (B"Content-Range") (B"bytes 1-1/3") (S_Answer.put (B"Content-Type") (B"text/css")
     (S_Answer.put (B"Last-Modified") [] (rhdr ex_p))))).
Proof.
  eapply (R_file x_tp x_ft x_mt (B"yy") x_fs w_name w_q ex_p (x_file (B"a.css") false (B"b{}")) (FInfo (B"a.css") false x_time 3));
    [reflexivity|reflexivity|reflexivity|].
  apply (Props_Answer.A_single x_tp x_ft x_mt (B"yy") w_q ex_p (B"a.css") x_time (Content (B"b{}") (fun _ => true) true)
    (S_Answer.put (B"Last-Modified") [] (rhdr ex_p)) (B"text/css") [FromTo 1 1] 1 1 (B"{")).
  - apply ex_proceeds.
  - left. split; [split; discriminate|reflexivity].
  - exact w_type.
  - exists [Some (FromTo 1 1)], (B"1-1"). split; [apply ex_asked|]. split; [|reflexivity].
    apply LL1. apply (L_FromTo _ 1 1 (B"1") (B"1") [] [] [] []); [left|left; left|lia|constructor|constructor|constructor|constructor]; apply ex_num; (discriminate || reflexivity).
  - reflexivity.
  - exists (B"b"), (B"}"). split; [reflexivity|split; reflexivity].
Qed.
Example C144_case :
  setup y_other y_dir y_set new_srv z_setup = Ok z_srv /\ chosen y_set [] (B"/html") = Some 0 /\ dotted_url (B"/html") /\
  remainder (B"html") (B"/html/css/a.css") (B"css/a.css") /\ dot_match (B"/html") (B"/html/css/a.css") (B"/css/a.css") /\
  name_of (walk (walk [] (split "/" (B"/files"))) (split "/" (B"css/a.css"))) = w_name /\ final (B"a.css") <> B"index.html" /\
  (exists r, handler_run x_tp x_ft x_mt (B"xx") (B"yy") x_us (HEmbed x_fs (B"files") (B"html")) w_q (B"/html/css/a.css") ex_p =
     Some (Some (r, FNil, [COpen w_name]), B"/html/css/a.css") /\ p_status r = 206%Z /\ p_body r = B"{") /\
  (forall q p, response x_tp x_ft x_mt (B"yy") x_fs (B"files/css") q p 403 (B"403 Forbidden") (S_Answer.refused (rhdr p))) /\
  (forall q p, response x_tp x_ft x_mt (B"yy") x_fs (B"files/css/a.css/z") q p 404 (B"404 page not found") (S_Answer.refused (rhdr p))).
Proof.
  split; [reflexivity|]. split; [reflexivity|]. split.
  { apply Forall_forall; intros c Hc; vm_compute in Hc;
    repeat (destruct Hc as [<-|Hc]; [left; split; [vm_compute; intuition discriminate|reflexivity]|]); destruct Hc. }
  split; [left; reflexivity|]. split; [apply (below_match (B"/html") (B"css/a.css"))|].
  { apply Forall_forall; intros c Hc; vm_compute in Hc;
    repeat (destruct Hc as [<-|Hc]; [left; split; [vm_compute; intuition discriminate|reflexivity]|]); destruct Hc. }
  split; [reflexivity|]. split; [discriminate|]. split; [eexists; split; [reflexivity|split; reflexivity]|]. split; intros q p.
  - eapply R_directory; reflexivity.
  - eapply (R_missing x_tp x_ft x_mt (B"yy") x_fs (B"files/css/a.css/z") q p (GoErr false false (B"ENOTDIR"))); [reflexivity|]. right. split; [reflexivity|].
    exists [B"files"; B"css"], (B"a.css"), [B"z"], (FInfo (B"a.css") false x_time 3). split; [reflexivity|]. split; [discriminate|].
    split; [reflexivity|]. split; [reflexivity|]. intros a' e' b' E Ne.
    destruct a' as [|x [|y a']]; cbn [app] in E; inversion E; subst.
    + exists (FInfo (B"files") true x_time 0). split; reflexivity.
    + exists (FInfo (B"files/css") true x_time 0). split; reflexivity.
    + destruct a'; discriminate.
Qed.
Print Assumptions C144_response.
Print Assumptions C144_total.
Print Assumptions C144_unique.
Print Assumptions C144_directory_mount.
Print Assumptions C144_embedded_mount.
Print Assumptions C144_fixed_file.
