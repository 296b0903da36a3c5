(** C158-C160: static mounts among handlers and behind basic authentication: what goes over the wire. *)
From Verif Require Import Base GoStrings GoErrors GoPath M_Tree M_RegTree S_Route M_Cond M_Content S_Static P_GoPath M_Static Props_Static Props_Static2
  M_Mount S_Mount P_RegTree P_Mount Props_Mount S_Exposed P_Exposed P_Dotted Props_RegTree Props_Exposed Props_MountAnswer M_Site S_Site P_Site P_Site2.
From Verif Require M_Pipeline S_Pipeline M_Auth S_Auth P_Auth Props_Auth.

Section Sites.
  Context {U : Type}.
  Variable other : bytes -> option matcher.
  Variable dir_fs : bytes -> iofs.
  Variable fresh_set : bytes -> U.
  Variable time_parse : bytes -> bytes -> option gtime.
  Variable fmt_time : gtime -> bytes.
  Variable mime_type : bytes -> bytes.
  Variables b1 b2 : bytes.
  Variable url_string : bytes -> bytes.
  Variable err_of : ferr -> bytes.
  Variable sets : U -> args -> mids.
  Variable mains : nat -> args -> option umain.
  Variable uni : bytes -> bytes.
  Variable order : rmap (@hs U) -> rmap (@hs U).
  Variable sched : list (option err) -> list (option err).
  Notation sset_of := (sset_of time_parse fmt_time mime_type b1 b2 url_string err_of sets mains).
  Notation static_code := (static_code time_parse fmt_time mime_type b1 b2 url_string err_of).
  Notation request := (site_request time_parse fmt_time mime_type b1 b2 url_string err_of sets mains order sched).
  Notation serve := (site_serve time_parse fmt_time mime_type b1 b2 url_string err_of sets mains uni order sched).
  Notation handler_run := (handler_run time_parse fmt_time mime_type b1 b2 url_string).
  Notation find st w := (srv_find order (st_srv st) (q_method (w_req w)) (w_path w) []).
  Notation complete := (complete time_parse fmt_time mime_type b2).

  (** ** C158 *)
  Lemma request_facts st w x a : find st w = (TFound x, a) ->
    let pg := request st w in let s := sset_of x a in
    chain w (pg_stages pg) (pg_wire pg) /\ Forall (genuine s (st_ses st)) (pg_stages pg) /\
    exists h hses, shape h s /\ (hses = None <-> st_ses st = None) /\
      M_Pipeline.run_http (Some h) hses (w_path w) (st_level st) sched =
      M_Pipeline.Http (map g_call (pg_stages pg)) None (pg_result pg) (pg_ctx pg).
  Proof. intros F pg s. unfold pg, site_request. rewrite F. apply run_http_facts. Qed.
  Definition main_name (h : handler) (a : args) : option bytes :=
    match h with
    | HUser n => option_map um_name (mains n a)
    | HFile _ _ => Some (B"StaticFileHandler")
    | _ => Some (B"handler")
    end.
  (** A request that is found runs the handlers of its set: every call is given what the one before it left, and which
      calls are made, their order, the result and the Context are those of the pipeline (C18-C28) with these handlers. *)
  Theorem C158_request : forall st w u h a, find st w = (TFound (u, h), a) ->
    let pg := request st w in
    chain w (pg_stages pg) (pg_wire pg) /\
    exists s ses, (ses = None <-> st_ses st = None) /\
      map M_Pipeline.h_name (M_Pipeline.hs_before s) = map u_name (mi_before (sets u a)) /\
      map M_Pipeline.h_name (M_Pipeline.hs_after s) = map u_name (mi_after (sets u a)) /\
      option_map M_Pipeline.l_name (M_Pipeline.hs_last s) = option_map ul_name (mi_last (sets u a)) /\
      option_map M_Pipeline.m_name (M_Pipeline.hs_main s) = main_name h a /\
      M_Pipeline.run_http (Some s) ses (w_path w) (st_level st) sched =
      M_Pipeline.Http (map g_call (pg_stages pg)) None (pg_result pg) (pg_ctx pg).
  Proof.
    intros st w u h a F pg. destruct (request_facts st w _ a F) as (C & _ & hh & hses & (S1 & S2 & S3 & S4) & Hn & E).
    split; [exact C|]. exists hh, hses. split; [exact Hn|]. cbn [M_Site.sset_of ss_before ss_after ss_last ss_main] in S1, S2, S3, S4.
    rewrite map_map in S1, S2. split; [exact S1|]. split; [exact S2|]. split; [rewrite S3; destruct (mi_last (sets u a)); reflexivity|].
    split; [|exact E]. rewrite S4. destruct h as [ | | |n]; try reflexivity. cbn. destruct (mains n a); reflexivity.
  Qed.
  (** The handlers are those of the set the mount or route was registered with; Init of a static handler does nothing. *)
  Theorem C158_handlers : forall st w u h a, find st w = (TFound (u, h), a) -> forall k, In k (pg_stages (request st w)) ->
    match who k with
    | M_Pipeline.WBefore j => exists b, nth_error (mi_before (sets u a)) j = Some b /\ did k (u_name b) (plain (u_run b))
    | M_Pipeline.WAfter j => exists b, nth_error (mi_after (sets u a)) j = Some b /\ did k (u_name b) (plain (u_run b))
    | M_Pipeline.WLast e => exists l, mi_last (sets u a) = Some l /\ did k (ul_name l) (plain (ul_run l e))
    | M_Pipeline.WInit => match h with
        | HUser n => exists m, mains n a = Some m /\ did k (um_name m) (plain (um_init m))
        | _ => g_out k = g_in k /\ M_Pipeline.k_acts (g_call k) = [] /\ M_Pipeline.k_out (g_call k) = M_Pipeline.HRet None
        end
    | M_Pipeline.WMain => forall n, h = HUser n -> exists m, mains n a = Some m /\ did k (um_name m) (plain (um_run m))
    | M_Pipeline.WSesInit => exists f, st_ses st = Some f /\ did k [] (plain f)
    | M_Pipeline.WWait => g_out k = g_in k
    end.
  Proof.
    intros st w u h a F k Hk. destruct (request_facts st w _ a F) as (_ & G & _). rewrite Forall_forall in G. specialize (G k Hk).
    assert (PB : forall (l : list uhandler) j n b, nth_error (map (fun k => (u_name k, plain (u_run k))) l) j = Some (n, b) -> did k n b ->
      exists b, nth_error l j = Some b /\ did k (u_name b) (plain (u_run b))).
    { intros l j n b E D. rewrite nth_error_map in E. destruct (nth_error l j) as [b'|]; [|discriminate E]. injection E as <- <-. eauto. }
    unfold genuine in G. destruct (who k) eqn:W.
    - destruct G as (n & i & r & Em & D). destruct h; cbn in Em;
        [injection Em as <- <- <-; destruct D as [_ D]; unfold nothing in D; injection D as D1 D2 D3 D4; auto ..|].
      destruct (mains n0 a) as [m|]; [|discriminate Em]. injection Em as <- <- <-. eauto.
    - destruct G as (n & b & E & D). exact (PB _ _ _ _ E D).
    - intros n ->. destruct G as (n' & i & r & Em & D). cbn in Em. destruct (mains n a) as [m|]; [|discriminate Em]. injection Em as <- <- <-. eauto.
    - destruct G as (n & b & E & D). exact (PB _ _ _ _ E D).
    - exact G.
    - exact (proj1 G).
    - destruct G as (n & b & E & D). cbn in E. destruct (mi_last (sets u a)) as [l|]; [|discriminate E]. injection E as <- <-. eauto.
  Qed.
  (** A request that is not found is answered with 404, whatever was in the response, and calls nobody. *)
  Theorem C158_not_found : forall st w, (forall x a, find st w <> (TFound x, a)) ->
    pg_stages (request st w) = [] /\ p_status (w_resp (pg_wire (request st w))) = 404%Z /\
    p_body (w_resp (pg_wire (request st w))) = B"not found" /\
    (forall k v, aget k (p_hdr (w_resp (pg_wire (request st w)))) = Some v <-> k = B"Content-Type" /\ v = B"text/plain; charset=utf-8") /\
    pg_result (request st w) = M_Pipeline.RRet (M_Pipeline.new_err (B"path '" ++ w_path w ++ B"' not found")).
  Proof.
    intros st w N. unfold site_request. destruct (find st w) as [[x| | |] a] eqn:F; [exfalso; exact (N x a eq_refl)| | |];
      (split; [reflexivity|]; split; [reflexivity|]; split; [reflexivity|]; split; [|reflexivity]; intros k v;
       change (p_hdr (w_resp (pg_wire (run_http None (st_ses st) (st_level st) sched w)))) with [(B"Content-Type", B"text/plain; charset=utf-8")]; cbn [aget];
       destruct (beq k (B"Content-Type")) eqn:E;
       [apply beq_eq in E; subst k; split; [intros X; injection X as <-; auto|intros [_ ->]; reflexivity]
       |split; [discriminate|intros [-> _]; rewrite beq_refl in E; discriminate E]]).
  Qed.

  Definition static (h : handler) : Prop := forall n, h <> HUser n.
  Lemma static_main u h a : static h -> ss_main (sset_of (u, h) a) = Some (static_name h, nothing, static_code h).
  Proof. intros N. destruct h; try reflexivity. exfalso. exact (N n eq_refl). Qed.
  Lemma no_files u h a ses k : genuine (sset_of (u, h) a) ses k -> (static h -> who k <> M_Pipeline.WMain) -> g_files k = [].
  Proof.
    intros G N. unfold genuine in G.
    assert (P : forall name f, did k name (plain f) -> g_files k = []).
    { intros name f [_ D]. unfold plain in D. destruct (f (M_Pipeline.k_seen (g_call k)) (g_in k)) as [w' b]. congruence. }
    assert (PB : forall (l : list uhandler) j n b, nth_error (map (fun k => (u_name k, plain (u_run k))) l) j = Some (n, b) -> did k n b -> g_files k = []).
    { intros l j n b E D. apply nth_error_In, in_map_iff in E as (h' & E & _). injection E as <- <-. exact (P _ _ D). }
    assert (St : static h \/ exists n, h = HUser n) by (destruct h; [left; intros ? X; discriminate X ..|right; eauto]).
    destruct (who k) eqn:W.
    - destruct G as (n & i & r & Em & D). destruct St as [St|[m ->]].
      + rewrite (static_main u h a St) in Em. injection Em as <- <- <-. destruct D as [_ D]. unfold nothing in D. congruence.
      + cbn in Em. destruct (mains m a); [|discriminate]. injection Em as <- <- <-. exact (P _ _ D).
    - destruct G as (n & b & E & D). exact (PB _ _ _ _ E D).
    - destruct G as (n & i & r & Em & D). destruct St as [St|[m ->]]; [exfalso; exact (N St eq_refl)|].
      cbn in Em. destruct (mains m a); [|discriminate]. injection Em as <- <- <-. exact (P _ _ D).
    - destruct G as (n & b & E & D). exact (PB _ _ _ _ E D).
    - destruct G as (f & _ & D). exact (P _ _ D).
    - exact (proj2 G).
    - destruct G as (n & b & E & D). cbn in E. destruct (mi_last (sets u a)); [|discriminate]. injection E as <- <-. exact (P _ _ D).
  Qed.
  (** Only a static handler opens files. *)
  Theorem C158_files : forall st w u h a, find st w = (TFound (u, h), a) -> forall k, In k (pg_stages (request st w)) ->
    g_files k <> [] -> static h /\ who k = M_Pipeline.WMain.
  Proof.
    intros st w u h a F k Hk Nf. destruct (request_facts st w _ a F) as (_ & G & _). rewrite Forall_forall in G. specialize (G k Hk).
    assert (St : static h \/ exists n, h = HUser n) by (destruct h; [left; intros ? X; discriminate X ..|right; eauto]).
    destruct St as [St|[n ->]].
    - split; [exact St|]. destruct (who k) eqn:W; try reflexivity; exfalso; apply Nf, (no_files _ _ _ _ _ G); intros _; rewrite W; discriminate.
    - exfalso. apply Nf, (no_files _ _ _ _ _ G). intros X. exfalso. exact (X n eq_refl).
  Qed.
  (** A handler before it that fails, or calls SkipMain, Stop or Abort, keeps the static handler from running: no file is opened. *)
  Theorem C158_barred : forall st w u h a, find st w = (TFound (u, h), a) -> forall k, In k (pg_stages (request st w)) ->
    beforehand (who k) -> bars (g_call k) ->
    forall k', In k' (pg_stages (request st w)) -> who k' <> M_Pipeline.WMain /\ g_files k' = [].
  Proof.
    intros st w u h a F k Hk Hb Bk k' Hk'. destruct (request_facts st w _ a F) as (_ & G & hh & hses & _ & _ & E).
    assert (N : ~ In M_Pipeline.WMain (S_Pipeline.whos (map g_call (pg_stages (request st w))))).
    { pose proof (http_guard hh hses (w_path w) (st_level st) sched (g_call k)) as X. rewrite E in X. cbn [M_Pipeline.x_calls] in X.
      apply X; [apply in_map; exact Hk|exact Hb|exact Bk]. }
    assert (W : who k' <> M_Pipeline.WMain).
    { intros X. apply N. unfold S_Pipeline.whos. rewrite map_map. apply in_map_iff. exists k'. split; [exact X|exact Hk']. }
    split; [exact W|]. rewrite Forall_forall in G. apply (no_files u h a (st_ses st)); [exact (G k' Hk')|intros _; exact W].
  Qed.
  (** If they all let the request pass, the static handler is called. *)
  Theorem C158_reached : forall st w u h a, find st w = (TFound (u, h), a) -> static h ->
    (forall k, In k (pg_stages (request st w)) -> beforehand (who k) -> lets_on (g_call k)) ->
    exists k, In k (pg_stages (request st w)) /\ who k = M_Pipeline.WMain.
  Proof.
    intros st w u h a F Sh L. destruct (request_facts st w _ a F) as (_ & G & hh & hses & (_ & _ & _ & Sm) & _ & E).
    pose proof (http_reached hh hses (w_path w) (st_level st) sched) as X. rewrite E in X. cbn [M_Pipeline.x_calls] in X.
    assert (M : In M_Pipeline.WMain (S_Pipeline.whos (map g_call (pg_stages (request st w))))).
    { apply X.
      - rewrite (static_main u h a Sh) in Sm. destruct (M_Pipeline.hs_main hh); [discriminate|discriminate Sm].
      - intros k Hk Hb. apply in_map_iff in Hk as (k1 & <- & Hk). apply L; assumption. }
    unfold S_Pipeline.whos in M. rewrite map_map in M. apply in_map_iff in M as (k & W & Hk). exists k. auto.
  Qed.

  Lemma static_stage st w u h a k o path' : find st w = (TFound (u, h), a) -> In k (pg_stages (request st w)) -> who k = M_Pipeline.WMain ->
    handler_run h (w_req (g_in k)) (w_path (g_in k)) (w_resp (g_in k)) = Some (o, path') ->
    main_did k o /\ w_path (g_out k) = path'.
  Proof.
    intros F Hk W E. destruct (request_facts st w _ a F) as (_ & G & _). rewrite Forall_forall in G. specialize (G k Hk). unfold genuine in G. rewrite W in G.
    assert (Sh : static h) by (intros n ->; discriminate E).
    destruct G as (n & i & r & Em & D). rewrite (static_main u h a Sh) in Em. injection Em as <- <- <-. destruct D as [_ D].
    unfold M_Site.static_code in D. rewrite E in D. destruct o as [[[r e] files]|].
    - injection D as D1 D2 D3 D4. unfold main_did. rewrite <- D1, <- D2, <- D3, <- D4. cbn [w_req w_resp w_path].
      split; [|reflexivity]. split; [reflexivity|]. split; [reflexivity|]. split; [reflexivity|]. split; [reflexivity|]. eexists. split; [reflexivity|].
      destruct e; (split; intros X; first [reflexivity|discriminate X]).
    - injection D as D1 D2 D3 D4. unfold main_did. rewrite <- D1, <- D2, <- D3, <- D4. cbn [w_req w_resp w_path].
      split; [|reflexivity]. split; [reflexivity|]. split; [reflexivity|]. split; reflexivity.
  Qed.
  Lemma around st w u h a P : find st w = (TFound (u, h), a) ->
    (forall p, exists o path', handler_run h (w_req w) (w_path w) p = Some (o, path') /\ P p o) -> around_static w P (request st w).
  Proof.
    intros F H. destruct (request_facts st w _ a F) as (C & G & _). split; [exact C|]. split.
    - intros k Hk W. rewrite Forall_forall in G. apply (no_files u h a (st_ses st)); [exact (G k Hk)|intros _; exact W].
    - intros k Hk W Eq Ep. destruct (H (w_resp (g_in k))) as (o & path' & E & HP). exists o. split; [exact HP|].
      rewrite <- Eq, <- Ep in E. exact (proj1 (static_stage st w u h a k o path' F Hk W E)).
  Qed.

  (** The response of a mount (C144) among the handlers of its set. *)
  Theorem C158_directory_mount : forall st os1 os2 file up hsets w rest r0 d u,
    let url := "/"%char :: up in
    let o := OStaticFile file url hsets in
    length b1 = length b2 ->
    any_order order -> setup other dir_fs fresh_set new_srv (os1 ++ o :: os2) = Ok (st_srv st) -> Forall proper (os1 ++ o :: os2) ->
    chosen fresh_set hsets url = Some u -> dotted_url url ->
    (forall o', In o' (os1 ++ os2) -> ~ claims other o' (q_method (w_req w)) (w_path w)) ->
    In (q_method (w_req w)) [B"GET"; B"HEAD"] -> dot_match url (w_path w) ("/"%char :: r0) ->
    remainder up (w_path w) rest -> decodes rest d ->
    (exists h, find st w = (TFound (u, h), []) /\ static h) /\
    around_static w (complete (dir_fs file) (name_of (walk [] (split "/" d))) (final d) (w_req w)) (request st w).
  Proof.
    intros st os1 os2 file up hsets w rest r0 d u url o Lb Ho Hs Hw Hu Hd Hno Hm Hdm Hr Hdec.
    destruct (C137_dotted_mount U other dir_fs fresh_set order os1 os2 o url (st_srv st) (q_method (w_req w)) (w_path w) [] (u, file_handler dir_fs file url)) as [Hf _]; try assumption.
    { reflexivity. }
    { unfold o. cbn [S_Mount.set_of]. rewrite Hu. reflexivity. }
    specialize (Hf (conj Hm (ex_intro _ r0 Hdm))). split; [exists (file_handler dir_fs file url); split; [exact Hf|intros n X; discriminate X]|].
    apply (around st w u (file_handler dir_fs file url) []); [exact Hf|]. intros p.
    destruct (C144_directory_mount other dir_fs fresh_set time_parse fmt_time mime_type b1 b2 url_string order os1 os2 file up hsets (st_srv st) (w_req w) (w_path w) p rest r0 d u
      Lb Ho Hs Hw Hu Hd Hno Hm Hdm Hr Hdec []) as (u' & h' & x & y & Hf' & E & K).
    rewrite Hf' in Hf. injection Hf as -> ->. exists x, y. auto.
  Qed.
  Theorem C158_embedded_mount : forall st os1 os2 file fsys up hsets w target rest r0 d df l u,
    let url := "/"%char :: up in
    let o := OStaticFileFS file url fsys hsets in
    w_path w = normalize_path target ->
    length b1 = length b2 ->
    any_order order -> setup other dir_fs fresh_set new_srv (os1 ++ o :: os2) = Ok (st_srv st) -> Forall proper (os1 ++ o :: os2) ->
    chosen fresh_set hsets url = Some u -> dotted_url url ->
    (forall o', In o' (os1 ++ os2) -> ~ claims other o' (q_method (w_req w)) (w_path w)) ->
    In (q_method (w_req w)) [B"GET"; B"HEAD"] -> dot_match url (w_path w) ("/"%char :: r0) ->
    remainder up (w_path w) rest -> ~ In (B"..") (split "/" file) ->
    decodes rest d -> decodes file df -> decodes (last (plain_elems file ++ plain_elems rest) []) l ->
    (exists h, find st w = (TFound (u, h), []) /\ static h) /\
    around_static w (complete fsys (name_of (walk (walk [] (split "/" df)) (split "/" d))) (final l) (w_req w)) (request st w).
  Proof.
    intros st os1 os2 file fsys up hsets w target rest r0 d df l u url o Hp Lb Ho Hs Hw Hu Hd Hno Hm Hdm Hr Ndf Hdec Hdf Hl.
    destruct (C137_dotted_mount U other dir_fs fresh_set order os1 os2 o url (st_srv st) (q_method (w_req w)) (w_path w) [] (u, embed_handler file url fsys)) as [Hf _]; try assumption.
    { reflexivity. }
    { unfold o. cbn [S_Mount.set_of]. rewrite Hu. reflexivity. }
    specialize (Hf (conj Hm (ex_intro _ r0 Hdm))). split; [exists (embed_handler file url fsys); split; [exact Hf|intros n X; discriminate X]|].
    apply (around st w u (embed_handler file url fsys) []); [exact Hf|]. intros p.
    rewrite Hp in Hno, Hdm, Hr, Hf |- *.
    destruct (C144_embedded_mount other dir_fs fresh_set time_parse fmt_time mime_type b1 b2 url_string order os1 os2 file fsys up hsets (st_srv st) (w_req w) target p rest r0 d df l u
      Lb Ho Hs Hw Hu Hd Hno Hm Hdm Hr Ndf Hdec Hdf Hl []) as (u' & h' & x & y & Hf' & E & K).
    rewrite Hf' in Hf. injection Hf as -> ->. exists x, y. auto.
  Qed.
  Theorem C158_fixed_file : forall st os1 os2 file url fsys hsets w df u,
    let o := OFixStaticFileFS file url fsys hsets in
    length b1 = length b2 ->
    setup other dir_fs fresh_set new_srv (os1 ++ o :: os2) = Ok (st_srv st) -> Forall proper (os1 ++ o :: os2) ->
    chosen fresh_set hsets url = Some u -> In (q_method (w_req w)) [B"GET"; B"POST"] ->
    fits (pattern_of url) (segments (w_path w)) -> Forall (stays_clear (w_path w)) (os1 ++ os2) -> decodes file df ->
    (exists h, find st w = (TFound (u, h), bindings (pattern_of url) (segments (w_path w))) /\ static h) /\
    around_static w (complete fsys (name_of (walk [] (split "/" df))) (final df) (w_req w)) (request st w).
  Proof.
    intros st os1 os2 file url fsys hsets w df u o Lb Hs Hw Hu Hm Hfit Hc Hdf.
    pose proof (C100_fixed_file_partial other dir_fs fresh_set order os1 os2 file url fsys hsets (st_srv st) (q_method (w_req w)) (w_path w) [] u Hs Hw Hu Hm Hfit Hc) as Hf.
    split; [eexists; split; [exact Hf|intros n X; discriminate X]|].
    eapply around; [exact Hf|]. intros p.
    destruct (C144_fixed_file other dir_fs fresh_set time_parse fmt_time mime_type b1 b2 url_string order os1 os2 file url fsys hsets (st_srv st) (w_req w) (w_path w) p [] df u
      Lb Hs Hw Hu Hm Hfit Hc Hdf) as (h' & x & y & Hf' & E & K).
    rewrite Hf' in Hf. injection Hf as ->. exists x, y. auto.
  Qed.
  (** The handlers after the static one find the request path as it was before it, unless it has escapes left (C135). *)
  Theorem C158_path_restored : forall st w u h a k target, find st w = (TFound (u, h), a) -> static h ->
    In k (pg_stages (request st w)) -> who k = M_Pipeline.WMain -> w_path (g_in k) = normalize_path target -> no_escape (normalize_path target) ->
    w_path (g_out k) = w_path (g_in k) /\ w_req (g_out k) = w_req (g_in k).
  Proof.
    intros st w u h a k target F Sh Hk W Ep Ne.
    assert (E : exists o, handler_run h (w_req (g_in k)) (w_path (g_in k)) (w_resp (g_in k)) = Some (o, w_path (g_in k))).
    { rewrite Ep. destruct h as [fsys up|fsys fp up|fsys fp|n]; cbn [M_Mount.handler_run]; [| | |exfalso; exact (Sh n eq_refl)].
      - destruct (C60_path_restored_partial time_parse fmt_time mime_type b1 b2 url_string fsys (w_req (g_in k)) target (w_resp (g_in k)) [] up Ne) as (X & _ & _).
        destruct (static_file_run time_parse fmt_time mime_type b1 b2 url_string fsys up (w_req (g_in k)) (normalize_path target) (w_resp (g_in k))) as [o y]. cbn [snd] in X. subst y. eauto.
      - destruct (C60_path_restored_partial time_parse fmt_time mime_type b1 b2 url_string fsys (w_req (g_in k)) target (w_resp (g_in k)) fp up Ne) as (_ & X & _).
        destruct (static_embed_run time_parse fmt_time mime_type b1 b2 url_string fsys fp up (w_req (g_in k)) (normalize_path target) (w_resp (g_in k))) as [o y]. cbn [snd] in X. subst y. eauto.
      - destruct (C60_path_restored_partial time_parse fmt_time mime_type b1 b2 url_string fsys (w_req (g_in k)) target (w_resp (g_in k)) fp [] Ne) as (_ & _ & X).
        destruct (static_fix_run time_parse fmt_time mime_type b1 b2 url_string fsys fp (w_req (g_in k)) (normalize_path target) (w_resp (g_in k))) as [o y]. cbn [snd] in X. subst y. eauto. }
    destruct E as [o E]. destruct (static_stage st w u h a k o _ F Hk W E) as [(_ & D & _) X]. auto.
  Qed.

  (** ** C159: authentication in front of all of it *)
  (** the credentials BaseAuth accepts (C35) *)
  Definition accepted (h : M_Auth.base_auth) (w : wire) : Prop :=
    exists user pw, S_Auth.carries (hpeek (q_hdr (w_req w)) (B"Authorization")) user pw /\ to_lower uni user <> [] /\
      (aget (to_lower uni user) (M_Auth.a_roles h) = Some (S_Auth.upto_colon pw) \/
       (aget (to_lower uni user) (M_Auth.a_roles h) = None /\ S_Auth.upto_colon pw = [])).
  (** [asked h w]: authentication is on and the access function says this request needs it *)
  Definition asked (h : M_Auth.base_auth) (w : wire) : Prop :=
    M_Auth.a_use h = true /\ exists f, M_Auth.a_access h = Some f /\
      f (M_Auth.Request (q_method (w_req w)) (w_path w) (hpeek (q_hdr (w_req w)) (B"Authorization"))) = Ok true.
  Definition not_asked (h : M_Auth.base_auth) (w : wire) : Prop :=
    M_Auth.a_use h = false \/ exists f, M_Auth.a_access h = Some f /\
      f (M_Auth.Request (q_method (w_req w)) (w_path w) (hpeek (q_hdr (w_req w)) (B"Authorization"))) = Ok false.
  Theorem C159_refused : forall st h w, st_auth st = Some h -> S_Auth.log_ok h -> asked h w -> ~ accepted h w ->
    let pg := serve st w in
    pg_stages pg = [] /\ w_req (pg_wire pg) = w_req w /\ w_path (pg_wire pg) = w_path w /\
    p_status (w_resp (pg_wire pg)) = 401%Z /\ p_body (w_resp (pg_wire pg)) = p_body (w_resp w) /\
    (forall k, aget k (p_hdr (w_resp (pg_wire pg))) = if beq k (B"WWW-Authenticate") then Some (M_Auth.a_header h) else aget k (p_hdr (w_resp w))).
  Proof.
    intros st h w Ha L (Us & f & Hf & Hr) N. cbv zeta. unfold site_serve. rewrite Ha, Us, Hf. unfold auth_request. rewrite Hr.
    assert (C : snd (M_Auth.check uni h (M_Auth.Request (q_method (w_req w)) (w_path w) (hpeek (q_hdr (w_req w)) (B"Authorization")))) = Ok false).
    { pose proof (Props_Auth.C35_admitted_iff uni h (M_Auth.Request (q_method (w_req w)) (w_path w) (hpeek (q_hdr (w_req w)) (B"Authorization"))) Us L) as A.
      unfold S_Auth.admitted in A. rewrite (P_Auth.check_eq uni h _ Us L) in A |- *. match goal with |- Ok ?b = _ => destruct b end; [exfalso; apply N, A; reflexivity|reflexivity]. }
    rewrite C. cbn [pg_stages pg_wire w_req w_path w_resp refusal M_Cond.hset set_status p_status p_body p_hdr].
    split; [reflexivity|]. split; [reflexivity|]. split; [reflexivity|]. split; [reflexivity|]. split; [reflexivity|]. intros k. apply aget_aput.
  Qed.
  Theorem C159_admitted : forall st h w, st_auth st = Some h -> S_Auth.log_ok h -> not_asked h w \/ asked h w /\ accepted h w ->
    serve st w = request st w.
  Proof.
    intros st h w Ha L H. unfold site_serve. rewrite Ha. unfold auth_request. destruct H as [[Us|(f & Hf & Hr)]|[(Us & f & Hf & Hr) A]].
    - rewrite Us. reflexivity.
    - destruct (M_Auth.a_use h); [|reflexivity]. rewrite Hf, Hr. reflexivity.
    - rewrite Us, Hf, Hr.
      apply (Props_Auth.C35_admitted_iff uni h (M_Auth.Request (q_method (w_req w)) (w_path w) (hpeek (q_hdr (w_req w)) (B"Authorization"))) Us L) in A.
      unfold S_Auth.admitted in A. rewrite A. reflexivity.
  Qed.
  (** In the remaining cases it panics before anything is called or written: without an authentication object, with
      authentication on and no access function or one that panics, or if the check has to be logged without a logger. *)
  Theorem C159_panics : forall st w,
    st_auth st = None \/
    (exists h, st_auth st = Some h /\ M_Auth.a_use h = true /\
       (M_Auth.a_access h = None \/
        (exists f, M_Auth.a_access h = Some f /\ f (M_Auth.Request (q_method (w_req w)) (w_path w) (hpeek (q_hdr (w_req w)) (B"Authorization"))) = Panic) \/
        (asked h w /\ ~ S_Auth.log_ok h))) ->
    pg_stages (serve st w) = [] /\ pg_wire (serve st w) = w /\ pg_result (serve st w) = M_Pipeline.RPanic.
  Proof.
    intros st w H. unfold site_serve. destruct H as [->|(h & -> & Us & H)]; [auto|]. rewrite Us. unfold auth_request.
    destruct H as [->|[(f & -> & ->)|((_ & f & -> & ->) & L)]]; [auto ..|].
    unfold M_Auth.check. rewrite Us. cbn [negb]. destruct (M_Auth.get_user_password _) as [u pw].
    unfold S_Auth.log_ok in L. destruct (M_Auth.a_use_log h), (M_Auth.a_log_nil h); cbn [andb]; auto; exfalso; apply L; congruence.
  Qed.
  (** So a handler is called or a file opened for a request that needs credentials only if it has them. *)
  Theorem C159_only_with_credentials : forall st h w, st_auth st = Some h -> asked h w -> pg_stages (serve st w) <> [] -> accepted h w.
  Proof.
    intros st h w Ha (Us & f & Hf & Hr) N. unfold site_serve in N. rewrite Ha, Us, Hf in N. unfold auth_request in N. rewrite Hr in N.
    set (rq := M_Auth.Request (q_method (w_req w)) (w_path w) (hpeek (q_hdr (w_req w)) (B"Authorization"))) in *.
    destruct (snd (M_Auth.check uni h rq)) as [[]|] eqn:C; [|exfalso; apply N; reflexivity ..].
    assert (L : S_Auth.log_ok h) by exact (P_Auth.check_admit_log uni h rq Us C).
    apply (Props_Auth.C35_admitted_iff uni h rq Us L). exact C.
  Qed.
End Sites.
