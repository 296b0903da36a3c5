(** C45-C47, C59-C63: the file server. *)
From Verif Require Import Base GoStrings GoPath GoInt M_Range P_Range M_Cond M_Sniff M_Content
  S_Static P_GoPath M_Static Props_Cond Props_Sniff Props_Content.
From Coq Require Import ZifyNat ZifyN.

Lemma has_prefix_inv s p : has_prefix s p = true -> exists t, s = p ++ t.
Proof.
  unfold has_prefix. destruct (strip_prefix p s) as [t|] eqn:E; [|discriminate]. intros _. exists t.
  apply strip_prefix_inv. exact E.
Qed.
Lemma strip_prefix_app (p t : bytes) : strip_prefix p (p ++ t) = Some t.
Proof. induction p as [|c p IH]; cbn [app strip_prefix]; [reflexivity|]. rewrite Ascii.eqb_refl. exact IH. Qed.
Lemma has_prefix_rooted s : has_prefix s (B"/") = is_rooted s.
Proof.
  unfold has_prefix. destruct s as [|c s]; [reflexivity|]. change (B"/") with ["/"%char]. cbn [strip_prefix is_rooted].
  rewrite (Ascii.eqb_sym "/" c). destruct (Ascii.eqb c "/"); reflexivity.
Qed.

Section Static.
  Variable time_parse : bytes -> bytes -> option gtime.
  Variable fmt_time : gtime -> bytes.
  Variable mime_type : bytes -> bytes.
  Variables b1 b2 : bytes.
  Variable url_string : bytes -> bytes.
  Notation serve_http := (serve_http time_parse fmt_time mime_type b1 b2 url_string).
  Notation serve_file := (serve_file time_parse fmt_time mime_type b1 b2 url_string).
  Notation serve_content := (serve_content time_parse fmt_time mime_type b1 b2).

  (** without listings, serveFile opens its name and nothing else, or nothing *)
  Lemma serve_file_calls q path p open name r e calls :
    serve_file q path p open name false false = Some (r, e, calls) ->
    calls = [] \/ calls = snd (open name).
  Proof.
    unfold M_Static.serve_file. destruct (has_suffix path (B"/index.html")).
    { intros H. injection H as _ _ <-. left. reflexivity. }
    destruct (open name) as [o cs]. cbn [snd negb andb]. intros H. right.
    destruct o as [file|e0].
    2:{ destruct (to_http_error e0). injection H as _ _ <-. reflexivity. }
    destruct (g_stat file) as [info|e0].
    2:{ destruct (to_http_error e0). injection H as _ _ <-. reflexivity. }
    destruct (fi_dir info).
    { destruct (to_http_error err_permission). injection H as _ _ <-. reflexivity. }
    destruct (serve_content _ _ _ _ _ _) as [[r0 e0]|]; [|discriminate]. injection H as _ _ <-. reflexivity.
  Qed.
  Lemma serve_http_name q path p root : exists es path',
    Forall good es /\ serve_http q path p root = (serve_file q path' p root ("/"%char :: join "/" es) false false, path').
  Proof.
    unfold M_Static.serve_http. rewrite has_prefix_rooted. destruct (is_rooted path) eqn:R.
    - destruct (clean_rooted path R) as [-> G]. eexists _, _. split; [exact G|reflexivity].
    - destruct (clean_rooted ("/"%char :: path) eq_refl) as [-> G]. eexists _, _. split; [exact G|reflexivity].
  Qed.

  (** ** C45: names passed to the mounted file system *)
  Lemma stat_names orig stat : forall (parts seen : list bytes), 
    (forall (pre : list bytes) (part : bytes) (post : list bytes), parts = pre ++ part :: post -> part <> [] -> valid_name (join "/" (seen ++ pre ++ [part]))) ->
    Forall (fun c => valid_name (call_name c)) (snd (map_open_loop orig stat seen parts)).
  Proof.
    induction parts as [|part parts IH]; intros seen H; cbn [map_open_loop]; [constructor|].
    assert (Hn : part <> [] -> valid_name (join "/" (seen ++ [part]))) by (intros N; apply (H [] part parts eq_refl N)).
    assert (Rec : Forall (fun c => valid_name (call_name c)) (snd (map_open_loop orig stat (seen ++ [part]) parts))).
    { apply IH. intros pre part' post -> N. rewrite <- app_assoc. apply (H (part :: pre) part' post eq_refl N). }
    cbv zeta. destruct (is_empty part) eqn:E; [exact Rec|]. apply is_empty_false in E. specialize (Hn E).
    match goal with |- context [stat ?n] => destruct (stat n) as [fi|e0] end; [|cbn [snd]; repeat constructor; exact Hn].
    destruct (fi_dir fi); [|cbn [snd]; repeat constructor; exact Hn].
    destruct (map_open_loop orig stat (seen ++ [part]) parts) as [e0 cs]. cbn [snd] in *. constructor; [exact Hn|exact Rec].
  Qed.
  Lemma name_of_parts es : Forall good es -> split "/" (name_of es) = match es with [] => [dot] | _ => es end.
  Proof.
    intros H. destruct es as [|e es]; [reflexivity|]. cbn [name_of]. apply split_join; [discriminate|apply goods_ns; exact H].
  Qed.
  Lemma map_open_names orig stat es : Forall good es ->
    Forall (fun c => valid_name (call_name c)) (snd (map_open_error orig (name_of es) stat)).
  Proof.
    intros H. unfold map_open_error. destruct (_ || _); [constructor|]. apply stat_names.
    intros pre part post E N. rewrite name_of_parts in E by exact H. cbn [app].
    destruct es as [|e es].
    - destruct pre as [|x pre]; [|destruct pre; discriminate]. cbn [app] in *. injection E as <- _.
      exists []. split; [constructor|reflexivity].
    - exists (pre ++ [part]). split.
      + rewrite E in H. apply Forall_app in H as [H1 H2]. inversion H2; subst. apply Forall_app. split; [exact H1|constructor; [assumption|constructor]].
      + destruct pre; reflexivity.
  Qed.
  Lemma iofs_open_name fsys es : Forall good es -> exists calls,
    snd (iofs_open fsys ("/"%char :: join "/" es)) = COpen (name_of es) :: calls /\
    calls = match io_open fsys (name_of es) with
            | inl _ => [] | inr e => snd (map_open_error e (name_of es) (io_stat fsys)) end.
  Proof.
    intros H. unfold iofs_open.
    assert (E : (if beq ("/"%char :: join "/" es) (B"/") then dot else trim_prefix ("/"%char :: join "/" es) (B"/")) = name_of es).
    { destruct es as [|e es]; [reflexivity|]. 
      assert (N : join "/" (e :: es) <> []) by (intros X; apply join_nil in X; [discriminate|exact H]).
      destruct (beq_spec ("/"%char :: join "/" (e :: es)) (B"/")) as [X|_].
      { change (B"/") with ["/"%char] in X. injection X as X. contradiction. }
      unfold trim_prefix. change (B"/") with ["/"%char]. cbn [strip_prefix]. rewrite Ascii.eqb_refl. reflexivity. }
    rewrite E. destruct (io_open fsys (name_of es)) as [f|e].
    - exists []. split; reflexivity.
    - destruct (map_open_error e (name_of es) (io_stat fsys)) as [e' cs]. exists cs. split; reflexivity.
  Qed.
  Theorem C45_names_valid : forall fsys q path p r e calls path',
    serve_http q path p (iofs_open fsys) = (Some (r, e, calls), path') ->
    Forall (fun c => valid_name (call_name c)) calls.
  Proof.
    intros fsys q path p r e calls path' H.
    destruct (serve_http_name q path p (iofs_open fsys)) as (es & path2 & G & E). rewrite E in H.
    injection H as H _. apply serve_file_calls in H. destruct H as [->| ->]; [constructor|].
    destruct (iofs_open_name fsys es G) as (cs & -> & Ecs). constructor; [exists es; split; [exact G|reflexivity]|].
    subst cs. destruct (io_open fsys (name_of es)); [constructor|]. apply map_open_names. exact G.
  Qed.
  (** the three handlers go through the same file server *)
  Theorem C45_handlers : forall fsys q path p fp up r e calls,
    fst (static_file_run time_parse fmt_time mime_type b1 b2 url_string fsys up q path p) = Some (r, e, calls) \/
    fst (static_embed_run time_parse fmt_time mime_type b1 b2 url_string fsys fp up q path p) = Some (r, e, calls) \/
    fst (static_fix_run time_parse fmt_time mime_type b1 b2 url_string fsys fp q path p) = Some (r, e, calls) ->
    Forall (fun c => valid_name (call_name c)) calls.
  Proof.
    intros fsys q path p fp up r e calls H. unfold static_file_run, static_embed_run, static_fix_run in H.
    destruct H as [H|[H|H]];
      match type of H with fst (let '(_, _) := ?x in _) = _ => destruct x as [o path2] eqn:E end; cbn [fst] in H; subst o;
      exact (C45_names_valid _ _ _ _ _ _ _ _ E).
  Qed.

  (** ** C47: no listings *)
  Lemma has_suffix_iff s (t : bytes) : has_suffix s t = true <-> exists a, s = a ++ t.
  Proof.
    unfold has_suffix. split.
    - intros H. apply has_prefix_inv in H as (u & E). exists (rev u).
      rewrite <- (rev_involutive s), E, rev_app_distr, rev_involutive. reflexivity.
    - intros (a & ->). rewrite rev_app_distr. unfold has_prefix. rewrite strip_prefix_app. reflexivity.
  Qed.
  Lemma normalize_rooted src : is_rooted (normalize_path src) = true.
  Proof. destruct (normalize_shape src) as (es & l & _ & _ & _ & ->). reflexivity. Qed.
  (** the request path is what fasthttp makes of any request target *)
  Theorem C47_directory_forbidden : forall q target p root f info,
    let path := normalize_path target in
    ~ (exists a, path = a ++ B"/index.html") ->
    fst (root (path_clean path)) = inl f -> g_stat f = inl info -> fi_dir info = true ->
    exists r calls, fst (serve_http q path p root) = Some (r, FNil, calls) /\
      p_status r = 403%Z /\ p_body r = p_body p ++ B"403 Forbidden".
  Proof.
    intros q target p root f info path Hs Ho Hst Hd. unfold M_Static.serve_http. rewrite has_prefix_rooted.
    unfold path at 1. rewrite normalize_rooted. cbn [fst]. unfold M_Static.serve_file.
    assert (Hs' : has_suffix path (B"/index.html") = false).
    { destruct (has_suffix path (B"/index.html")) eqn:X; [|reflexivity]. apply has_suffix_iff in X. contradiction. }
    rewrite Hs'. destruct (root (path_clean path)) as [o cs]. cbn [fst] in Ho. subst o.
    rewrite Hst, Hd. cbn [negb andb]. eexists _, _. split; [reflexivity|]. split; reflexivity.
  Qed.
  (** nothing in the answer depends on the entries of any directory: file systems that differ
      only there are answered alike *)
  Definition same_but_entries (f g : gofile) : Prop := g_stat f = g_stat g /\ g_content f = g_content g.
  Definition indistinct (o1 o2 : fsystem) : Prop := forall n,
    snd (o1 n) = snd (o2 n) /\
    match fst (o1 n), fst (o2 n) with
    | inl f, inl g => same_but_entries f g
    | inr e, inr e' => e = e'
    | _, _ => False
    end.
  Lemma serve_file_indistinct q path p o1 o2 name : indistinct o1 o2 ->
    serve_file q path p o1 name false false = serve_file q path p o2 name false false.
  Proof.
    intros H. unfold M_Static.serve_file. destruct (has_suffix path (B"/index.html")); [reflexivity|].
    destruct (H name) as [Hc Hf]. destruct (o1 name) as [r1 c1], (o2 name) as [r2 c2]. cbn [fst snd] in *. subst c2.
    destruct r1 as [f|e], r2 as [g|e']; try contradiction; [|subst e'; reflexivity].
    destruct Hf as [Hs Hc]. rewrite Hs, Hc. destruct (g_stat g) as [info|]; [|reflexivity]. cbn [negb andb].
    destruct (fi_dir info); reflexivity.
  Qed.
  Theorem C47_listing_independent : forall q path p o1 o2, indistinct o1 o2 ->
    serve_http q path p o1 = serve_http q path p o2.
  Proof.
    intros q path p o1 o2 H. destruct (serve_http_name q path p o1) as (es & p' & G & E).
    unfold M_Static.serve_http. destruct (if has_prefix path (B"/") then _ else _) as [u pp].
    rewrite (serve_file_indistinct q pp p o1 o2 _ H). reflexivity.
  Qed.
  Theorem C47_serve_file_independent : forall os1 os2 q path p name,
    (forall d, indistinct (dir_open os1 d) (dir_open os2 d)) ->
    serve_file_name time_parse fmt_time mime_type b1 b2 url_string os1 q path p name =
    serve_file_name time_parse fmt_time mime_type b1 b2 url_string os2 q path p name.
  Proof.
    intros os1 os2 q path p name H. unfold serve_file_name. destruct (contains_dotdot path); [reflexivity|].
    destruct (filepath_split name) as [d f]. apply serve_file_indistinct, H.
  Qed.

  (** ** C60: the request path afterwards *)
  Definition C60_claim : Prop := forall fsys q target p fp up,
    let path := normalize_path target in
    snd (static_file_run time_parse fmt_time mime_type b1 b2 url_string fsys up q path p) = path /\
    snd (static_embed_run time_parse fmt_time mime_type b1 b2 url_string fsys fp up q path p) = path /\
    snd (static_fix_run time_parse fmt_time mime_type b1 b2 url_string fsys fp q path p) = path.
  Lemma path_after fsys q path p fp up :
    snd (static_file_run time_parse fmt_time mime_type b1 b2 url_string fsys up q path p) = set_path path /\
    snd (static_embed_run time_parse fmt_time mime_type b1 b2 url_string fsys fp up q path p) = set_path path /\
    snd (static_fix_run time_parse fmt_time mime_type b1 b2 url_string fsys fp q path p) = set_path path.
  Proof.
    unfold static_file_run, static_embed_run, static_fix_run.
    repeat match goal with |- context [let '(_, _) := ?x in _] => destruct x end. auto.
  Qed.
  Theorem C60_path_restored_refuted : ~ C60_claim.
  Proof.
    intros H. destruct (H (IoFs (fun _ => inr err_not_exist) (fun _ => inr err_not_exist)) (SReq [] [] []) (B"/a%2525") (SResp 200 [] []) [] []) as [X _].
    rewrite (proj1 (path_after _ _ _ _ [] _)) in X. vm_compute in X. discriminate.
  Qed.
  (** Proved: restored if the (decoded) request path contains no percent sign followed by two
      hexadecimal digits.  Missing: such paths are decoded a second time. *)
  Theorem C60_path_restored_partial : forall fsys q target p fp up,
    let path := normalize_path target in
    no_escape path ->
    snd (static_file_run time_parse fmt_time mime_type b1 b2 url_string fsys up q path p) = path /\
    snd (static_embed_run time_parse fmt_time mime_type b1 b2 url_string fsys fp up q path p) = path /\
    snd (static_fix_run time_parse fmt_time mime_type b1 b2 url_string fsys fp q path p) = path.
  Proof.
    intros fsys q target p fp up path Ne.
    assert (E : set_path path = path).
    { unfold set_path. unfold path in *. destruct (normalize_shape target) as (es & l & G & N & Nd & E). rewrite E in *.
      apply normalize_fix; assumption. }
    destruct (path_after fsys q path p fp up) as (-> & -> & ->). rewrite E. auto.
  Qed.

  (** ** C46: an embedded mount *)
  (** the route of StaticFileFS matches paths starting with the mount point and a slash *)
  Definition C46_claim : Prop := forall fsys q target p fp up r e calls n,
    let path := normalize_path target in
    Forall good (split "/" fp) ->
    (exists rest, path = "/"%char :: up ++ "/"%char :: rest) ->
    fst (static_embed_run time_parse fmt_time mime_type b1 b2 url_string fsys fp up q path p) = Some (r, e, calls) ->
    In (COpen n) calls ->
    exists below, Forall good below /\ n = name_of (split "/" fp ++ below).
  Theorem C46_mount_refuted : ~ C46_claim.
  Proof.
    intros H.
    edestruct (H (IoFs (fun _ => inr err_not_exist) (fun _ => inr err_not_exist)) (SReq (B"GET") [] [])
                 (B"/static/%252e%252e/secret") (SResp 200 [] []) (B"files") (B"static")) as (below & _ & E).
    - repeat constructor; try discriminate. intros X. vm_compute in X. intuition discriminate.
    - exists (B"%2e%2e/secret"). reflexivity.
    - vm_compute. reflexivity.
    - left. reflexivity.
    - destruct below; vm_compute in E; discriminate.
  Qed.
  (** Proved: every name opened is the file path or below it, if neither the (decoded) request
      path nor the file path contains a percent sign followed by two hexadecimal digits and the
      file path has no ".." element.  Missing: such escapes are decoded a second time. *)
  Lemma map_open_stats orig stat : forall parts seen n, ~ In (COpen n) (snd (map_open_loop orig stat seen parts)).
  Proof.
    induction parts as [|part parts IH]; intros seen n; cbn [map_open_loop]; [intros []|]. cbv zeta.
    destruct (is_empty part); [apply IH|].
    match goal with |- context [stat ?x] => destruct (stat x) as [fi|e0] end; [|intros [X|[]]; discriminate].
    destruct (fi_dir fi); [|intros [X|[]]; discriminate].
    specialize (IH (seen ++ [part]) n). destruct (map_open_loop orig stat (seen ++ [part]) parts) as [e0 cs].
    cbn [snd] in *. intros [X|X]; [discriminate|contradiction].
  Qed.
  Lemma opened_only fsys es n : Forall good es -> In (COpen n) (snd (iofs_open fsys ("/"%char :: join "/" es))) -> n = name_of es.
  Proof.
    intros G H. destruct (iofs_open_name fsys es G) as (cs & E & Ecs). rewrite E in H. destruct H as [H|H].
    - injection H as <-. reflexivity.
    - exfalso. subst cs. destruct (io_open fsys (name_of es)) as [|e0]; [exact H|].
      unfold map_open_error in H. destruct (_ || _); [exact H|]. exact (map_open_stats _ _ _ _ _ H).
  Qed.
  (** what the file server opens for a path of proper elements *)
  Lemma http_opens fsys q es p r e calls path' n : Forall good es -> 
    serve_http q ("/"%char :: join "/" es) p (iofs_open fsys) = (Some (r, e, calls), path') ->
    In (COpen n) calls -> n = name_of es.
  Proof.
    intros G H I. unfold M_Static.serve_http in H. rewrite has_prefix_rooted in H. cbn [is_rooted] in H. rewrite Ascii.eqb_refl in H.
    rewrite clean_slash_name in H by exact G. injection H as H _. apply serve_file_calls in H.
    destruct H as [->| ->]; [contradiction|]. eapply opened_only; eassumption.
  Qed.
  Lemma http_opens_dot fsys q p r e calls path' n : 
    serve_http q (B"/.") p (iofs_open fsys) = (Some (r, e, calls), path') ->
    In (COpen n) calls -> n = dot.
  Proof.
    intros H I. unfold M_Static.serve_http in H. rewrite has_prefix_rooted in H. cbn [is_rooted] in H.
    change (Ascii.eqb "/" "/") with true in H. change (is_rooted (B"/.")) with true in H. cbv iota in H.
    change (path_clean (B"/.")) with ("/"%char :: join "/" []) in H.
    injection H as H _. apply serve_file_calls in H.
    destruct H as [->| ->]; [contradiction|]. exact (opened_only fsys [] n (Forall_nil _) I).
  Qed.
  Lemma set_clean_path s : ~ In dotdot (split "/" s) -> no_escape s -> s <> [] ->
    set_path (path_clean s) = "/"%char :: join "/" (plain_elems s) \/
    (plain_elems s = [] /\ set_path (path_clean s) = B"/.").
  Proof.
    intros Nd Ne Ns. unfold path_clean. rewrite clean_plain by exact Nd.
    fold (plain_elems s).
    assert (G : Forall good (plain_elems s)) by (apply filter_good; [apply split_ns|exact Nd]).
    assert (E : Forall no_escape (plain_elems s)).
    { apply Forall_forall. intros x Hx. apply filter_In in Hx as [Hx _].
      pose proof (no_escape_split s Ne) as F. rewrite Forall_forall in F. exact (F x Hx). }
    destruct (normalize_name (plain_elems s) G E) as [N1 N2]. unfold set_path.
    destruct (is_rooted s); [left; exact N1|]. destruct (plain_elems s) as [|x l] eqn:P.
    - right. split; reflexivity.
    - left. exact N2.
  Qed.
  Theorem C46_mount_partial : forall fsys q target p fp up r e calls n,
    let path := normalize_path target in
    no_escape path -> no_escape fp -> ~ In (B"..") (split "/" fp) ->
    (exists rest, path = "/"%char :: up ++ "/"%char :: rest) ->
    fst (static_embed_run time_parse fmt_time mime_type b1 b2 url_string fsys fp up q path p) = Some (r, e, calls) ->
    In (COpen n) calls ->
    exists below, Forall good below /\ n = name_of (plain_elems fp ++ below).
  Proof.
    intros fsys q target p fp up r e calls n path Ne Nf Nd (rest & Ep) H I.
    unfold static_embed_run in H.
    assert (Eu : trim_prefix (trim_prefix path (B"/")) up = "/"%char :: rest).
    { rewrite Ep. unfold trim_prefix at 2. change ("/"%char :: up ++ "/"%char :: rest) with (B"/" ++ (up ++ "/"%char :: rest)).
      rewrite strip_prefix_app. unfold trim_prefix. rewrite strip_prefix_app. reflexivity. }
    rewrite Eu in H.
    (* the elements of the rest *)
    assert (Nr : ~ In dotdot (split "/" rest)).
    { destruct (normalize_shape target) as (es & l & G & N & Nl & E). fold path in E. rewrite E in Ep.
      injection Ep as Ep. intros X.
      assert (Y : In dotdot (split "/" (up ++ "/"%char :: rest))) by (rewrite split_app_slash; apply in_or_app; right; exact X).
      rewrite <- Ep, with_slashes_join, split_join in Y.
      - apply in_app_or in Y as [Y|[Y|[]]]; [|congruence]. rewrite Forall_forall in G. destruct (G _ Y) as (_ & _ & Z & _). apply Z. reflexivity.
      - destruct es; discriminate.
      - apply Forall_app. split; [apply goods_ns; exact G|constructor; [exact N|constructor]]. }
    assert (Ner : no_escape ("/"%char :: rest)).
    { rewrite Ep in Ne. apply (no_escape_tail ("/"%char :: up)). exact Ne. }
    set (s := match fp with [] => "/"%char :: rest | _ => fp ++ "/"%char :: "/"%char :: rest end).
    assert (Ej : path_join fp ("/"%char :: rest) = path_clean s).
    { unfold path_join, s. destruct fp; reflexivity. }
    assert (Sp : plain_elems s = plain_elems fp ++ plain_elems rest).
    { unfold s. destruct fp as [|c fp'].
      - reflexivity.
      - unfold plain_elems. rewrite split_app_slash, filter_app. reflexivity. }
    assert (Sd : ~ In dotdot (split "/" s)).
    { unfold s. destruct fp as [|c fp'].
      - intros X. destruct X as [X|X]; [discriminate|contradiction].
      - rewrite split_app_slash. intros X. apply in_app_or in X as [X|[X|X]]; [contradiction|discriminate|contradiction]. }
    assert (Se : no_escape s).
    { unfold s. destruct fp as [|c fp']; [exact Ner|]. apply no_escape_slash; [exact Nf|exact Ner]. }
    assert (Sn : s <> []) by (unfold s; destruct fp; discriminate).
    rewrite Ej in H. destruct (serve_http q (set_path (path_clean s)) p (iofs_open fsys)) as [o path2] eqn:E. cbn [fst] in H. subst o.
    assert (Gs : Forall good (plain_elems s)) by (apply filter_good; [apply split_ns|exact Sd]).
    rewrite Sp in *. apply Forall_app in Gs as Gs2. destruct Gs2 as [_ Gr].
    exists (plain_elems rest). split; [exact Gr|].
    destruct (set_clean_path s Sd Se Sn) as [X|[X1 X]]; rewrite X in E.
    - rewrite Sp in E. exact (http_opens _ _ _ _ _ _ _ _ _ Gs E I).
    - rewrite Sp in X1. rewrite X1. exact (http_opens_dot _ _ _ _ _ _ _ _ E I).
  Qed.
End Static.

(** ** C59: redirects *)
(** [q_uri] is what RequestURI() returns: path, and '?' and the query if there is one *)
Definition C59_claim : Prop := forall time_parse fmt_time mime_type b1 b2 url_string q path query p root r e calls,
  (exists a, path = a ++ B"/index.html") ->
  q_uri q = path ++ (if is_empty query then [] else B"?" ++ query) ->
  serve_file time_parse fmt_time mime_type b1 b2 url_string q path p root (path_clean path) false false = Some (r, e, calls) ->
  rhdr r (B"Location") = B"./" ++ (if is_empty query then [] else B"?" ++ query).
Theorem C59_redirect_refuted : ~ C59_claim.
Proof.
  intros H.
  specialize (H (fun _ _ => None) (fun _ => []) (fun _ => []) [] [] (fun s => s)
    (SReq (B"GET") (B"/index.html") []) (B"/index.html") [] (SResp 200 [] []) (fun _ => (inr err_not_exist, []))).
  specialize (H _ _ _ (ex_intro _ [] eq_refl) eq_refl eq_refl). vm_compute in H. discriminate.
Qed.
(** Proved: such a request is answered 301 without opening anything, with a Location whose
    path part is './'.  Missing: the query part is '?' and the whole request URI, path included. *)
Theorem C59_redirect_partial : forall time_parse fmt_time mime_type b1 b2 url_string q path p root name sd rd,
  (exists a, path = a ++ B"/index.html") -> q_uri q <> [] ->
  exists r, serve_file time_parse fmt_time mime_type b1 b2 url_string q path p root name sd rd = Some (r, FNil, []) /\
    p_status r = 301%Z /\ p_body r = p_body p /\ rhdr r (B"Location") = B"./?" ++ q_uri q.
Proof.
  intros tp ft mt b1 b2 us q path p root name sd rd Hs Hu. unfold serve_file.
  rewrite (proj2 (has_suffix_iff path (B"/index.html")) Hs). eexists. split; [reflexivity|].
  unfold local_redirect. rewrite (nonempty_is _ Hu). split; [reflexivity|]. split; [reflexivity|].
  rewrite rhdr_status, rhdr_set, beq_refl. reflexivity.
Qed.
(** It never is only the query. *)
Theorem C59_never_only_the_query : forall time_parse fmt_time mime_type b1 b2 url_string q path query p root name sd rd r e calls,
  (exists a, path = a ++ B"/index.html") ->
  q_uri q = path ++ (if is_empty query then [] else B"?" ++ query) ->
  serve_file time_parse fmt_time mime_type b1 b2 url_string q path p root name sd rd = Some (r, e, calls) ->
  rhdr r (B"Location") <> B"./" ++ (if is_empty query then [] else B"?" ++ query).
Proof.
  intros tp ft mt b1 b2 us q path query p root name sd rd r e calls Hs Hu H X.
  assert (Np : path <> []) by (destruct Hs as [a ->]; destruct a; discriminate).
  destruct (C59_redirect_partial tp ft mt b1 b2 us q path p root name sd rd Hs) as (r' & H' & _ & _ & L).
  { rewrite Hu. destruct path; [congruence|discriminate]. }
  rewrite H in H'. injection H' as <- _ _. rewrite X, Hu in L. apply (f_equal (@length ascii)) in L.
  change (B"./?") with (B"./" ++ B"?") in L. rewrite !app_length in L. destruct query as [|c query]; cbn [is_empty] in L; [cbn in L; lia|].
  rewrite !app_length in L. destruct path; [congruence|]. cbn [length] in L. lia.
Qed.

(** ** C61: Dir *)
Lemma join_snoc_base ds es : ds <> [] -> es <> [] -> join "/" (ds ++ es) = join "/" ds ++ "/"%char :: join "/" es.
Proof. apply join_app. Qed.
Lemma nonroot_shape es : Forall ns es -> forall acc, (forall x, In x acc -> x <> [] /\ x <> dot /\ ns x) ->
  forall x, In x (fold_left (clean_step false) es acc) -> x <> [] /\ x <> dot /\ ns x.
Proof.
  induction 1 as [|e es He _ IH]; intros acc Ha; cbn [fold_left]; [exact Ha|]. apply IH.
  intros x Hx. unfold clean_step in Hx. destruct (is_dot e) eqn:D; [auto|].
  apply orb_false_iff in D as [D1 D2]. apply is_empty_false in D1. apply beq_neq in D2.
  destruct (beq_spec e dotdot) as [->|D3].
  - destruct acc as [|y acc]; [destruct Hx as [<-|[]]; auto|]. destruct (beq y dotdot).
    + destruct Hx as [<-|Hx]; auto.
    + apply Ha. right. exact Hx.
  - destruct Hx as [<-|Hx]; auto.
Qed.
Theorem C61_dir_confined : forall os d name,
  let base := path_clean (if is_empty d then B"." else d) in
  exists full rest, snd (dir_open os d name) = COpen full :: rest /\ lex_below base full /\
    (forall n, In (COpen n) rest -> False).
Proof.
  intros os d name base. unfold dir_open. fold dot in base. change (B".") with dot in base.
  set (dir := if is_empty d then dot else d) in *.
  assert (Nd : dir <> []) by (unfold dir; destruct d; discriminate).
  set (full := filepath_join dir (path_clean ("/"%char :: name))).
  exists full.
  assert (B1 : lex_below base full).
  { destruct (clean_rooted ("/"%char :: name) eq_refl) as [E G].
    set (es := clean_elems true (split "/" ("/"%char :: name))) in *.
    unfold full. rewrite E. unfold filepath_join. rewrite (nonempty_is _ Nd).
    assert (Ec : forall r, clean_elems r (split "/" (dir ++ "/"%char :: "/"%char :: join "/" es)) = clean_elems r (split "/" dir) ++ es).
    { intros r. rewrite split_app_slash.
      change (split "/" ("/"%char :: join "/" es)) with (([] : bytes) :: split "/" (join "/" es)).
      assert (Ej : exists z, ([] : bytes) :: split "/" (join "/" es) = z ++ es /\ (z = [[]] \/ (z = [[]; []] /\ es = []))).
      { destruct es as [|x l]; [exists [[]; []]; auto|]. exists [[]]. rewrite split_join by (try discriminate; apply goods_ns; exact G). auto. }
      destruct Ej as (z & -> & Hz). rewrite app_assoc, clean_app by exact G. f_equal.
      destruct Hz as [->|[-> _]]; [apply clean_empty|].
      change [[]; []] with ([[]] ++ [([] : bytes)]). rewrite app_assoc, !clean_empty. reflexivity. }
    assert (Rt : is_rooted (dir ++ "/"%char :: "/"%char :: join "/" es) = is_rooted dir) by (destruct dir; [congruence|reflexivity]).
    exists es. split; [exact G|]. unfold base. unfold path_clean. rewrite Rt, !Ec.
    set (ds := clean_elems (is_rooted dir) (split "/" dir)).
    destruct es as [|x l]; [left; split; [reflexivity|rewrite app_nil_r; reflexivity]|].
    right. split; [discriminate|].
    assert (Ds : forall y, In y ds -> y <> [] /\ y <> dot /\ ns y).
    { unfold ds. destruct (is_rooted dir).
      - intros y Hy. pose proof (clean_root_good _ (split_ns dir)) as F. rewrite Forall_forall in F.
        destruct (F y Hy) as (F1 & F2 & _ & F4). auto.
      - intros y Hy. unfold clean_elems in Hy. apply in_rev in Hy. 
        exact (nonroot_shape _ (split_ns dir) [] (fun x H => match H with end) y Hy). }
    destruct (is_rooted dir) eqn:R.
    - destruct ds as [|y ds'] eqn:Eds.
      + reflexivity.
      + rewrite join_app by discriminate.
        destruct (beq_spec ("/"%char :: join "/" (y :: ds')) (B".")) as [X|_]; [discriminate|].
        destruct (beq_spec ("/"%char :: join "/" (y :: ds')) (B"/")) as [X|_]; [|reflexivity].
        exfalso. change (B"/") with ["/"%char] in X. injection X as X. destruct (Ds y (or_introl eq_refl)) as (Y & _).
        destruct ds'; cbn [join] in X; [contradiction|destruct y; discriminate].
    - destruct ds as [|y ds'] eqn:Eds.
      + reflexivity.
      + cbv iota. destruct ((y :: ds') ++ x :: l) as [|h t] eqn:Eh; [discriminate|]. rewrite <- Eh.
        rewrite join_app by discriminate. destruct (Ds y (or_introl eq_refl)) as (Y1 & Y2 & Y3).
        destruct (beq_spec (join "/" (y :: ds')) (B".")) as [X|_].
        { exfalso. destruct ds'; cbn [join] in X; [exact (Y2 X)|]. destruct y as [|c y]; [congruence|]. cbn [app] in X.
          injection X as _ X. destruct y; discriminate. }
        destruct (beq_spec (join "/" (y :: ds')) (B"/")) as [X|_]; [|reflexivity].
        exfalso. destruct y as [|c y]; [congruence|]. assert (c = "/"%char) by (destruct ds'; cbn [join app] in X; injection X; auto).
        subst c. apply Y3. left. reflexivity. }
  destruct (io_open os full) as [f|e0].
  - exists []. split; [reflexivity|]. split; [exact B1|intros n []].
  - destruct (map_open_error e0 full (io_stat os)) as [e1 cs] eqn:M. exists cs. split; [reflexivity|]. split; [exact B1|].
    intros n I. unfold map_open_error in M. destruct (_ || _); [injection M as _ <-; exact I|].
    pose proof (map_open_stats e0 (io_stat os) (split "/" full) [] n) as X. rewrite M in X. exact (X I).
Qed.

(** ** C62: dot-dot elements *)
Lemma sep_iff c : is_slash_rune c = true <-> sep c.
Proof. unfold is_slash_rune, sep. rewrite orb_true_iff, !Ascii.eqb_eq. reflexivity. Qed.
Definition nosep (u : bytes) : Prop := Forall (fun c => ~ sep c) u.
Lemma nosep_in u c : nosep u -> In c u -> ~ sep c.
Proof. intros H. unfold nosep in H. rewrite Forall_forall in H. apply H. Qed.
Lemma elem_nosep u e : nosep u -> (has_element u e <-> e = u).
Proof.
  intros H. split.
  - intros (a & b & E & _ & Ha & Hb). subst u. destruct Ha as [->|(a' & c & -> & Sc)].
    + destruct Hb as [->|(c & b' & -> & Sc)]; [cbn [app]; rewrite app_nil_r; reflexivity|].
      exfalso. apply (nosep_in _ c H); [|exact Sc]. cbn [app]. apply in_or_app. right. left. reflexivity.
    + exfalso. apply (nosep_in _ c H); [|exact Sc]. apply in_or_app. left. apply in_or_app. right. left. reflexivity.
  - intros ->. exists [], []. cbn [app]. rewrite app_nil_r. auto.
Qed.
Lemma elem_sep u c v e : nosep u -> sep c -> (has_element (u ++ c :: v) e <-> e = u \/ has_element v e).
Proof.
  intros Hu Hc. split.
  - intros (a & b & E & He & Ha & Hb). destruct Ha as [->|(a' & d & -> & Sd)].
    + left. cbn [app] in E. destruct Hb as [->|(d & b' & -> & Sd)].
      * exfalso. rewrite app_nil_r in E. apply (nosep_in e c He); [|exact Hc]. rewrite <- E. apply in_or_app. right. left. reflexivity.
      * (* both are the part before the first separator *)
        assert (Q : forall (u e : bytes) v b' c d, nosep u -> nosep e -> sep c -> sep d -> u ++ c :: v = e ++ d :: b' -> u = e).
        { clear. induction u as [|x u IH]; intros [|y e] v b' c d Hu He Sc Sd E; cbn [app] in E.
          - reflexivity.
          - injection E as -> E. inversion He; subst. contradiction.
          - injection E as -> E. inversion Hu; subst. contradiction.
          - injection E as -> E. inversion Hu; inversion He; subst. f_equal. eapply (IH e v b' c d); eauto. }
        symmetry. exact (Q u e v b' c d Hu He Hc Sd E).
    + right. rewrite <- app_assoc in E. cbn [app] in E.
      destruct (app_split_at u (c :: v) a' d (e ++ b) E) as [(b' & Eu & _)|(a2 & -> & Ev)].
      * exfalso. apply (nosep_in u d Hu); [|exact Sd]. rewrite Eu. apply in_or_app. right. left. reflexivity.
      * destruct a2 as [|x a2]; cbn [app] in Ev.
        -- injection Ev as _ ->. exists [], b. split; [reflexivity|]. auto.
        -- injection Ev as _ ->. exists (a2 ++ [d]), b. split; [rewrite <- app_assoc; reflexivity|].
           split; [exact He|]. split; [|exact Hb]. right. exists a2, d. auto.
  - intros [->|(a & b & -> & He & Ha & Hb)].
    + exists [], (c :: v). split; [reflexivity|]. split; [exact Hu|]. split; [auto|]. right. exists c, v. auto.
    + exists (u ++ c :: a), b. split; [rewrite <- app_assoc; reflexivity|]. split; [exact He|]. split; [|exact Hb].
      right. destruct Ha as [->|(a' & d & -> & Sd)].
      * exists u, c. auto.
      * exists (u ++ c :: a'), d. split; [rewrite <- app_assoc; reflexivity|exact Sd].
Qed.
Lemma fields_element : forall s cur e, e <> [] -> nosep (rev cur) ->
  (In e (fields cur s) <-> has_element (rev cur ++ s) e).
Proof.
  induction s as [|c s IH]; intros cur e Ne Hc; cbn [fields].
  - rewrite app_nil_r, elem_nosep by exact Hc. destruct cur as [|x cur]; cbn [is_empty].
    + cbn [rev In]. split; [intros []|intros X; contradiction].
    + cbn [In]. split; [intros [X|[]]; congruence|intros X; left; congruence].
  - destruct (is_slash_rune c) eqn:Sc.
    + apply sep_iff in Sc. rewrite elem_sep by assumption. destruct cur as [|x cur]; cbn [is_empty].
      * rewrite (IH [] e Ne (Forall_nil _)). cbn [rev app]. split; [auto|]. intros [X|X]; [contradiction|exact X].
      * cbn [In]. rewrite (IH [] e Ne (Forall_nil _)). cbn [rev app]. split; (intros [X|X]; [left; congruence|right; exact X]).
    + assert (Hc' : ~ sep c) by (rewrite <- sep_iff, Sc; discriminate).
      rewrite (IH (c :: cur) e Ne).
      * cbn [rev]. rewrite <- app_assoc. reflexivity.
      * cbn [rev]. apply Forall_app. split; [exact Hc|constructor; [exact Hc'|constructor]].
Qed.
Lemma contains_app sub : forall a b, contains (a ++ sub ++ b) sub = true.
Proof.
  induction a as [|c a IH]; intros b; cbn [app].
  - assert (H : has_prefix (sub ++ b) sub = true) by (unfold has_prefix; rewrite strip_prefix_app; reflexivity).
    destruct (sub ++ b); cbn [contains]; rewrite H; reflexivity.
  - cbn [contains]. rewrite IH, orb_true_r. reflexivity.
Qed.
Lemma contains_dotdot_iff v : contains_dotdot v = true <-> has_element v (B"..").
Proof.
  unfold contains_dotdot. change dotdot with (B"..").
  assert (E : existsb (fun e => beq e (B"..")) (fields [] v) = true <-> has_element v (B"..")).
  { rewrite existsb_exists. rewrite <- (fields_element v [] (B"..") ltac:(discriminate) (Forall_nil _)).
    split; [intros (x & I & X); apply beq_eq in X; subst x; exact I|intros I; exists (B".."); split; [exact I|apply beq_refl]]. }
  destruct (contains v (B"..")) eqn:C; cbn [negb]; [exact E|].
  split; [discriminate|]. intros (a & b & -> & _). rewrite contains_app in C. discriminate.
Qed.

(** ** C84: the file server always answers, with one of ten status codes *)
Definition content_codes : list Z := [200; 206; 304; 412; 416; 500]%Z.
Definition file_codes : list Z := [200; 206; 301; 304; 403; 404; 412; 416; 500]%Z.
Lemma pre_status tp q p m r done rr : check_preconditions tp q p m = Some (r, done, rr) ->
  (done = true -> p_status r = 304%Z \/ p_status r = 412%Z).
Proof.
  unfold check_preconditions. intros H ->.
  repeat match type of H with
  | None = Some _ => discriminate H
  | Some (_, false, _) = Some _ => discriminate H
  | Some (_, true, _) = Some _ => injection H as <- _; auto
  | context [match ?x with _ => _ end] => destruct x
  end.
Qed.
Lemma finish_status q p b code n src : p_status (finish q p b code n src) = code.
Proof.
  unfold finish. destruct b; [|destruct (beq _ _); reflexivity].
  destruct (is_empty _); destruct (beq _ _); reflexivity.
Qed.
Lemma serve_content_status tp ft mt b1 b2 q p name m size c r e :
  serve_content tp ft mt b1 b2 q p name m size c = Some (r, e) -> In (p_status r) content_codes.
Proof.
  unfold serve_content. intros H.
  destruct (check_preconditions tp q (set_last_modified ft m p) m) as [[[p1 done] rr]|] eqn:P; [|discriminate].
  destruct done.
  - injection H as <- _. destruct (pre_status _ _ _ _ _ _ _ P eq_refl) as [->| ->]; cbn; auto 8.
  - destruct (is_empty (hpeek (q_hdr q) (B"Content-Type"))), (is_empty (mt (file_ext name))),
      (detect_content_type (firstn 512 (c_data c))), (c_seek c 0);
    repeat match type of H with
    | None = Some _ => discriminate H
    | Some _ = Some _ => injection H as <- _
    | context [match ?x with _ => _ end] => destruct x
    end; rewrite ?finish_status; cbn; auto 10.
Qed.

Section Answers.
  Variable time_parse : bytes -> bytes -> option gtime.
  Variable fmt_time : gtime -> bytes.
  Variable mime_type : bytes -> bytes.
  Variables b1 b2 : bytes.
  Variable url_string : bytes -> bytes.
  Notation serve_http := (serve_http time_parse fmt_time mime_type b1 b2 url_string).
  Notation serve_file := (serve_file time_parse fmt_time mime_type b1 b2 url_string).
  Notation serve_file_name := (serve_file_name time_parse fmt_time mime_type b1 b2 url_string).

  Lemma http_error_codes e : In (snd (to_http_error e)) [403; 404; 500]%Z.
  Proof. unfold to_http_error. destruct (e_not_exist e), (e_permission e); cbn; auto. Qed.
  Lemma http_error_in e : In (snd (to_http_error e)) file_codes.
  Proof. unfold to_http_error. destruct (e_not_exist e), (e_permission e); cbn; auto 10. Qed.
  Lemma codes_incl z : In z content_codes -> In z file_codes.
  Proof. cbn. intuition (subst; auto 12). Qed.
  Lemma serve_file_answers q path p open name :
    exists r e calls, serve_file q path p open name false false = Some (r, e, calls) /\ e <> FBadPath /\
      In (p_status r) file_codes.
  Proof.
    unfold M_Static.serve_file. destruct (has_suffix path (B"/index.html")).
    { eexists _, _, _. split; [reflexivity|]. split; [discriminate|]. cbn. auto. }
    destruct (open name) as [o cs]. destruct o as [file|e0].
    2:{ pose proof (http_error_in e0) as X. destruct (to_http_error e0) as [msg code].
        eexists _, _, _. split; [reflexivity|]. split; [discriminate|]. exact X. }
    destruct (g_stat file) as [info|e0].
    2:{ pose proof (http_error_in e0) as X. destruct (to_http_error e0) as [msg code].
        eexists _, _, _. split; [reflexivity|]. split; [discriminate|]. exact X. }
    cbn [negb andb]. destruct (fi_dir info).
    { eexists _, _, _. split; [reflexivity|]. split; [discriminate|]. cbn. auto 8. }
    destruct (C83_total time_parse fmt_time mime_type b1 b2 q p (fi_name info) (fi_mod info) (Some (fi_size info)) (g_content file))
      as (r & e & E). rewrite E. eexists _, _, _. split; [reflexivity|].
    split; [destruct e; discriminate|]. apply codes_incl. eapply serve_content_status, E.
  Qed.
  Theorem C84_file_server_answers : forall q path p root,
    exists r e calls path', serve_http q path p root = (Some (r, e, calls), path') /\
      In (p_status r) [200; 206; 301; 304; 403; 404; 412; 416; 500]%Z.
  Proof.
    intros q path p root. destruct (serve_http_name time_parse fmt_time mime_type b1 b2 url_string q path p root) as (es & path' & _ & ->).
    destruct (serve_file_answers q path' p root ("/"%char :: join "/" es)) as (r & e & cs & E & _ & Hs).
    rewrite E. exists r, e, cs, path'. auto.
  Qed.
  Theorem C84_handlers_answer : forall fsys q path p fp up o path',
    static_file_run time_parse fmt_time mime_type b1 b2 url_string fsys up q path p = (o, path') \/
    static_embed_run time_parse fmt_time mime_type b1 b2 url_string fsys fp up q path p = (o, path') \/
    static_fix_run time_parse fmt_time mime_type b1 b2 url_string fsys fp q path p = (o, path') ->
    exists r e calls, o = Some (r, e, calls) /\
      In (p_status r) [200; 206; 301; 304; 403; 404; 412; 416; 500]%Z.
  Proof.
    intros fsys q path p fp up o path' H. unfold static_file_run, static_embed_run, static_fix_run in H.
    destruct H as [H|[H|H]];
      match type of H with (let '(_, _) := M_Static.serve_http _ _ _ _ _ _ ?q ?x ?p ?f in _) = _ =>
        destruct (C84_file_server_answers q x p f) as (r & e & cs & p2 & E & Hs) end;
      rewrite E in H; injection H as <- _; exists r, e, cs; auto.
  Qed.

  (** ** C62 *)
  Theorem C62_dotdot_rejected : forall os q path p name,
    exists r e calls, serve_file_name os q path p name = Some (r, e, calls) /\
      (has_element path (B"..") -> p_status r = 400%Z /\ e = FBadPath /\ calls = [] /\
                                 p_body r = p_body p ++ B"invalid URL path") /\
      (~ has_element path (B"..") -> e <> FBadPath /\ In (p_status r) [200; 206; 301; 304; 403; 404; 412; 416; 500]%Z).
  Proof.
    intros os q path p name. unfold M_Static.serve_file_name.
    destruct (contains_dotdot path) eqn:C.
    - apply contains_dotdot_iff in C. eexists _, _, _. split; [reflexivity|]. split; [repeat split|intros X; contradiction].
    - destruct (filepath_split name) as [d f].
      destruct (serve_file_answers q path p (dir_open os d) f) as (r & e & cs & E & N & Hs).
      exists r, e, cs. split; [exact E|]. split; [|auto].
      intros X. apply contains_dotdot_iff in X. congruence.
  Qed.

  (** ** C63 *)
  (** the path runs through something that is not a directory, and no shorter part of it
      fails to be a directory *)
  Definition through_non_dir (stat : bytes -> finfo + goerr) (name : bytes) : Prop :=
    exists a e b fi, split "/" name = a ++ e :: b /\ e <> [] /\
      stat (join "/" (a ++ [e])) = inl fi /\ fi_dir fi = false /\
      forall a' e' b', a = a' ++ e' :: b' -> e' <> [] ->
        exists fi', stat (join "/" (a' ++ [e'])) = inl fi' /\ fi_dir fi' = true.
  Lemma map_open_loop_spec orig stat : forall parts seen,
    (fst (map_open_loop orig stat seen parts) = orig /\
     ~ (exists a e b fi, parts = a ++ e :: b /\ e <> [] /\ stat (join "/" (seen ++ a ++ [e])) = inl fi /\ fi_dir fi = false /\
        forall a' e' b', a = a' ++ e' :: b' -> e' <> [] ->
          exists fi', stat (join "/" (seen ++ a' ++ [e'])) = inl fi' /\ fi_dir fi' = true)) \/
    (fst (map_open_loop orig stat seen parts) = err_not_exist /\
     (exists a e b fi, parts = a ++ e :: b /\ e <> [] /\ stat (join "/" (seen ++ a ++ [e])) = inl fi /\ fi_dir fi = false /\
        forall a' e' b', a = a' ++ e' :: b' -> e' <> [] ->
          exists fi', stat (join "/" (seen ++ a' ++ [e'])) = inl fi' /\ fi_dir fi' = true)).
  Proof.
    induction parts as [|part parts IH]; intros seen; cbn [map_open_loop].
    { left. split; [reflexivity|]. intros (a & e & b & fi & X & _). destruct a; discriminate. }
    cbv zeta. specialize (IH (seen ++ [part])).
    (* moving the first part over *)
    assert (Mv : (part = [] \/ exists fi', stat (join "/" (seen ++ [part])) = inl fi' /\ fi_dir fi' = true) ->
      ((exists a e b fi, parts = a ++ e :: b /\ e <> [] /\ stat (join "/" ((seen ++ [part]) ++ a ++ [e])) = inl fi /\ fi_dir fi = false /\
        forall a' e' b', a = a' ++ e' :: b' -> e' <> [] ->
          exists fi', stat (join "/" ((seen ++ [part]) ++ a' ++ [e'])) = inl fi' /\ fi_dir fi' = true) <->
       (exists a e b fi, part :: parts = a ++ e :: b /\ e <> [] /\ stat (join "/" (seen ++ a ++ [e])) = inl fi /\ fi_dir fi = false /\
        forall a' e' b', a = a' ++ e' :: b' -> e' <> [] ->
          exists fi', stat (join "/" (seen ++ a' ++ [e'])) = inl fi' /\ fi_dir fi' = true))).
    { intros Hp. split.
      - intros (a & e & b & fi & -> & Ne & Es & Ed & Ha). exists (part :: a), e, b, fi.
        split; [reflexivity|]. split; [exact Ne|]. split; [rewrite <- app_assoc in Es; exact Es|]. split; [exact Ed|].
        intros [|x a'] e' b' Ea Ne'; cbn [app] in Ea; injection Ea as <- Ea.
        + destruct Hp as [->|Hp]; [contradiction|]. exact Hp.
        + destruct (Ha a' e' b' Ea Ne') as (fi' & X). rewrite <- app_assoc in X. exists fi'. exact X.
      - intros (a & e & b & fi & Ep & Ne & Es & Ed & Ha). destruct a as [|x a]; cbn [app] in Ep; injection Ep as <- ->.
        + exfalso. destruct Hp as [->|(fi' & X & Y)]; [contradiction|]. cbn [app] in Es. congruence.
        + exists a, e, b, fi. split; [reflexivity|]. split; [exact Ne|]. split; [rewrite <- app_assoc; exact Es|]. split; [exact Ed|].
          intros a' e' b' Ea Ne'. destruct (Ha (part :: a') e' b') as (fi' & X); [rewrite Ea; reflexivity|exact Ne'|].
          exists fi'. rewrite <- app_assoc. exact X. }
    destruct (is_empty part) eqn:Ep.
    { apply is_empty_true in Ep. rewrite <- (Mv (or_introl Ep)). exact IH. }
    apply is_empty_false in Ep.
    match goal with |- context [stat ?n] => destruct (stat n) as [fi|e0] eqn:Es end.
    - destruct (fi_dir fi) eqn:Ed.
      + rewrite <- (Mv (or_intror (ex_intro _ fi (conj eq_refl Ed)))).
        destruct (map_open_loop orig stat (seen ++ [part]) parts) as [e0 cs]. exact IH.
      + right. split; [reflexivity|]. exists [], part, parts, fi. split; [reflexivity|]. split; [exact Ep|].
        split; [exact Es|]. split; [exact Ed|]. intros a' e' b' X. destruct a'; discriminate.
    - left. split; [reflexivity|]. intros (a & e & b & fi & X & Ne & Es' & Ed & Ha).
      destruct a as [|x a]; cbn [app] in X; injection X as <- ->; [cbn [app] in Es'; congruence|].
      destruct (Ha [] part a eq_refl Ep) as (fi' & X & _). cbn [app] in X. congruence.
  Qed.

  (** a file that cannot be opened is missing: the system says so, or the path runs through
      something that is not a directory (permission errors excepted) *)
  Definition missing (stat : bytes -> finfo + goerr) (name : bytes) (err : goerr) : Prop :=
    e_not_exist err = true \/ (e_permission err = false /\ through_non_dir stat name).
  Definition error_answer (stat : bytes -> finfo + goerr) (name : bytes) (err : goerr) (p r : sresp) : Prop :=
    (missing stat name err -> p_status r = 404%Z /\ p_body r = p_body p ++ B"404 page not found") /\
    (~ missing stat name err -> e_permission err = true -> p_status r = 403%Z /\ p_body r = p_body p ++ B"403 Forbidden") /\
    (~ missing stat name err -> e_permission err = false -> p_status r = 500%Z /\ p_body r = p_body p ++ B"500 Internal Server Error").
  Lemma map_open_error_spec err name stat p : let e := fst (map_open_error err name stat) in
    error_answer stat name err p (error_reply p (fst (to_http_error e)) (snd (to_http_error e))).
  Proof.
    unfold map_open_error, error_answer, missing. destruct (e_not_exist err) eqn:N.
    { cbn [orb fst]. cbv zeta. unfold to_http_error. rewrite N. cbn [fst snd]. split; [intros _; split; reflexivity|].
      split; intros X; exfalso; apply X; left; reflexivity. }
    destruct (e_permission err) eqn:P; cbn [orb fst]; cbv zeta.
    { unfold to_http_error. rewrite N, P. cbn [fst snd]. split; [intros [X|[X _]]; discriminate|]. split; [split; reflexivity|discriminate]. }
    destruct (map_open_loop_spec err stat (split "/" name) []) as [[E H]|[E H]]; rewrite E.
    - unfold to_http_error. rewrite N, P. cbn [fst snd]. split; [|split; [discriminate|split; reflexivity]].
      intros [X|[_ X]]; [discriminate|]. exfalso. apply H. exact X.
    - unfold to_http_error. cbn [e_not_exist err_not_exist fst snd]. split; [split; reflexivity|].
      split; intros X; exfalso; apply X; right; split; auto.
  Qed.
  Lemma serve_file_error q path p open name e cs : ~ (exists a, path = a ++ B"/index.html") -> open name = (inr e, cs) ->
    serve_file q path p open name false false = Some (error_reply p (fst (to_http_error e)) (snd (to_http_error e)), FErr e, cs).
  Proof.
    intros Hs Ho. unfold M_Static.serve_file.
    destruct (has_suffix path (B"/index.html")) eqn:X; [apply has_suffix_iff in X; contradiction|].
    rewrite Ho. destruct (to_http_error e). reflexivity.
  Qed.
  (** the mounted file system; [name]: what is opened (C45) *)
  Theorem C63_open_errors : forall fsys q target p es err,
    let path := normalize_path target in
    ~ (exists a, path = a ++ B"/index.html") ->
    path_clean path = "/"%char :: join "/" es -> Forall good es ->
    io_open fsys (name_of es) = inr err ->
    exists r e calls, fst (serve_http q path p (iofs_open fsys)) = Some (r, e, calls) /\
      error_answer (io_stat fsys) (name_of es) err p r.
  Proof.
    intros fsys q target p es err path Hs Hc G Ho. unfold M_Static.serve_http. rewrite has_prefix_rooted.
    unfold path at 1. rewrite normalize_rooted. cbn [fst]. rewrite Hc.
    assert (E : (if beq ("/"%char :: join "/" es) (B"/") then dot else trim_prefix ("/"%char :: join "/" es) (B"/")) = name_of es).
    { destruct es as [|e es]; [reflexivity|].
      assert (N : join "/" (e :: es) <> []) by (intros X; apply join_nil in X; [discriminate|exact G]).
      destruct (beq_spec ("/"%char :: join "/" (e :: es)) (B"/")) as [X|_].
      { change (B"/") with ["/"%char] in X. injection X as X. contradiction. }
      unfold trim_prefix. change (B"/") with ["/"%char]. cbn [strip_prefix]. rewrite Ascii.eqb_refl. reflexivity. }
    pose proof (map_open_error_spec err (name_of es) (io_stat fsys) p) as Sp. cbv zeta in Sp.
    destruct (map_open_error err (name_of es) (io_stat fsys)) as [e1 cs] eqn:M. cbn [fst] in Sp.
    eexists _, _, _. split; [apply serve_file_error; [exact Hs|]|exact Sp].
    unfold iofs_open. rewrite E, Ho, M. reflexivity.
  Qed.
  (** the operating system, through ServeFile.  [name] is a directory part, empty or ending in a
      slash, followed by a last part without slashes; [full]: what is opened *)
  Definition parts_of (name dir file : bytes) : Prop :=
    name = dir ++ file /\ ~ In "/"%char file /\ (dir = [] \/ exists d, dir = d ++ B"/").
  Definition opened_name (dir file : bytes) : bytes :=
    path_clean ((if is_empty dir then B"." else dir) ++ B"/" ++ path_clean (B"/" ++ file)).
  Lemma filepath_split_parts name dir file : parts_of name dir file -> filepath_split name = (dir, file).
  Proof.
    intros (-> & N & D). unfold filepath_split.
    assert (E : exists l, split "/" (dir ++ file) = l ++ [file]).
    { destruct D as [->|(d & ->)].
      - exists []. apply split_one. exact N.
      - exists (split "/" d). rewrite <- app_assoc. change (B"/" ++ file) with ("/"%char :: file).
        rewrite split_app_slash. f_equal. apply split_one. exact N. }
    destruct E as (l & E). rewrite E, rev_app_distr. cbn [rev app]. f_equal.
    rewrite app_length, Nat.add_sub, firstn_app, Nat.sub_diag, firstn_all, firstn_O. apply app_nil_r.
  Qed.
  Lemma parts_exist name : exists dir file, parts_of name dir file.
  Proof.
    induction name as [|c s (dir & file & E & N & D)] using rev_ind.
    - exists [], []. split; [reflexivity|]. split; [intros []|left; reflexivity].
    - destruct (ascii_dec c "/") as [->|Nc].
      + exists (s ++ B"/"), []. split; [rewrite app_nil_r; reflexivity|]. split; [intros []|right; eauto].
      + exists dir, (file ++ [c]). rewrite E, <- app_assoc. split; [reflexivity|]. split; [|exact D].
        intros I. apply in_app_iff in I as [I|[I|[]]]; [exact (N I)|congruence].
  Qed.
  (** ServeFile opens one file, whatever the request says *)
  Theorem C61_serve_file_opens : forall os q path p name dir file r e calls n, parts_of name dir file ->
    serve_file_name os q path p name = Some (r, e, calls) -> In (COpen n) calls -> n = opened_name dir file.
  Proof.
    intros os q path p name dir file r e calls n Hp. unfold M_Static.serve_file_name.
    destruct (contains_dotdot path); [intros E; injection E as _ _ <-; intros []|].
    rewrite (filepath_split_parts _ _ _ Hp). unfold M_Static.serve_file.
    destruct (has_suffix path (B"/index.html")); [intros E; injection E as _ _ <-; intros []|].
    assert (Ef : filepath_join (if is_empty dir then dot else dir) (path_clean ("/"%char :: file)) = opened_name dir file)
      by (destruct dir; reflexivity).
    destruct (dir_open os dir file) as [ri cs] eqn:Eo.
    assert (Cs : In (COpen n) cs -> n = opened_name dir file).
    { destruct (C61_dir_confined os dir file) as (full & rest & A & _ & C). cbv zeta in A. rewrite Eo in A. cbn [snd] in A. subst cs.
      intros [X|X]; [|elim (C n X)]. injection X as <-. revert Eo. unfold dir_open. rewrite Ef.
      destruct (io_open os (opened_name dir file)) as [f|er]; [|destruct (map_open_error er (opened_name dir file) (io_stat os)) as [? ?]];
        intros E; inversion E; reflexivity. }
    destruct ri as [f|er]; [|destruct (to_http_error er) as [? ?]; intros E; injection E as _ _ <-; exact Cs].
    destruct (g_stat f) as [info|er]; [|destruct (to_http_error er) as [? ?]; intros E; injection E as _ _ <-; exact Cs].
    cbn [negb andb]. destruct (fi_dir info) eqn:Di; [intros E; lazymatch type of E with (let '(_, _) := ?t in _) = _ => destruct t as [? ?] end; injection E as _ _ <-; exact Cs|].
    cbn [fst snd].
    destruct (serve_content _ _ _ _ _ _ _ _ _ _ _) as [[? ?]|]; [|discriminate]. intros E. injection E as _ _ <-. exact Cs.
  Qed.
  Theorem C63_serve_file_errors : forall os q path p name dir file err,
    ~ has_element path (B"..") -> ~ (exists a, path = a ++ B"/index.html") ->
    parts_of name dir file -> io_open os (opened_name dir file) = inr err ->
    exists r e calls, serve_file_name os q path p name = Some (r, e, calls) /\
      error_answer (io_stat os) (opened_name dir file) err p r.
  Proof.
    intros os q path p name dir file err Hd Hs Hn Ho. unfold M_Static.serve_file_name.
    destruct (contains_dotdot path) eqn:C; [apply contains_dotdot_iff in C; contradiction|].
    rewrite (filepath_split_parts _ _ _ Hn). set (full := opened_name dir file) in *.
    pose proof (map_open_error_spec err full (io_stat os) p) as Sp. cbv zeta in Sp.
    destruct (map_open_error err full (io_stat os)) as [e1 cs] eqn:M. cbn [fst] in Sp.
    eexists _, _, _. split; [apply serve_file_error; [exact Hs|]|exact Sp].
    unfold dir_open. 
    assert (E : filepath_join (if is_empty dir then dot else dir) (path_clean ("/"%char :: file)) = full) by (destruct dir; reflexivity).
    rewrite E, Ho, M. reflexivity.
  Qed.
End Answers.

(** ** Concrete cases *)
Definition x_tp : bytes -> bytes -> option gtime := fun _ _ => None.
Definition x_ft : gtime -> bytes := fun _ => [].
Definition x_mt : bytes -> bytes := fun _ => B"text/css".
Definition x_us : bytes -> bytes := fun s => s.
Definition x_time : gtime := 1000%Z.
Definition x_q : sreq := SReq (B"GET") (B"/static/css/a.css?v=1") [].
Definition x_p : sresp := SResp 200 [] [].
Definition x_file (name : bytes) (dir : bool) (data : bytes) : gofile :=
  GoFile (inl (FInfo name dir x_time (Z.of_nat (length data)))) (Content data (fun _ => true) true) (inl [(B"x", false)]).
(** files/css/a.css is a file, files and files/css are directories *)
Definition x_fs : iofs := IoFs
  (fun n => if beq n (B"files/css/a.css") then inl (x_file (B"a.css") false (B"b{}"))
            else if beq n (B"files") || beq n (B"files/css") then inl (x_file n true [])
            else if beq n (B"files/css/a.css/z") then inr (GoErr false false (B"ENOTDIR"))
            else if beq n (B"files/key") then inr (GoErr false true (B"EACCES")) else inr err_not_exist)
  (fun n => if beq n (B"files/css/a.css") then inl (FInfo (B"a.css") false x_time 3)
            else if beq n (B"files") || beq n (B"files/css") then inl (FInfo n true x_time 0) else inr err_not_exist).
Definition x_embed target := static_embed_run x_tp x_ft x_mt [] [] x_us x_fs (B"files") (B"static") x_q (normalize_path target) x_p.
Example C46_case : exists r, x_embed (B"/static/css/./a.css") = (Some (r, FNil, [COpen (B"files/css/a.css")]), B"/static/css/a.css") /\
  p_status r = 200%Z /\ p_body r = B"b{}".
Proof. eexists. split; [vm_compute; reflexivity|]. split; reflexivity. Qed.
Lemma no_percent s : ~ In "%"%char s -> no_escape s.
Proof. intros H a x y b E. exfalso. apply H. rewrite E. apply in_or_app. right. left. reflexivity. Qed.
Example C46_case_hyps : no_escape (normalize_path (B"/static/css/./a.css")) /\ no_escape (B"files") /\
  exists rest, normalize_path (B"/static/css/./a.css") = "/"%char :: B"static" ++ "/"%char :: rest.
Proof.
  split; [|split].
  - apply no_percent. vm_compute. intuition discriminate.
  - apply no_percent. vm_compute. intuition discriminate.
  - exists (B"css/a.css"). reflexivity.
Qed.
Example C47_case : exists r, x_embed (B"/static/css") = (Some (r, FNil, [COpen (B"files/css")]), B"/static/css") /\ p_status r = 403%Z.
Proof. eexists. split; [vm_compute; reflexivity|]. reflexivity. Qed.
Example C61_case : snd (dir_open x_fs (B"files/") (B"../../css/../css/a.css")) = [COpen (B"files/css/a.css")].
Proof. reflexivity. Qed.
Example C62_case : has_element (B"/a\..") (B"..") /\ ~ has_element (B"/a../b") (B"..").
Proof. rewrite <- !contains_dotdot_iff. split; [reflexivity|discriminate]. Qed.
Example C63_case : exists r, x_embed (B"/static/css/a.css/z") =
    (Some (r, FErr err_not_exist, [COpen (B"files/css/a.css/z"); CStat (B"files"); CStat (B"files/css"); CStat (B"files/css/a.css")]),
     B"/static/css/a.css/z") /\ p_status r = 404%Z /\
  exists r2 e2 c2, fst (x_embed (B"/static/key")) = Some (r2, e2, c2) /\ p_status r2 = 403%Z.
Proof. eexists. split; [vm_compute; reflexivity|]. split; [reflexivity|]. eexists _, _, _. split; [vm_compute; reflexivity|reflexivity]. Qed.

Print Assumptions C45_names_valid.
Print Assumptions C45_handlers.
Print Assumptions C46_mount_refuted.
Print Assumptions C46_mount_partial.
Print Assumptions C47_directory_forbidden.
Print Assumptions C47_listing_independent.
Print Assumptions C47_serve_file_independent.
Print Assumptions C59_redirect_refuted.
Print Assumptions C59_redirect_partial.
Print Assumptions C59_never_only_the_query.
Print Assumptions C60_path_restored_refuted.
Print Assumptions C60_path_restored_partial.
Print Assumptions C61_dir_confined.
Print Assumptions C62_dotdot_rejected.
Print Assumptions C63_open_errors.
Example C61_serve_file_case : parts_of (B"files/css/../a.css") (B"files/css/../") (B"a.css") /\
  opened_name (B"files/css/../") (B"a.css") = B"files/a.css" /\ opened_name [] (B"..") = B"." /\
  exists r, serve_file_name x_tp x_ft x_mt [] [] x_us x_fs x_q (B"/a") x_p (B"files/css/a.css") = Some (r, FNil, [COpen (B"files/css/a.css")]).
Proof.
  split; [split; [reflexivity|split; [|right; exists (B"files/css/.."); reflexivity]]|].
  - intros H. cbn in H. intuition discriminate.
  - split; [reflexivity|]. split; [reflexivity|]. eexists. vm_compute. reflexivity.
Qed.
Print Assumptions C61_serve_file_opens.
Print Assumptions C63_serve_file_errors.
Print Assumptions C84_file_server_answers.
Print Assumptions C84_handlers_answer.
