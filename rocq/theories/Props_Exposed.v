(** C134-C137: which file a static handler opens, for every request. *)
From Verif Require Import Base GoStrings GoPath GoInt M_Tree M_RegTree S_Route M_Range P_Range S_Range M_Cond S_Cond M_Sniff M_Content S_Content
  S_Static P_GoPath M_Static Props_Cond Props_Sniff Props_Content Props_Static Props_Static2 M_Mount S_Mount P_RegTree P_Mount Props_Mount
  S_Exposed P_Exposed P_Dotted Props_RegTree.
From Verif Require S_Answer.

Section Exposed.
  Variable time_parse : bytes -> bytes -> option gtime.
  Variable fmt_time : gtime -> bytes.
  Variable mime_type : bytes -> bytes.
  Variables b1 b2 : bytes.
  Variable url_string : bytes -> bytes.
  Notation serve_http := (serve_http time_parse fmt_time mime_type b1 b2 url_string).
  Notation serve_file := (serve_file time_parse fmt_time mime_type b1 b2 url_string).
  Notation file_run := (static_file_run time_parse fmt_time mime_type b1 b2 url_string).
  Notation embed_run := (static_embed_run time_parse fmt_time mime_type b1 b2 url_string).
  Notation fix_run := (static_fix_run time_parse fmt_time mime_type b1 b2 url_string).

  (** the answer for whatever is called [name] in the file system: the named thing is opened and
      nothing else; a file is served by ServeContent, a directory is forbidden, what cannot be
      opened or examined is reported by its kind of error *)
  Definition file_answer (fsys : iofs) (name : bytes) (q : sreq) (p : sresp) (o : option (sresp * ferr * list call)) : Prop :=
    (exists r e calls, o = Some (r, e, calls) /\ opened calls = [name]) /\
    match io_open fsys name with
    | inl f =>
        match g_stat f with
        | inl info =>
            if fi_dir info
            then exists r, o = Some (r, FNil, [COpen name]) /\ p_status r = 403%Z /\ p_body r = p_body p ++ B"403 Forbidden" /\
                   (forall k, rhdr r k = S_Answer.refused (rhdr p) k)
            else content_answer time_parse fmt_time mime_type b1 b2 q p f info name o
        | inr err => exists r, o = Some (r, FErr err, [COpen name]) /\
            p_status r = (if e_not_exist err then 404 else if e_permission err then 403 else 500)%Z /\
            p_body r = p_body p ++ (if e_not_exist err then B"404 page not found" else if e_permission err then B"403 Forbidden"
                                    else B"500 Internal Server Error") /\
            (forall k, rhdr r k = S_Answer.refused (rhdr p) k)
        end
    | inr err => exists r e calls, o = Some (r, e, calls) /\ error_answer (io_stat fsys) name err p r /\
                   (forall k, rhdr r k = S_Answer.refused (rhdr p) k)
    end.
  (** the answer for names ending in index.html: a redirect, nothing is opened *)
  Definition index_answer (q : sreq) (p : sresp) (o : option (sresp * ferr * list call)) : Prop :=
    exists r, o = Some (r, FNil, []) /\ p_status r = 301%Z /\ p_body r = p_body p /\
      (forall k, rhdr r k = if beq k (B"Location") then (if is_empty (q_uri q) then B"./" else B"./?" ++ q_uri q) else rhdr p k).
  Lemma refused_is p text code k : rhdr (error_reply p text code) k = S_Answer.refused (rhdr p) k.
  Proof. unfold error_reply. rewrite rhdr_body, rhdr_status, !rhdr_set. reflexivity. Qed.

  Lemma stats_open_nothing orig name stat : opened (snd (map_open_error orig name stat)) = [].
  Proof.
    unfold map_open_error. destruct (_ || _); [reflexivity|]. 
    enough (L : forall (l seen : list bytes), opened (snd (map_open_loop orig stat seen l)) = []) by apply L.
    induction l as [|part parts IH]; intros seen; cbn [map_open_loop]; [reflexivity|]. cbv zeta.
    destruct (is_empty part); [apply IH|].
    match goal with |- context [stat ?x] => destruct (stat x) as [fi|e0] end; [|reflexivity].
    destruct (fi_dir fi); [|reflexivity]. specialize (IH (seen ++ [part])).
    destruct (map_open_loop orig stat (seen ++ [part]) parts) as [e0 cs]. exact IH.
  Qed.
  Lemma iofs_open_eq fsys es : Forall good es -> iofs_open fsys ("/"%char :: join "/" es) =
    match io_open fsys (name_of es) with
    | inl f => (inl f, [COpen (name_of es)])
    | inr e => (inr (fst (map_open_error e (name_of es) (io_stat fsys))), COpen (name_of es) :: snd (map_open_error e (name_of es) (io_stat fsys)))
    end.
  Proof.
    intros H. unfold iofs_open.
    assert (E : (if beq ("/"%char :: join "/" es) (B"/") then dot else trim_prefix ("/"%char :: join "/" es) (B"/")) = name_of es).
    { destruct es as [|e es]; [reflexivity|]. 
      assert (N : join "/" (e :: es) <> []) by (intros X; apply join_nil in X; [discriminate|exact H]).
      destruct (beq_spec ("/"%char :: join "/" (e :: es)) (B"/")) as [X|_].
      { change (B"/") with ["/"%char] in X. injection X as X. contradiction. }
      unfold trim_prefix. change (B"/") with ["/"%char]. cbn [strip_prefix]. rewrite Ascii.eqb_refl. reflexivity. }
    rewrite E. destruct (io_open fsys (name_of es)) as [f|e]; [reflexivity|].
    destruct (map_open_error e (name_of es) (io_stat fsys)) as [e' cs]. reflexivity.
  Qed.
  Lemma http_any fsys q s p :
    (final (pct_decode s) = B"index.html" -> index_answer q p (fst (serve_http q (set_path s) p (iofs_open fsys)))) /\
    (final (pct_decode s) <> B"index.html" ->
       file_answer fsys (name_of (walk [] (split "/" (pct_decode s)))) q p (fst (serve_http q (set_path s) p (iofs_open fsys)))).
  Proof.
    destruct (set_path_opens s) as (R & C & G & I). set (es := walk [] (split "/" (pct_decode s))) in *.
    assert (Sc : fst (serve_http q (set_path s) p (iofs_open fsys)) = serve_file q (set_path s) p (iofs_open fsys) ("/"%char :: join "/" es) false false).
    { unfold M_Static.serve_http. rewrite has_prefix_rooted, R. cbn [fst]. rewrite C. reflexivity. }
    split; intros F.
    - rewrite Sc. unfold M_Static.serve_file. rewrite (proj2 (has_suffix_iff _ _) (proj2 I F)).
      eexists. split; [reflexivity|]. split; [reflexivity|]. split; [reflexivity|]. intros k. unfold local_redirect.
      rewrite rhdr_status, rhdr_set. destruct (is_empty (q_uri q)); reflexivity.
    - assert (Ni : ~ (exists a, set_path s = a ++ B"/index.html")) by (intros X; apply F, I, X).
      assert (Hs : has_suffix (set_path s) (B"/index.html") = false).
      { destruct (has_suffix (set_path s) (B"/index.html")) eqn:X; [apply has_suffix_iff in X; contradiction|reflexivity]. }
      unfold file_answer. pose proof (iofs_open_eq fsys es G) as Io.
      destruct (io_open fsys (name_of es)) as [f|err] eqn:O.
      + destruct (g_stat f) as [info|err] eqn:Es.
        * destruct (fi_dir info) eqn:Ed.
          { assert (X : exists r, fst (serve_http q (set_path s) p (iofs_open fsys)) = Some (r, FNil, [COpen (name_of es)]) /\
                     p_status r = 403%Z /\ p_body r = p_body p ++ B"403 Forbidden" /\ (forall k, rhdr r k = S_Answer.refused (rhdr p) k)).
            { rewrite Sc. unfold M_Static.serve_file. rewrite Hs, Io, Es, Ed. cbn [negb andb]. eexists. split; [reflexivity|]. split; [reflexivity|]. split; [reflexivity|]. intros k. apply refused_is. }
            destruct X as (r & X & Y). split; [|exists r; auto]. exists r, FNil, [COpen (name_of es)]. auto. }
          { pose proof (http_file time_parse fmt_time mime_type b1 b2 url_string fsys q (set_path s) p es f info R Ni C G O Es Ed) as K.
            split; [|exact K]. destruct K as (r & e & _ & fe & -> & _). exists r, fe, [COpen (name_of es)]. auto. }
        * assert (X : exists r, fst (serve_http q (set_path s) p (iofs_open fsys)) = Some (r, FErr err, [COpen (name_of es)]) /\
                     p_status r = (if e_not_exist err then 404 else if e_permission err then 403 else 500)%Z /\
                     p_body r = p_body p ++ (if e_not_exist err then B"404 page not found" else if e_permission err then B"403 Forbidden"
                                    else B"500 Internal Server Error") /\
                     (forall k, rhdr r k = S_Answer.refused (rhdr p) k)).
          { rewrite Sc. unfold M_Static.serve_file. rewrite Hs, Io, Es. unfold to_http_error.
            destruct (e_not_exist err), (e_permission err); eexists;
              (split; [reflexivity|split; [reflexivity|split; [reflexivity|intros k; apply refused_is]]]). }
          destruct X as (r & X & Y). split; [|exists r; auto]. exists r, (FErr err), [COpen (name_of es)]. auto.
      + destruct (C63_open_errors time_parse fmt_time mime_type b1 b2 url_string fsys q s p es err Ni C G O) as (r & e & calls & X & Y).
        change (normalize_path s) with (set_path s) in X. 
        assert (Z : opened calls = [name_of es] /\ forall k, rhdr r k = S_Answer.refused (rhdr p) k).
        { rewrite Sc in X. unfold M_Static.serve_file in X. rewrite Hs, Io in X. destruct (to_http_error _). injection X as <- _ <-.
          split; [|intros k; apply refused_is]. cbn [opened flat_map app]. f_equal. apply stats_open_nothing. }
        destruct Z as [Z1 Z2]. split; [exists r, e, calls; auto|]. exists r, e, calls. auto.
  Qed.

  Lemma remainder_trim mount path rest : remainder mount path rest ->
    exists u, trim_prefix (trim_prefix path (B"/")) mount = u /\ (u = "/"%char :: rest \/ u = rest).
  Proof.
    assert (T : forall x, trim_prefix ("/"%char :: x) (B"/") = x) by reflexivity.
    intros [->|[-> [->|N]]]; rewrite T; unfold trim_prefix.
    - rewrite strip_prefix_app. eauto.
    - exists rest. auto.
    - exists rest. split; [|auto]. destruct (strip_prefix mount rest) as [t|] eqn:E; [|reflexivity]. exfalso. apply N. exists t. apply strip_prefix_inv. exact E.
  Qed.
  Lemma same_after_slash u rest : u = "/"%char :: rest \/ u = rest ->
    (forall here, walk here (split "/" (pct_decode u)) = walk here (split "/" (pct_decode rest))) /\ final (pct_decode u) = final (pct_decode rest) /\
    plain_elems u = plain_elems rest /\ (In dotdot (split "/" u) -> In dotdot (split "/" rest)).
  Proof.
    intros [->| ->]; [|auto]. rewrite decode_rooted.
    change ("/"%char :: pct_decode rest) with ([] ++ "/"%char :: pct_decode rest). rewrite split_app_slash, final_app.
    split; [reflexivity|]. split; [reflexivity|]. split; [reflexivity|]. intros [X|X]; [discriminate X|exact X].
  Qed.

  (** ** C134: the file of a request to a directory mount: what is left of the request path is
      decoded once more and followed from the root of the mounted file system *)
  Theorem C134_directory_mount : forall fsys up q path p rest d,
    remainder up path rest -> decodes rest d ->
    (final d = B"index.html" -> index_answer q p (fst (file_run fsys up q path p))) /\
    (final d <> B"index.html" -> file_answer fsys (name_of (walk [] (split "/" d))) q p (fst (file_run fsys up q path p))).
  Proof.
    intros fsys up q path p rest d Hr Hd. apply decodes_iff in Hd. subst d. unfold static_file_run.
    destruct (remainder_trim up path rest Hr) as (u & -> & Hu). destruct (same_after_slash u rest Hu) as (Ew & Ef & _).
    pose proof (http_any fsys q u p) as K. rewrite Ew, Ef in K.
    destruct (serve_http q (set_path u) p (iofs_open fsys)) as [o pp]. exact K.
  Qed.
  (** ... of a request to an embedded mount: the same, starting in the mounted directory *)
  Theorem C134_embedded_mount : forall fsys fp up q target p rest d df l,
    let path := normalize_path target in
    remainder up path rest -> ~ In (B"..") (split "/" fp) ->
    decodes rest d -> decodes fp df -> decodes (last (plain_elems fp ++ plain_elems rest) []) l ->
    (final l = B"index.html" -> index_answer q p (fst (embed_run fsys fp up q path p))) /\
    (final l <> B"index.html" ->
       file_answer fsys (name_of (walk (walk [] (split "/" df)) (split "/" d))) q p (fst (embed_run fsys fp up q path p))).
  Proof.
    intros fsys fp up q target p rest d df l path Hr Ndf Hd Hdf Hl. apply decodes_iff in Hd, Hdf, Hl. subst d df l. unfold static_embed_run.
    destruct (remainder_trim up path rest Hr) as (u & -> & Hu). destruct (same_after_slash u rest Hu) as (Ew & _ & Ep & Ed).
    assert (Nu : ~ In dotdot (split "/" u)).
    { intros X. apply Ed in X. destruct (normalize_shape target) as (es & l & G & N & Nl & E). fold path in E.
      assert (Y : In dotdot (split "/" path)).
      { destruct Hr as [Hr|[Hr _]]; rewrite Hr.
        - change ("/"%char :: up ++ "/"%char :: rest) with (("/"%char :: up) ++ "/"%char :: rest). rewrite split_app_slash. apply in_or_app. auto.
        - change ("/"%char :: rest) with ([] ++ "/"%char :: rest). rewrite split_app_slash. apply in_or_app. auto. }
      rewrite E in Y. change ("/"%char :: with_slashes es ++ l) with ([] ++ "/"%char :: (with_slashes es ++ l)) in Y. rewrite split_app_slash in Y.
      apply in_app_or in Y as [[Y|[]]|Y]; [discriminate Y|]. rewrite with_slashes_join, split_join in Y.
      - apply in_app_or in Y as [Y|[Y|[]]]; [|congruence]. rewrite Forall_forall in G. destruct (G _ Y) as (_ & _ & Z & _). apply Z. reflexivity.
      - destruct es; discriminate.
      - apply Forall_app. split; [apply goods_ns; exact G|constructor; [exact N|constructor]]. }
    (* the joined text *)
    assert (J : exists s, path_join fp u = path_clean s /\ ~ In dotdot (split "/" s) /\ plain_elems s = plain_elems fp ++ plain_elems rest /\
                 walk [] (split "/" (pct_decode s)) = walk (walk [] (split "/" (pct_decode fp))) (split "/" (pct_decode rest)) \/
               s = [] /\ path_join fp u = [] /\ fp = [] /\ u = []).
    { unfold path_join. destruct fp as [|c fp]; cbn [is_empty andb].
      - destruct u as [|x u]; cbn [is_empty]; [exists []; auto|]. exists (x :: u). left. split; [reflexivity|]. split; [exact Nu|].
        split; [exact Ep|]. exact (Ew []).
      - destruct u as [|x u]; cbn [is_empty].
        + exists (c :: fp). left. split; [reflexivity|]. split; [exact Ndf|]. rewrite <- Ep. change (plain_elems []) with (@nil bytes). rewrite app_nil_r.
          split; [reflexivity|]. rewrite <- Ew. reflexivity.
        + exists ((c :: fp) ++ "/"%char :: x :: u). left. split; [reflexivity|]. split; [|split].
          * rewrite split_app_slash. intros X. apply in_app_or in X as [X|X]; contradiction.
          * rewrite <- Ep. unfold plain_elems. rewrite split_app_slash, filter_app. reflexivity.
          * rewrite decode_slash, split_app_slash, walk_app, Ew. reflexivity. }
    destruct J as (s & [(J & Ns & Pl & W)|(-> & J & -> & ->)]); rewrite J.
    - destruct (clean_decode s Ns) as [C1 C2]. pose proof (http_any fsys q (path_clean s) p) as K. rewrite C1, C2, W, Pl in K.
      assert (Z : final (pct_decode (last (plain_elems fp ++ plain_elems rest) [])) = B"index.html" <->
        (if plain_elems fp ++ plain_elems rest then (if is_rooted s then [] else dot) else final (pct_decode (last (plain_elems fp ++ plain_elems rest) []))) = B"index.html").
      { destruct (plain_elems fp ++ plain_elems rest); [|reflexivity]. split; [discriminate|]. destruct (is_rooted s); discriminate. }
      rewrite Z. destruct (serve_http q (set_path (path_clean s)) p (iofs_open fsys)) as [o pp]. exact K.
    - pose proof (http_any fsys q [] p) as K. rewrite <- Ew. rewrite <- Ep. 
      destruct (serve_http q (set_path []) p (iofs_open fsys)) as [o pp]. exact K.
  Qed.
  (** ... and the fixed file, whatever the request *)
  Theorem C134_fixed_file : forall fsys fp q path p df,
    decodes fp df ->
    (final df = B"index.html" -> index_answer q p (fst (fix_run fsys fp q path p))) /\
    (final df <> B"index.html" -> file_answer fsys (name_of (walk [] (split "/" df))) q p (fst (fix_run fsys fp q path p))).
  Proof.
    intros fsys fp q path p df Hd. apply decodes_iff in Hd. subst df. unfold static_fix_run.
    pose proof (http_any fsys q fp p) as K. destruct (serve_http q (set_path fp) p (iofs_open fsys)) as [o pp]. exact K.
  Qed.

  (** ** C135: the request path after a static handler *)
  (** it is decoded and tidied once more ... *)
  Theorem C135_path_afterwards : forall fsys q path p fp up d,
    decodes path d ->
    exists dirs lst after, Forall good dirs /\ after = "/"%char :: join "/" (dirs ++ [lst]) /\ ~ In "/"%char lst /\
      walk dirs [lst] = walk [] (split "/" d) /\ (lst = final d \/ lst = [] /\ final d = B"..") /\
      snd (file_run fsys up q path p) = after /\ snd (embed_run fsys fp up q path p) = after /\ snd (fix_run fsys fp q path p) = after.
  Proof.
    intros fsys q path p fp up d Hd. apply decodes_iff in Hd. subst d.
    destruct (set_path_shape path) as (st & l & G & N & _ & E & W & L).
    exists st, l, (set_path path). split; [exact G|]. split; [rewrite E, with_slashes_join; reflexivity|]. split; [exact N|].
    split; [exact W|]. split; [exact L|].
    destruct (path_after time_parse fmt_time mime_type b1 b2 url_string fsys q path p fp up) as (-> & -> & ->). auto.
  Qed.
  (** ... so it is the old one exactly when the old one has no escape left in it *)
  Theorem C135_kept_exactly : forall fsys q target p fp up after,
    let path := normalize_path target in
    In after [snd (file_run fsys up q path p); snd (embed_run fsys fp up q path p); snd (fix_run fsys fp q path p)] ->
    (after = path <-> no_escape path).
  Proof.
    intros fsys q target p fp up after path H.
    assert (E : after = set_path path).
    { destruct (path_after time_parse fmt_time mime_type b1 b2 url_string fsys q path p fp up) as (E1 & E2 & E3).
      destruct H as [<-|[<-|[<-|[]]]]; assumption. }
    subst after. destruct (normalize_shape target) as (es & l & G & N & Nl & Es). fold path in Es. clear H. split.
    - intros X. rewrite Es in *. set (s := with_slashes es ++ l) in *. pose proof (set_path_length s) as K. rewrite X in K. cbn [length] in K.
      destruct (decode_length s) as [L1 L2]. assert (Ne : no_escape s) by (apply L2; lia).
      apply (no_escape_slash [] s no_escape_nil Ne).
    - intros Ne. unfold set_path. rewrite Es in *. apply normalize_fix; assumption.
  Qed.

  (** ** C136: every file of an embedded file system can be requested through a mount of any of
      its directories *)
  Theorem C136_every_file_exposed : forall fsys fp url es,
    url = [] \/ (exists us, us <> [] /\ Forall good us /\ url = "/"%char :: join "/" us) ->
    ~ In (B"..") (split "/" fp) -> es <> [] -> Forall good es ->
    exists target, below url (normalize_path target) /\
      forall q p, file_answer fsys (name_of es) q p (fst (embed_run fsys fp (trim_prefix url (B"/")) q (normalize_path target) p)).
  Proof.
    intros fsys fp url es Hu Nf Ne G.
    assert (Hu' : exists us, Forall good us /\ (us = [] /\ url = [] \/ us <> [] /\ url = "/"%char :: join "/" us)).
    { destruct Hu as [->|(us & U1 & U2 & ->)]; [exists []|exists us]; auto. }
    destruct Hu' as (us & Gu & Hus).
    destruct (exists_last Ne) as (es' & x & ->). apply Forall_app in G as [G1 G2]. inversion G2 as [|? ? Gx _]; subst.
    set (k := length (walk [] (split "/" (pct_decode fp)))).
    set (ds := repeat (enc (B"..")) k ++ map enc es' ++ [enc (x ++ B"/")]).
    assert (Gd : Forall good ds).
    { unfold ds. apply Forall_app. split.
      - apply Forall_forall. intros y Hy. apply repeat_spec in Hy. subst y. apply enc_good. discriminate.
      - apply Forall_app. split.
        + apply Forall_forall. intros y Hy. apply in_map_iff in Hy as (z & <- & Hz). apply enc_good. rewrite Forall_forall in G1. apply (G1 z Hz).
        + constructor; [|constructor]. apply enc_good. destruct x; discriminate. }
    assert (Nd : ds <> []) by (unfold ds; destruct (repeat (enc (B"..")) k), es'; discriminate).
    assert (Gall : Forall good (us ++ ds)) by (apply Forall_app; auto).
    assert (Nall : us ++ ds <> []) by (destruct us; [exact Nd|discriminate]).
    exists ("/"%char :: join "/" (map enc (us ++ ds))).
    assert (Ep : normalize_path ("/"%char :: join "/" (map enc (us ++ ds))) = "/"%char :: join "/" (us ++ ds)).
    { apply set_path_decoded; [exact Nall|exact Gall|]. rewrite decode_join, map_map. f_equal.
      rewrite <- map_id. apply map_ext. intros a. apply decode_enc. }
    assert (Eb : normalize_path ("/"%char :: join "/" (map enc (us ++ ds))) = url ++ "/"%char :: join "/" ds).
    { rewrite Ep. destruct Hus as [[-> ->]|[U ->]]; [reflexivity|]. rewrite join_app by assumption. reflexivity. }
    split; [exists (join "/" ds); exact Eb|]. intros q p.
    assert (Dd : pct_decode (join "/" ds) = join "/" (repeat (B"..") k ++ es' ++ [x ++ B"/"])).
    { rewrite decode_join. f_equal. unfold ds. rewrite !map_app, map_map. cbn [map].
      assert (Mr : map pct_decode (repeat (enc (B"..")) k) = repeat (B"..") k) by (clear; induction k as [|j IH]; [reflexivity|cbn [repeat map]; f_equal; exact IH]).
      rewrite Mr, decode_enc. do 2 f_equal. rewrite <- map_id. apply map_ext. intros a. apply decode_enc. }
    destruct (C134_embedded_mount fsys fp (trim_prefix url (B"/")) q ("/"%char :: join "/" (map enc (us ++ ds))) p (join "/" ds)
      (pct_decode (join "/" ds)) (pct_decode fp) (x ++ B"/")) as [_ K].
    - rewrite Ep. destruct Hus as [[-> ->]|[U ->]].
      + right. split; [reflexivity|left; reflexivity].
      + left. change (trim_prefix ("/"%char :: join "/" us) (B"/")) with (join "/" us). rewrite join_app by assumption. reflexivity.
    - exact Nf.
    - apply decodes_decode.
    - apply decodes_decode.
    - replace (x ++ B"/") with (pct_decode (enc (x ++ B"/"))) by apply decode_enc.
      replace (last (plain_elems fp ++ plain_elems (join "/" ds)) []) with (enc (x ++ B"/")); [apply decodes_decode|].
      assert (Pd : plain_elems (join "/" ds) = ds).
      { unfold plain_elems. rewrite split_join; [|exact Nd|apply goods_ns; exact Gd]. clear - Gd. induction Gd as [|y l (y1 & y2 & _) _ IH]; [reflexivity|].
        cbn [filter]. unfold is_dot. rewrite (nonempty_is _ y1), (proj2 (beq_neq y dot) y2). cbn [orb negb]. f_equal. exact IH. }
      rewrite Pd. unfold ds. rewrite !app_assoc. symmetry. apply last_last.
    - assert (Fi : final (x ++ B"/") <> B"index.html").
      { change (B"/") with ("/"%char :: []). rewrite final_app. discriminate. }
      specialize (K Fi).
      assert (En : walk (walk [] (split "/" (pct_decode fp))) (split "/" (pct_decode (join "/" ds))) = es' ++ [x]).
      { rewrite Dd. 
        assert (Js : split "/" (join "/" (repeat (B"..") k ++ es' ++ [x ++ B"/"])) = repeat (B"..") k ++ es' ++ [x; []]).
        { rewrite app_assoc.
          assert (Hn : Forall ns (repeat (B"..") k ++ es')).
          { apply Forall_app. split; [|apply goods_ns; exact G1]. apply Forall_forall. intros y Hy. apply repeat_spec in Hy. subst y. vm_compute. intuition discriminate. }
          rewrite (app_assoc _ es' [x; []]). generalize dependent (repeat (B"..") k ++ es'). intros l Hl.
          destruct l as [|a l].
          - cbn [app join]. change (B"/") with ("/"%char :: []). rewrite split_app_slash, split_one by apply Gx. reflexivity.
          - rewrite join_app by discriminate. rewrite split_app_slash. rewrite split_join by (try discriminate; exact Hl). f_equal.
            cbn [join]. change (B"/") with ("/"%char :: []). rewrite split_app_slash, split_one by apply Gx. reflexivity. }
        rewrite Js, walk_app, walk_app. unfold k. rewrite walk_up. rewrite (walk_good es' G1). cbn [app].
        change [x; []] with ([x] ++ [[]]). rewrite walk_app. rewrite (walk_good [x] G2). reflexivity. }
      rewrite En in K. exact K.
  Qed.
End Exposed.

(** ... and downloaded from a server that has such a mount *)
Theorem C136_every_file_downloadable : forall (U : Type) other dir_fs fresh_set time_parse fmt_time mime_type b1 b2 url_string
    order os1 os2 file url fsys sets (sv : srv U) u es f data,
  let o := OStaticFileFS file url fsys sets in
  any_order order -> setup other dir_fs fresh_set new_srv (os1 ++ o :: os2) = Ok sv -> Forall proper (os1 ++ o :: os2) ->
  chosen fresh_set sets url = Some u -> plain_url url ->
  url = [] \/ (exists us, us <> [] /\ Forall good us /\ url = "/"%char :: join "/" us) ->
  ~ In (B"..") (split "/" file) ->
  (forall o' path, In o' (os1 ++ os2) -> below url path -> ~ claims other o' (B"GET") path) ->
  es <> [] -> Forall good es -> io_open fsys (name_of es) = inl f -> regular f data ->
  exists target, below url (normalize_path target) /\
    forall q, unconditional q -> downloads time_parse fmt_time mime_type b1 b2 url_string order sv q (normalize_path target) data.
Proof.
  intros U other dir_fs fresh_set tp ft mt b1 b2 us order os1 os2 file url fsys sets sv u es f data o Ho Hs Hw Hc Hp Hu Hf Hno Ne G Hopen Hreg.
  set (fp := trim_prefix file (B"/")).
  assert (Fd : ~ In (B"..") (split "/" fp)).
  { unfold fp, trim_prefix. change (B"/") with ["/"%char]. destruct file as [|c file']; [exact Hf|]. cbn [strip_prefix].
    destruct (Ascii.eqb_spec "/"%char c) as [<-|]; [|exact Hf]. intros X. apply Hf. cbn [split]. rewrite Ascii.eqb_refl. right. exact X. }
  destruct (C136_every_file_exposed tp ft mt b1 b2 us fsys fp url es Hu Fd Ne G) as (target & Bl & A).
  exists target. split; [exact Bl|]. intros q Un old p. specialize (A q p). destruct A as [_ A]. rewrite Hopen in A.
  pose proof Hreg as (_ & _ & _ & _ & info & Hst & Hd & _). rewrite Hst, Hd in A.
  destruct (C88_whole_file_partial tp ft mt b1 b2 q p f info _ data _ Un Hreg Hst A) as (r & Er & St & Bd).
  destruct (C99_mount_partial other dir_fs fresh_set order os1 os2 o url sv (B"GET") (normalize_path target) old (u, embed_handler file url fsys)) as [Hfind _];
    try assumption.
  { reflexivity. }
  { unfold o. cbn [S_Mount.set_of]. rewrite Hc. reflexivity. }
  { intros o' Hin. apply Hno; assumption. }
  specialize (Hfind (conj (or_introl eq_refl) Bl)).
  exists u, (embed_handler file url fsys), r. unfold embed_handler in *. fold fp in Hfind. fold fp. cbn [M_Mount.handler_run].
  destruct (static_embed_run tp ft mt b1 b2 us fsys fp (trim_prefix url (B"/")) q (normalize_path target) p) as [x y]. cbn [fst] in Er. subst x.
  eexists _, y. split; [destruct Un as [-> _]; exact Hfind|]. split; [reflexivity|]. split; assumption.
Qed.

(** ** C137: mount points with dots in them, exactly *)
Theorem C137_dotted_mount : forall (U : Type) other dir_fs fresh_set order os1 os2 o url (sv : srv U) m path old s,
  any_order order -> setup other dir_fs fresh_set new_srv (os1 ++ o :: os2) = Ok sv -> Forall proper (os1 ++ o :: os2) ->
  mounts o url -> dotted_url url -> set_of dir_fs fresh_set o = Some s ->
  (forall o', In o' (os1 ++ os2) -> ~ claims other o' m path) ->
  (In m [B"GET"; B"HEAD"] /\ (exists rest, dot_match url path ("/"%char :: rest)) -> srv_find order sv m path old = (TFound s, [])) /\
  (~ (In m [B"GET"; B"HEAD"] /\ (exists rest, dot_match url path ("/"%char :: rest))) -> srv_find order sv m path old = (TNotFound, [])).
Proof.
  intros U other dir_fs fresh_set order os1 os2 o url sv m path old s Ho Hs Hw Hm Hd Hset Hno.
  assert (Hcl : claims other o m path <-> In m [B"GET"; B"HEAD"] /\ exists rest, dot_match url path ("/"%char :: rest)).
  { assert (X : claims other o m path <-> In m [B"GET"; B"HEAD"] /\ exists f, compile other (mount_expr url) = Some f /\ f path = true)
      by (destruct o; cbn [mounts] in Hm; try contradiction; subst; reflexivity).
    rewrite X, compile_mount by exact Hd. rewrite <- (match_dots url Hd path). split.
    - intros (G & f & E & M). injection E as <-. auto.
    - intros (G & M). split; [exact G|]. eexists. split; [reflexivity|exact M]. }
  assert (Only : forall o', In o' (os1 ++ o :: os2) -> claims other o' m path -> o' = o).
  { intros o' Hin Hc. apply in_app_or in Hin as [Hin|[Hin|Hin]]; [|auto|]; exfalso; apply (Hno o'); auto; apply in_or_app; auto. }
  assert (Nf : forall s' a, srv_find order sv m path old = (TFound s', a) -> s' = s /\ a = [] /\ claims other o m path).
  { intros s' a F. destruct (found_cases other dir_fs fresh_set order _ sv m path old s' a Ho Hs Hw F) as ((o' & Hin & Hc & Hs') & A).
    assert (Eo := Only o' Hin Hc). subst o'. split; [congruence|]. split; [|exact Hc].
    destruct A as [->|(o2 & Hin2 & Hc2 & Np)]; [reflexivity|]. exfalso. apply Np. rewrite (Only o2 Hin2 Hc2).
    destruct o; cbn [mounts] in Hm; try contradiction; reflexivity. }
  split.
  - intros [G Bl].
    destruct (setup_tables other dir_fs fresh_set _ sv Hs) as [T1 T2 T3 T4].
    unfold srv_find in *. destruct (C15_path_routes_first _ (srv_matches sv) order (sv_top sv) (sv_rt sv) m path old) as [A1 A2].
    destruct (tree_find (sv_top sv) m path old) as [[s0| | |] a0] eqn:E.
    { specialize (A1 s0 a0 eq_refl). rewrite A1. destruct (Nf s0 a0 A1) as (-> & -> & _). reflexivity. }
    all: destruct A2 as [A2 _]; [intros ? ? X; discriminate X|].
    all: set (f := match_items (map item_of url ++ [(Chr "/", false); (AnyRune, true)])).
    all: assert (Hr : In (MethodGetHead, f, s) (expr_reg other dir_fs fresh_set o))
      by (destruct o; cbn [mounts] in Hm; try contradiction; subst; unfold expr_reg; rewrite compile_mount by exact Hd; rewrite Hset; left; reflexivity).
    all: assert (Hr' : In (MethodGetHead, f, s) (flat_map (expr_reg other dir_fs fresh_set) (os1 ++ o :: os2))) by (apply in_flat_map; exists o; split; [apply in_elt|exact Hr]).
    all: apply In_nth_error in Hr' as [k Ek].
    all: assert (N : In (MethodGetHead, k, s) (number 0 (flat_map (expr_reg other dir_fs fresh_set) (os1 ++ o :: os2)))) by (apply (number_In other dir_fs fresh_set); eauto).
    all: destruct (C13_regexp_lookup _ (srv_matches sv) order _ _ m path Ho T2) as ((_ & K) & _ & _).
    all: assert (Hk : srv_matches sv k path = true)
      by (assert (Z : nth_error (sv_exprs sv) k = Some f) by (rewrite T3; exact (map_nth_error _ k _ Ek));
          unfold srv_matches; rewrite Z; apply (match_dots url Hd); exact Bl).
    all: destruct K as (s1 & a1 & F); [exists (MethodGetHead, k, s); split; [exact N|]; split; [apply covers_gethead; exact G|exact Hk]|].
    all: specialize (A2 s1 a1 F); rewrite A2; destruct (Nf s1 [] A2) as (-> & _ & _); reflexivity.
  - intros N. eapply (not_found other dir_fs fresh_set); [|exact Hs]. intros s' a F. destruct (Nf s' a F) as (_ & _ & Hc). apply N, Hcl, Hc.
Qed.
(** the path below the mount point itself is among them, and C134 says what is opened for each *)
Theorem C137_remainder : forall up path rest,
  dotted_url ("/"%char :: up) -> dot_match ("/"%char :: up) path ("/"%char :: rest) ->
  (below ("/"%char :: up) path /\ remainder up path rest) \/
  (~ (exists more, path = "/"%char :: up ++ more) /\ exists rest', path = "/"%char :: rest' /\ remainder up path rest').
Proof.
  intros up path rest Hd D.
  assert (Hs : exists p, path = "/"%char :: p) by (inversion D; subst; eauto).
  destruct Hs as [p ->]. destruct (strip_prefix up p) as [t|] eqn:E.
  - apply strip_prefix_inv in E. subst p. change ("/"%char :: up ++ t) with (("/"%char :: up) ++ t) in D.
    apply literal_match in D. subst t. left. split; [exists rest; reflexivity|left; reflexivity].
  - right. assert (N : ~ (exists more, p = up ++ more)).
    { intros [more ->]. rewrite strip_prefix_app in E. discriminate. }
    split; [intros [more X]; injection X as X; apply N; eauto|]. exists p. split; [reflexivity|]. right. auto.
Qed.
Theorem C137_below_included : forall url path, dotted_url url -> below url path -> exists rest, dot_match url path ("/"%char :: rest).
Proof. intros url path Hd [rest ->]. exists rest. apply below_match. exact Hd. Qed.

(** ** Concrete cases *)
Definition e_fs : iofs := IoFs
  (fun n => if beq n (B"secret/index.html") then inl (x_file (B"index.html") false (B"top"))
            else if beq n (B"files/a.txt") then inl (x_file (B"a.txt") false (B"hello")) else inr err_not_exist)
  (fun _ => inr err_not_exist).
Definition e_embed target := static_embed_run x_tp x_ft x_mt [] [] x_us e_fs (B"files") (B"static") x_q (normalize_path target) x_p.
Lemma e_hex c n : nth_error (B"0123456789abcdef") n = Some c -> hex_value c n.
Proof. left. assumption. Qed.
(** [/static/%252e%252e/secret/index.html%252f] is outside the directory that was mounted *)
Example C134_case :
  normalize_path (B"/static/%252e%252e/secret/index.html%252f") = B"/static/%2e%2e/secret/index.html%2f" /\
  remainder (B"static") (B"/static/%2e%2e/secret/index.html%2f") (B"%2e%2e/secret/index.html%2f") /\
  decodes (B"%2e%2e/secret/index.html%2f") (B"../secret/index.html/") /\ decodes (B"files") (B"files") /\
  decodes (last (plain_elems (B"files") ++ plain_elems (B"%2e%2e/secret/index.html%2f")) []) (B"index.html/") /\
  ~ In (B"..") (split "/" (B"files")) /\ final (B"index.html/") <> B"index.html" /\
  name_of (walk (walk [] (split "/" (B"files"))) (split "/" (B"../secret/index.html/"))) = B"secret/index.html" /\
  exists r, e_embed (B"/static/%252e%252e/secret/index.html%252f") = (Some (r, FNil, [COpen (B"secret/index.html")]), B"/secret/index.html/") /\
    p_status r = 200%Z /\ p_body r = B"top".
Proof.
  split; [reflexivity|]. split; [left; reflexivity|].
  split; [apply decodes_iff; reflexivity|]. split; [apply decodes_iff; reflexivity|]. split; [apply decodes_iff; reflexivity|].
  split; [vm_compute; intuition discriminate|]. split; [discriminate|]. split; [reflexivity|].
  eexists. split; [vm_compute; reflexivity|]. split; reflexivity.
Qed.
Example C134_index_case : final (B"css/index.html") = B"index.html" /\ decodes (B"css/index%2ehtml") (B"css/index.html") /\
  exists r, static_fix_run x_tp x_ft x_mt [] [] x_us e_fs (B"css/index%2ehtml") x_q (B"/any") x_p = (Some (r, FNil, []), B"/any") /\ p_status r = 301%Z.
Proof. split; [reflexivity|]. split; [apply decodes_iff; reflexivity|]. eexists. split; [vm_compute; reflexivity|reflexivity]. Qed.
(** the specification of decoding, by its rules *)
Example decodes_case : decodes (B"a%2fB%zz%4") (B"a/B%zz%4").
Proof.
  constructor. { intros (x & y & s & a & b & X & _). discriminate X. }
  apply (DEscape "2" "f" 2 15); [left; reflexivity|left; reflexivity|].
  constructor. { intros (x & y & s & a & b & X & _). discriminate X. }
  constructor. { intros (x & y & s & a & b & X & Hx & _). injection X as <- <- _.
    destruct Hx as [Hx|Hx]; repeat (destruct a as [|a]; try discriminate Hx). }
  constructor. { intros (x & y & s & a & b & X & _). discriminate X. }
  constructor. { intros (x & y & s & a & b & X & _). discriminate X. }
  constructor. { intros (x & y & s & a & b & X & _). discriminate X. }
  constructor. { intros (x & y & s & a & b & X & _). discriminate X. }
  constructor.
Qed.
Example C135_case : normalize_path (B"/static/a%2525/%255fb") = B"/static/a%25/%5fb" /\
  decodes (B"/static/a%25/%5fb") (B"/static/a%/_b") /\ ~ no_escape (B"/static/a%25/%5fb") /\
  snd (e_embed (B"/static/a%2525/%255fb")) = B"/static/a%/_b" /\
  normalize_path (B"/static/a%zz") = B"/static/a%zz" /\ no_escape (B"/static/a%zz") /\ snd (e_embed (B"/static/a%zz")) = B"/static/a%zz".
Proof.
  split; [reflexivity|]. split; [apply decodes_iff; reflexivity|]. split.
  { intros H. specialize (H (B"/static/a") "2"%char "5"%char (B"/%5fb") eq_refl). apply H. split; unfold hex_digit_byte; vm_compute; auto 30. }
  split; [reflexivity|]. split; [reflexivity|]. split; [|reflexivity].
  apply decode_length. reflexivity.
Qed.
(** every hypothesis of C136 holds of this server, and the file is below another directory *)
Definition e_setup : list (op nat) := [OAdd MethodPost (B"/upload") 1 (Some 7); OStaticFileFS (B"/files") (B"/static") e_fs [Some 3]].
Definition e_srv : srv nat := match setup y_other y_dir y_set new_srv e_setup with Ok sv => sv | Panic => new_srv end.
Example C136_case :
  setup y_other y_dir y_set new_srv e_setup = Ok e_srv /\ Forall proper e_setup /\ chosen y_set [Some 3] (B"/static") = Some 3 /\ plain_url (B"/static") /\
  (forall o' path, In o' ([OAdd MethodPost (B"/upload") 1 (Some 7)] ++ []) -> below (B"/static") path -> ~ claims y_other o' (B"GET") path) /\
  Forall good [B"secret"; B"index.html"] /\ io_open e_fs (name_of [B"secret"; B"index.html"]) = inl (x_file (B"index.html") false (B"top")) /\
  regular (x_file (B"index.html") false (B"top")) (B"top").
Proof.
  split; [reflexivity|]. split; [repeat constructor|]. split; [reflexivity|].
  split. { apply Forall_forall; intros c Hc; vm_compute in Hc;
    repeat (destruct Hc as [<-|Hc]; [split; [vm_compute; intuition discriminate|reflexivity]|]); destruct Hc. }
  split. { intros o' path [<-|[]] _ [X _]. discriminate X. }
  split. { repeat constructor; try discriminate; vm_compute; intuition discriminate. }
  split; [reflexivity|]. apply x_regular. reflexivity.
Qed.
(** a mount at [/v1.0] also answers for [/v1x0/..], for a two-byte character and for a stray byte, not for a newline *)
Definition d_setup : list (op nat) := [OStaticFile (B"data") (B"/v1.0") [Some 4]; OAdd MethodGet (B"/about") 1 (Some 7)].
Definition d_srv : srv nat := match setup y_other y_dir y_set new_srv d_setup with Ok sv => sv | Panic => new_srv end.
Definition d_find p := srv_find (fun l => l) d_srv (B"GET") p [].
Example C137_case :
  setup y_other y_dir y_set new_srv d_setup = Ok d_srv /\ Forall proper d_setup /\ dotted_url (B"/v1.0") /\
  dot_match (B"/v1.0") (B"/v1x0/a") (B"/a") /\ first_char (utf8 233) (B"0/a") /\ first_char (map ch [233]%N) (B"0/a") /\
  d_find (B"/v1x0/a") = (TFound (4, HFile x_fs (B"v1.0")), []) /\
  d_find (B"/v1" ++ utf8 233 ++ B"0/a") = (TFound (4, HFile x_fs (B"v1.0")), []) /\
  d_find (B"/v1" ++ map ch [233]%N ++ B"0/a") = (TFound (4, HFile x_fs (B"v1.0")), []) /\
  d_find (B"/v1" ++ map ch [10]%N ++ B"0/a") = (TNotFound, []) /\ d_find (B"/v1.0") = (TNotFound, []).
Proof.
  split; [reflexivity|]. split; [repeat constructor|]. split.
  { apply Forall_forall; intros c Hc; vm_compute in Hc;
    repeat (destruct Hc as [<-|Hc]; [first [right; reflexivity|left; split; [vm_compute; intuition discriminate|reflexivity]]|]); destruct Hc. }
  split.
  { do 3 (constructor; [discriminate|]). apply (DmDot (utf8 120)); [left; exists 120%N; split; [left; reflexivity|reflexivity]|discriminate|].
    constructor; [discriminate|]. constructor. }
  split; [left; exists 233%N; split; [left; reflexivity|reflexivity]|].
  split; [apply one; reflexivity|].
  split; [reflexivity|]. split; [reflexivity|]. split; [reflexivity|]. split; reflexivity.
Qed.

Print Assumptions C134_directory_mount.
Print Assumptions C134_embedded_mount.
Print Assumptions C134_fixed_file.
Print Assumptions C135_path_afterwards.
Print Assumptions C135_kept_exactly.
Print Assumptions C136_every_file_exposed.
Print Assumptions C136_every_file_downloadable.
Print Assumptions C137_dotted_mount.
Print Assumptions C137_remainder.
Print Assumptions C137_below_included.
