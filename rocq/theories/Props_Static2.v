(** C88: what a static mount serves. *)
From Verif Require Import Base GoStrings GoPath GoInt M_Range P_Range S_Range M_Cond S_Cond M_Sniff M_Content S_Content
  S_Static P_GoPath M_Static Props_Cond Props_Sniff Props_Content Props_Static.
From Coq Require Import ZifyNat ZifyN.

(** the request path is the mount point, a slash and [rest]; a mount at the root has the empty
    mount point *)
Definition under (mount rest path : bytes) : Prop :=
  path = "/"%char :: mount ++ "/"%char :: rest \/ mount = [] /\ path = "/"%char :: rest.
(** a request without conditions and ranges *)
Definition unconditional (q : sreq) : Prop :=
  q_method q = B"GET" /\ Forall (fun k => hdr q k = []) [B"If-Match"; B"If-None-Match"; B"If-Modified-Since"; B"If-Unmodified-Since"; B"Range"].
(** a regular file with contents [data] that can be read and sought *)
Definition regular (f : gofile) (data : bytes) : Prop :=
  c_data (g_content f) = data /\ (forall a, c_seek (g_content f) a = true) /\ c_seek_end (g_content f) = true /\
  (Z.of_nat (length data) < two63)%Z /\
  exists info, g_stat f = inl info /\ fi_dir info = false /\ fi_size info = Z.of_nat (length data).

Lemma last_elem (es : list bytes) a : Forall ns es -> "/"%char :: join "/" es = a ++ B"/index.html" -> last es [] = B"index.html".
Proof.
  intros N E. apply (f_equal (split "/")) in E. change (B"/index.html") with ("/"%char :: B"index.html") in E.
  rewrite split_app_slash in E. change ("/"%char :: join "/" es) with ([] ++ "/"%char :: join "/" es) in E. rewrite split_app_slash in E.
  change (split "/" (B"index.html")) with [B"index.html"] in E. change (split "/" []) with [@nil ascii] in E.
  destruct es as [|e es].
  { change (split "/" (join "/" [])) with [@nil ascii] in E. apply (f_equal (fun l => last l [])) in E. rewrite !last_last in E. discriminate E. }
  rewrite split_join in E by (try discriminate; exact N).
  apply (f_equal (fun l => last l [])) in E. rewrite last_last in E. exact E.
Qed.
Lemma with_slashes_not_index es l a : Forall good es -> ns l -> "/"%char :: with_slashes es ++ l = a ++ B"/index.html" -> l = B"index.html".
Proof.
  intros G N E. rewrite with_slashes_join in E. apply last_elem in E.
  - rewrite last_last in E. exact E.
  - apply Forall_app. split; [apply goods_ns; exact G|constructor; [exact N|constructor]].
Qed.

(** ** paths without escapes and ".." *)
Lemma norm_plain es : ~ In dotdot es -> forall acc, fold_left norm_step es acc = rev (filter (fun e => negb (is_dot e)) es) ++ acc.
Proof.
  induction es as [|e es IH]; intros H acc; cbn [fold_left filter]; [reflexivity|].
  rewrite IH by (intros X; apply H; right; exact X). unfold norm_step.
  assert (Ne : beq e dotdot = false) by (apply beq_neq; intros ->; apply H; left; reflexivity). rewrite Ne.
  destruct (is_dot e); cbn [negb]; [reflexivity|]. cbn [rev]. rewrite <- app_assoc. reflexivity.
Qed.
Lemma set_path_plain s : ~ In dotdot (split "/" s) -> no_escape s ->
  is_rooted (set_path s) = true /\ 
  path_clean (set_path s) = "/"%char :: join "/" (plain_elems s) /\ Forall good (plain_elems s) /\ 
  ((exists a, set_path s = a ++ B"/index.html") -> last (plain_elems s) [] = B"index.html").
Proof.
  intros Nd Ne.
  set (t := if is_rooted s then tl s else s).
  assert (St : plain_elems s = plain_elems t /\ ~ In dotdot (split "/" t) /\ no_escape t).
  { unfold t. destruct (is_rooted s) eqn:R; [|auto]. destruct (split_rooted s R) as (u & -> & Es). cbn [tl].
    unfold plain_elems. rewrite Es in *. cbn [filter is_dot is_empty orb negb]. split; [reflexivity|].
    split; [intros X; apply Nd; right; exact X|]. exact (no_escape_tail ["/"%char] u Ne). }
  destruct St as (Ep & Nd' & Ne'). rewrite Ep.
  assert (Sh : exists (es : list bytes) (l : bytes), set_path s = "/"%char :: with_slashes es ++ l /\ Forall good es /\ ns l /\ l <> dotdot /\ 
      plain_elems t = es ++ (if is_dot l then [] else [l])).
  { unfold set_path, normalize_path. rewrite decode_id by exact Ne'. change (if is_rooted s then tl s else s) with t.
    pose proof (split_nonempty t) as Sn. pose proof (split_ns t) as Sns. unfold plain_elems.
    destruct (rev (split "/" t)) as [|l inits] eqn:Er.
    { apply (f_equal (@rev _)) in Er. rewrite rev_involutive in Er. contradiction. }
    apply (f_equal (@rev _)) in Er. rewrite rev_involutive in Er. cbn [rev] in Er. rewrite Er in *.
    assert (Ni : ~ In dotdot (rev inits)) by (intros X; apply Nd', in_or_app; left; exact X).
    assert (Nl : l <> dotdot) by (intros ->; apply Nd', in_or_app; right; left; reflexivity).
    apply Forall_app in Sns as [S1 S2]. inversion S2 as [|? ? S3 _]; subst.
    assert (Bl : beq l dotdot = false) by (apply beq_neq; exact Nl).
    match goal with |- context [rev (split "/" ?x)] => change (split "/" x) with (split "/" t) end.
    rewrite Er, rev_app_distr. cbn [rev app]. rewrite Bl, rev_involutive. rewrite norm_plain by exact Ni. rewrite app_nil_r, rev_involutive.
    eexists _, l. split; [reflexivity|]. split; [apply filter_good; assumption|]. split; [exact S3|]. split; [exact Nl|].
    rewrite filter_app. cbn [filter]. destruct (is_dot l); reflexivity. }
  destruct Sh as (es & l & E & G & N & Nl & Epl).
  assert (Gp : Forall good (plain_elems t)) by (apply filter_good; [apply split_ns|exact Nd']).
  rewrite E. split; [reflexivity|]. split; [|split; [exact Gp|]].
  - destruct (clean_rooted ("/"%char :: with_slashes es ++ l) eq_refl) as [-> _]. f_equal. f_equal.
    change ("/"%char :: with_slashes es ++ l) with ([] ++ "/"%char :: with_slashes es ++ l). rewrite split_app_slash.
    change (split "/" []) with [@nil ascii]. cbn [app]. rewrite clean_cons_empty, with_slashes_join, split_join.
    + rewrite Epl. destruct (is_dot l) eqn:D.
      * unfold clean_elems. rewrite fold_left_app. cbn [fold_left]. unfold clean_step at 1. rewrite D, app_nil_r. apply clean_good. exact G.
      * apply clean_good. rewrite Epl in Gp. exact Gp.
    + destruct es; discriminate.
    + apply Forall_app. split; [apply goods_ns; exact G|constructor; [exact N|constructor]].
  - intros (a & X). rewrite Epl. apply with_slashes_not_index in X; [|exact G|exact N]. subst l. cbn [is_dot is_empty].
    change (is_dot (B"index.html")) with false. apply last_last.
Qed.
Lemma clean_again s : ~ In dotdot (split "/" s) -> no_escape s ->
  ~ In dotdot (split "/" (path_clean s)) /\ no_escape (path_clean s) /\ plain_elems (path_clean s) = plain_elems s.
Proof.
  intros Nd Ne.
  assert (G : Forall good (plain_elems s)) by (apply filter_good; [apply split_ns|exact Nd]).
  assert (E : Forall no_escape (plain_elems s)).
  { apply Forall_forall. intros x Hx. apply filter_In in Hx as [Hx _].
    pose proof (no_escape_split s Ne) as F. rewrite Forall_forall in F. exact (F x Hx). }
  assert (Gd : ~ In dotdot (plain_elems s)).
  { intros X. rewrite Forall_forall in G. destruct (G _ X) as (_ & _ & Y & _). apply Y. reflexivity. }
  assert (Fp : filter (fun e => negb (is_dot e)) (plain_elems s) = plain_elems s).
  { clear - G. induction G as [|e es (H1 & H2 & _) _ IH]; cbn [filter]; [reflexivity|].
    unfold is_dot at 1. rewrite (nonempty_is _ H1), (proj2 (beq_neq e dot) H2). cbn [orb negb]. rewrite IH. reflexivity. }
  unfold path_clean. rewrite clean_plain by exact Nd. fold (plain_elems s).
  set (l := plain_elems s) in *.
  destruct (is_rooted s).
  - change ("/"%char :: join "/" l) with ([] ++ "/"%char :: join "/" l). split; [|split].
    + rewrite split_app_slash. intros [X|X]; [discriminate|]. destruct l as [|e es]; [destruct X as [X|[]]; discriminate|].
      rewrite split_join in X by (try discriminate; apply goods_ns; exact G). contradiction.
    + apply no_escape_slash; [apply no_escape_nil|apply no_escape_join; exact E].
    + unfold plain_elems. rewrite split_app_slash. cbn [filter app split is_dot is_empty orb negb]. destruct l as [|e es]; [reflexivity|].
      rewrite split_join by (try discriminate; apply goods_ns; exact G). exact Fp.
  - destruct l as [|e es].
    + split; [intros [X|[]]; discriminate|]. split; [|reflexivity]. intros a x y b X. destruct a as [|? [|? ?]]; discriminate.
    + split; [|split].
      * rewrite split_join by (try discriminate; apply goods_ns; exact G). exact Gd.
      * apply no_escape_join. exact E.
      * unfold plain_elems. rewrite split_join by (try discriminate; apply goods_ns; exact G). exact Fp.
Qed.
(** the rest of a normalised request path *)
Lemma under_rest target mount rest : under mount rest (normalize_path target) -> no_escape (normalize_path target) ->
  ~ In dotdot (split "/" rest) /\ no_escape rest.
Proof.
  intros U Ne. destruct (normalize_shape target) as (es & l & G & N & Nl & E).
  assert (All : ~ In dotdot (split "/" (normalize_path target))).
  { rewrite E. change ("/"%char :: with_slashes es ++ l) with ([] ++ "/"%char :: with_slashes es ++ l). rewrite split_app_slash.
    intros [X|X]; [discriminate|]. cbn [app] in X. rewrite with_slashes_join, split_join in X.
    - apply in_app_or in X as [X|[X|[]]]; [|congruence]. rewrite Forall_forall in G. destruct (G _ X) as (_ & _ & Z & _). apply Z. reflexivity.
    - destruct es; discriminate.
    - apply Forall_app. split; [apply goods_ns; exact G|constructor; [exact N|constructor]]. }
  destruct U as [U|[_ U]]; rewrite U in *.
  - change ("/"%char :: mount ++ "/"%char :: rest) with (("/"%char :: mount) ++ "/"%char :: rest) in *. split.
    + intros X. apply All. rewrite split_app_slash. apply in_or_app. right. exact X.
    + apply (no_escape_tail (("/"%char :: mount) ++ ["/"%char])). rewrite <- app_assoc. exact Ne.
  - change ("/"%char :: rest) with ([] ++ "/"%char :: rest) in *. split.
    + intros X. apply All. rewrite split_app_slash. apply in_or_app. right. exact X.
    + apply (no_escape_tail ["/"%char]). exact Ne.
Qed.
Lemma under_trim mount rest path : under mount rest path ->
  exists u, trim_prefix (trim_prefix path (B"/")) mount = u /\ (u = "/"%char :: rest \/ u = rest).
Proof.
  intros [-> |[-> ->]].
  - exists ("/"%char :: rest). split; [|left; reflexivity]. unfold trim_prefix at 2.
    change ("/"%char :: mount ++ "/"%char :: rest) with (B"/" ++ (mount ++ "/"%char :: rest)).
    rewrite strip_prefix_app. unfold trim_prefix. rewrite strip_prefix_app. reflexivity.
  - exists rest. split; [|right; reflexivity]. unfold trim_prefix at 2. change ("/"%char :: rest) with (B"/" ++ rest).
    rewrite strip_prefix_app. reflexivity.
Qed.
Lemma plain_slash rest : plain_elems ("/"%char :: rest) = plain_elems rest.
Proof. reflexivity. Qed.
Lemma unconditional_proceeds tp q p m : unconditional q -> proceeds tp q p m /\ hdr q (B"Range") = [].
Proof.
  intros [_ F]. rewrite Forall_forall in F.
  assert (H1 : hdr q (B"If-Match") = []) by (apply F; cbn [In]; auto).
  assert (H2 : hdr q (B"If-None-Match") = []) by (apply F; cbn [In]; auto).
  assert (H3 : hdr q (B"If-Modified-Since") = []) by (apply F; cbn [In]; auto).
  assert (H4 : hdr q (B"If-Unmodified-Since") = []) by (apply F; cbn [In]; auto).
  assert (H5 : hdr q (B"Range") = []) by (apply F; cbn [In]; auto 6).
  split; [|exact H5]. unfold proceeds, step1_fails, step2_fails, step3_fails, step4_fails. rewrite H1, H2, H3, H4. tauto.
Qed.

Lemma set_path_index s : ~ In dotdot (split "/" s) -> no_escape s -> last (split "/" s) [] = B"index.html" ->
  exists a, set_path s = a ++ B"/index.html".
Proof.
  intros Nds Nes Ls. unfold set_path, normalize_path.
      set (t := if is_rooted s then tl s else s).
      assert (St : last (split "/" t) [] = B"index.html" /\ ~ In dotdot (split "/" t) /\ no_escape t).
      { unfold t. destruct (is_rooted s) eqn:R; [|auto]. destruct (split_rooted s R) as (v & -> & Es). cbn [tl]. rewrite Es in *.
        split; [|split; [intros X; apply Nds; right; exact X|exact (no_escape_tail ["/"%char] v Nes)]].
        pose proof (split_nonempty v). destruct (split "/" v); [congruence|exact Ls]. }
      destruct St as (Lt & Ndt & Net). rewrite decode_id by exact Net. change (if is_rooted s then tl s else s) with t.
      destruct (rev (split "/" t)) as [|l inits] eqn:Er.
      { apply (f_equal (@rev _)) in Er. rewrite rev_involutive in Er. pose proof (split_nonempty t). contradiction. }
      apply (f_equal (@rev _)) in Er. rewrite rev_involutive in Er. cbn [rev] in Er. rewrite Er, last_last in Lt. subst l.
      match goal with |- context [rev (split "/" ?x)] => change (split "/" x) with (split "/" t) end.
      rewrite Er, rev_app_distr. cbn [rev app]. change (beq (B"index.html") dotdot) with false. cbv iota.
      rewrite rev_involutive.
      set (w := rev (fold_left norm_step (rev inits) [])). 
      destruct w as [|x w] using rev_ind; [exists []; reflexivity|].
      exists ("/"%char :: with_slashes w ++ x). unfold with_slashes. rewrite map_app, concat_app. cbn [map concat].
      rewrite app_nil_r, <- !app_assoc. cbn [app]. rewrite <- !app_assoc. reflexivity.
Qed.

Section Mounts.
  Variable time_parse : bytes -> bytes -> option gtime.
  Variable fmt_time : gtime -> bytes.
  Variable mime_type : bytes -> bytes.
  Variables b1 b2 : bytes.
  Variable url_string : bytes -> bytes.
  Notation serve_http := (serve_http time_parse fmt_time mime_type b1 b2 url_string).
  Notation serve_file := (serve_file time_parse fmt_time mime_type b1 b2 url_string).
  Notation serve_content := (serve_content time_parse fmt_time mime_type b1 b2).
  Notation file_run := (static_file_run time_parse fmt_time mime_type b1 b2 url_string).
  Notation embed_run := (static_embed_run time_parse fmt_time mime_type b1 b2 url_string).
  Notation fix_run := (static_fix_run time_parse fmt_time mime_type b1 b2 url_string).

  (** ServeContent's answer for an open file, and the error a handler returns for it *)
  Definition content_answer (q : sreq) (p : sresp) (f : gofile) (info : finfo) (name : bytes) (o : option (sresp * ferr * list call)) : Prop :=
    exists r e, serve_content q p (fi_name info) (fi_mod info) (Some (fi_size info)) (g_content f) = Some (r, e) /\
      exists fe, o = Some (r, fe, [COpen name]) /\ (e = SOk <-> fe = FNil).

  Lemma http_file fsys q path p es f info :
    is_rooted path = true -> ~ (exists a, path = a ++ B"/index.html") ->
    path_clean path = "/"%char :: join "/" es -> Forall good es ->
    io_open fsys (name_of es) = inl f -> g_stat f = inl info -> fi_dir info = false ->
    content_answer q p f info (name_of es) (fst (serve_http q path p (iofs_open fsys))).
  Proof.
    intros R Ni Ec G Ho Hs Hd. unfold M_Static.serve_http. rewrite has_prefix_rooted, R. cbn [fst]. rewrite Ec.
    unfold M_Static.serve_file.
    destruct (has_suffix path (B"/index.html")) eqn:X; [apply has_suffix_iff in X; contradiction|].
    assert (O : iofs_open fsys ("/"%char :: join "/" es) = (inl f, [COpen (name_of es)])).
    { destruct (iofs_open_name fsys es G) as (cs & E & Ecs). rewrite Ho in Ecs. subst cs.
      assert (F : fst (iofs_open fsys ("/"%char :: join "/" es)) = inl f).
      { unfold iofs_open. assert (En : (if beq ("/"%char :: join "/" es) (B"/") then dot else trim_prefix ("/"%char :: join "/" es) (B"/")) = name_of es).
        { destruct es as [|e0 es]; [reflexivity|]. 
          assert (N : join "/" (e0 :: es) <> []) by (intros Y; apply join_nil in Y; [discriminate|exact G]).
          destruct (beq_spec ("/"%char :: join "/" (e0 :: es)) (B"/")) as [Y|_].
          { change (B"/") with ["/"%char] in Y. injection Y as Y. contradiction. }
          unfold trim_prefix. change (B"/") with ["/"%char]. cbn [strip_prefix]. rewrite Ascii.eqb_refl. reflexivity. }
        rewrite En, Ho. reflexivity. }
      destruct (iofs_open fsys ("/"%char :: join "/" es)) as [o cs]. cbn [fst snd] in *. subst. reflexivity. }
    rewrite O, Hs. rewrite Hd. cbn [negb andb].
    destruct (C83_total time_parse fmt_time mime_type b1 b2 q p (fi_name info) (fi_mod info) (Some (fi_size info)) (g_content f)) as (r & e & E).
    exists r, e. split; [exact E|]. rewrite E. eexists. split; [reflexivity|].
    destruct e; split; intros; congruence.
  Qed.


  (** ** C88: for any request, the answer for a file below the mount point is ServeContent's
      answer for exactly that file, and its error is returned *)
  Theorem C88_static_file_partial : forall fsys q target p up rest f info,
    let path := normalize_path target in
    under up rest path -> no_escape path ->
    last (plain_elems rest) [] <> B"index.html" ->
    io_open fsys (name_of (plain_elems rest)) = inl f -> g_stat f = inl info -> fi_dir info = false ->
    content_answer q p f info (name_of (plain_elems rest)) (fst (file_run fsys up q path p)).
  Proof.
    intros fsys q target p up rest f info path U Ne Ni Ho Hs Hd.
    destruct (under_rest target up rest U Ne) as [Nd Nr]. destruct (under_trim up rest path U) as (u & Eu & Hu).
    assert (Pu : plain_elems u = plain_elems rest /\ ~ In dotdot (split "/" u) /\ no_escape u).
    { destruct Hu as [->| ->]; [|auto]. split; [reflexivity|]. split.
      - intros [X|X]; [discriminate|contradiction].
      - apply (no_escape_slash [] rest no_escape_nil Nr). }
    destruct Pu as (Ep & Nu & Neu). destruct (set_path_plain u Nu Neu) as (R & C & G & I). rewrite Ep in *.
    unfold static_file_run. rewrite Eu. 
    pose proof (http_file fsys q (set_path u) p (plain_elems rest) f info R (fun X => Ni (I X)) C G Ho Hs Hd) as K.
    destruct (serve_http q (set_path u) p (iofs_open fsys)) as [o pp]. exact K.
  Qed.
  Theorem C88_static_embed_partial : forall fsys q target p fp up rest f info,
    let path := normalize_path target in
    let name := plain_elems fp ++ plain_elems rest in
    under up rest path -> no_escape path -> no_escape fp -> ~ In (B"..") (split "/" fp) ->
    last name [] <> B"index.html" ->
    io_open fsys (name_of name) = inl f -> g_stat f = inl info -> fi_dir info = false ->
    content_answer q p f info (name_of name) (fst (embed_run fsys fp up q path p)).
  Proof.
    intros fsys q target p fp up rest f info path name U Ne Nf Ndf Ni Ho Hs Hd.
    destruct (under_rest target up rest U Ne) as [Nd Nr]. destruct (under_trim up rest path U) as (u & Eu & Hu).
    assert (Pu : plain_elems u = plain_elems rest /\ ~ In dotdot (split "/" u) /\ no_escape u).
    { destruct Hu as [->| ->]; [|auto]. split; [reflexivity|]. split.
      - intros [X|X]; [discriminate|contradiction].
      - apply (no_escape_slash [] rest no_escape_nil Nr). }
    destruct Pu as (Ep & Nu & Neu).
    assert (Pj : plain_elems (path_join fp u) = name /\ ~ In dotdot (split "/" (path_join fp u)) /\ no_escape (path_join fp u)).
    { unfold path_join, name. rewrite <- Ep. destruct fp as [|c fp]; cbn [is_empty andb].
      - destruct u as [|d u].
        + cbn [is_empty]. split; [reflexivity|]. split; [intros [X|[]]; discriminate|apply no_escape_nil].
        + cbn [is_empty]. destruct (clean_again _ Nu Neu) as (A1 & A2 & A3). rewrite A3. auto.
      - destruct u as [|d u]; cbn [is_empty].
        + destruct (clean_again _ Ndf Nf) as (A1 & A2 & A3). rewrite A3. change (plain_elems []) with (@nil bytes).
          rewrite app_nil_r. auto.
        + assert (D : ~ In dotdot (split "/" ((c :: fp) ++ "/"%char :: d :: u))).
          { rewrite split_app_slash. intros X. apply in_app_or in X as [X|X]; contradiction. }
          destruct (clean_again _ D (no_escape_slash _ _ Nf Neu)) as (A1 & A2 & A3). rewrite A3. split; [|auto].
          unfold plain_elems. rewrite split_app_slash, filter_app. reflexivity. }
    destruct Pj as (Ej & Nj & Nej). destruct (set_path_plain _ Nj Nej) as (R & C & G & I). rewrite Ej in *.
    unfold static_embed_run. rewrite Eu.
    pose proof (http_file fsys q (set_path (path_join fp u)) p name f info R (fun X => Ni (I X)) C G Ho Hs Hd) as K.
    destruct (serve_http q (set_path (path_join fp u)) p (iofs_open fsys)) as [o pp]. exact K.
  Qed.
  (** FixStaticFileFS: the one file, whatever the request path *)
  Theorem C88_fix_static_partial : forall fsys q path p fp f info,
    no_escape fp -> ~ In (B"..") (split "/" fp) -> last (plain_elems fp) [] <> B"index.html" ->
    io_open fsys (name_of (plain_elems fp)) = inl f -> g_stat f = inl info -> fi_dir info = false ->
    content_answer q p f info (name_of (plain_elems fp)) (fst (fix_run fsys fp q path p)).
  Proof.
    intros fsys q path p fp f info Nf Ndf Ni Ho Hs Hd.
    destruct (set_path_plain fp Ndf Nf) as (R & C & G & I). unfold static_fix_run.
    pose proof (http_file fsys q (set_path fp) p (plain_elems fp) f info R (fun X => Ni (I X)) C G Ho Hs Hd) as K.
    destruct (serve_http q (set_path fp) p (iofs_open fsys)) as [o pp]. exact K.
  Qed.
  (** a GET without conditions gets the whole file *)
  Theorem C88_whole_file_partial : forall q p f info name data o,
    unconditional q -> regular f data -> g_stat f = inl info -> content_answer q p f info name o ->
    exists r, o = Some (r, FNil, [COpen name]) /\ p_status r = 200%Z /\ p_body r = p_body p ++ data.
  Proof.
    intros q p f info name data o Un (Ed & Sk & Se & Sz & info' & Ei & _ & Es) Ei' (r & e & E & fe & -> & Hfe).
    rewrite Ei in Ei'. injection Ei' as <-.
    destruct (unconditional_proceeds time_parse q p (fi_mod info') Un) as [Pr Hr].
    destruct (C51_whole_content time_parse fmt_time mime_type b1 b2 q p (fi_name info') (fi_mod info') (g_content f)) as (r' & E' & St & Bd & _).
    - exact Pr.
    - split; assumption.
    - unfold size_of. rewrite Ed. exact Sz.
    - destruct Un as [-> _]. discriminate.
    - left. exact Hr.
    - unfold size_of in E'. rewrite Ed, <- Es in E'. rewrite E' in E. injection E as <- <-. exists r'.
      rewrite (proj1 Hfe eq_refl), Bd, Ed. auto.
  Qed.
  Lemma http_index fsys q p s : ~ In dotdot (split "/" s) -> no_escape s -> last (split "/" s) [] = B"index.html" ->
    fst (serve_http q (set_path s) p (iofs_open fsys)) = Some (local_redirect q p (B"./"), FNil, []).
  Proof.
    intros Nds Nes Ls. unfold M_Static.serve_http. rewrite has_prefix_rooted. unfold set_path at 1. rewrite normalize_rooted. cbn [fst].
      unfold M_Static.serve_file. rewrite (proj2 (has_suffix_iff _ _) (set_path_index s Nds Nes Ls)). reflexivity.
  Qed.
  (** so a fixed file of that name is never served *)
  Theorem C88_fix_index_redirect : forall fsys q path p fp,
    no_escape fp -> ~ In (B"..") (split "/" fp) -> last (split "/" fp) [] = B"index.html" ->
    exists r, fst (fix_run fsys fp q path p) = Some (r, FNil, []) /\ p_status r = 301%Z /\ p_body r = p_body p.
  Proof.
    intros fsys q path p fp Nf Ndf L. exists (local_redirect q p (B"./")). unfold static_fix_run.
    pose proof (http_index fsys q p fp Ndf Nf L) as K. destruct (serve_http q (set_path fp) p (iofs_open fsys)) as [o pp].
    split; [exact K|]. split; reflexivity.
  Qed.
  (** the exception: whatever exists, a name ending in index.html is answered by a redirect to "./" *)
  Theorem C88_index_redirect : forall fsys q target p fp up rest,
    let path := normalize_path target in
    under up rest path -> no_escape path -> no_escape fp -> ~ In (B"..") (split "/" fp) ->
    last (split "/" rest) [] = B"index.html" ->
    exists r, fst (file_run fsys up q path p) = Some (r, FNil, []) /\ fst (embed_run fsys fp up q path p) = Some (r, FNil, []) /\ 
      p_status r = 301%Z /\ p_body r = p_body p.
  Proof.
    intros fsys q target p fp up rest path U Ne Nf Ndf L.
    destruct (under_rest target up rest U Ne) as [Nd Nr]. destruct (under_trim up rest path U) as (u & Eu & Hu).
    assert (Pu : plain_elems u = plain_elems rest /\ ~ In dotdot (split "/" u) /\ no_escape u).
    { destruct Hu as [->| ->]; [|auto]. split; [reflexivity|]. split.
      - intros [X|X]; [discriminate|contradiction].
      - apply (no_escape_slash [] rest no_escape_nil Nr). }
    destruct Pu as (Ep & Nu & Neu).
    assert (Red : forall s, ~ In dotdot (split "/" s) -> no_escape s -> last (split "/" s) [] = B"index.html" ->
       fst (serve_http q (set_path s) p (iofs_open fsys)) = Some (local_redirect q p (B"./"), FNil, [])) by (intros; apply http_index; assumption).
    assert (Lu : last (split "/" u) [] = B"index.html").
    { destruct Hu as [->| ->]; [|exact L]. cbn [split]. rewrite Ascii.eqb_refl. pose proof (split_nonempty rest).
      destruct (split "/" rest); [congruence|exact L]. }
    exists (local_redirect q p (B"./")). unfold static_file_run, static_embed_run. rewrite Eu.
    split; [|split; [|split; reflexivity]].
    - pose proof (Red u Nu Neu Lu) as K. destruct (serve_http q (set_path u) p (iofs_open fsys)) as [o pp]. exact K.
    - assert (Pl : last (plain_elems u) [] = B"index.html").
      { unfold plain_elems. destruct (split "/" u) as [|x l] eqn:Es using rev_ind; [discriminate|]. rewrite last_last in Lu. subst x.
        rewrite filter_app. apply last_last. }
      assert (Pj : exists s, path_join fp u = path_clean s /\ ~ In dotdot (split "/" s) /\ no_escape s /\ last (plain_elems s) [] = B"index.html").
      { unfold path_join. destruct u as [|d u]; [discriminate|]. destruct fp as [|c fp]; cbn [is_empty andb].
        - exists (d :: u). auto.
        - exists ((c :: fp) ++ "/"%char :: d :: u). split; [reflexivity|]. split; [|split; [apply no_escape_slash; assumption|]].
          + rewrite split_app_slash. intros X. apply in_app_or in X as [X|X]; contradiction.
          + unfold plain_elems. rewrite split_app_slash, filter_app. fold (plain_elems (d :: u)).
            destruct (plain_elems (d :: u)) as [|x l] eqn:Es using rev_ind; [discriminate|]. rewrite last_last in Pl. subst x.
            rewrite app_assoc. apply last_last. }
      destruct Pj as (s & -> & Nds & Nes & Ls).
      destruct (clean_again s Nds Nes) as (A1 & A2 & A3).
      assert (K : fst (serve_http q (set_path (path_clean s)) p (iofs_open fsys)) = Some (local_redirect q p (B"./"), FNil, [])).
      { apply Red; try assumption.
        assert (G : Forall good (plain_elems s)) by (apply filter_good; [apply split_ns|exact Nds]).
        unfold path_clean. rewrite clean_plain by exact Nds. fold (plain_elems s).
        destruct (plain_elems s) as [|x l] eqn:Es; [discriminate|]. rewrite <- Es in *.
        destruct (is_rooted s).
        - cbn [split]. rewrite Ascii.eqb_refl. rewrite split_join; [|rewrite Es; discriminate|apply goods_ns; exact G].
          rewrite Es in *. exact Ls.
        - rewrite split_join; [exact Ls|rewrite Es; discriminate|apply goods_ns; exact G]. }
      destruct (serve_http q (set_path (path_clean s)) p (iofs_open fsys)) as [o pp]. exact K.
  Qed.
End Mounts.

(** the property as one would state it *)
Definition C88_claim : Prop := forall time_parse fmt_time mime_type b1 b2 url_string fsys q target p up rest f data,
  let path := normalize_path target in
  under up rest path -> no_escape path -> unconditional q ->
  io_open fsys (name_of (plain_elems rest)) = inl f -> regular f data ->
  exists r e calls, fst (static_file_run time_parse fmt_time mime_type b1 b2 url_string fsys up q path p) = Some (r, e, calls) /\ 
    p_status r = 200%Z /\ p_body r = p_body p ++ data.
Definition x_req : sreq := SReq (B"GET") (B"/static/index.html") [].
Definition x_index_fs : iofs := IoFs
  (fun n => if beq n (B"index.html") then inl (x_file (B"index.html") false (B"<html>")) else inr err_not_exist) (fun _ => inr err_not_exist).
Lemma x_unconditional : unconditional x_req.
Proof. split; [reflexivity|]. repeat constructor. Qed.
Lemma x_regular n d : (Z.of_nat (length d) < two63)%Z -> regular (x_file n false d) d.
Proof. intros H. split; [reflexivity|]. split; [reflexivity|]. split; [reflexivity|]. split; [exact H|]. eexists. repeat split. Qed.
Theorem C88_mount_refuted : ~ C88_claim.
Proof.
  intros H. specialize (H x_tp x_ft x_mt [] [] x_us x_index_fs x_req (B"/static/index.html") x_p (B"static") (B"index.html") (x_file (B"index.html") false (B"<html>")) (B"<html>")).
  cbv zeta in H. destruct H as (r & e & calls & E & St & _).
  - left. reflexivity.
  - apply no_percent. vm_compute. intuition discriminate.
  - apply x_unconditional.
  - reflexivity.
  - apply x_regular. reflexivity.
  - vm_compute in E. injection E as <- _ _. discriminate.
Qed.
Example C88_example :
  under (B"static") (B"css/a.css") (normalize_path (B"/static/css/./a.css")) /\ 
  no_escape (normalize_path (B"/static/css/./a.css")) /\ no_escape (B"/files/") /\ ~ In (B"..") (split "/" (B"/files/")) /\ 
  plain_elems (B"/files/") ++ plain_elems (B"css/a.css") = [B"files"; B"css"; B"a.css"] /\ 
  io_open x_fs (name_of [B"files"; B"css"; B"a.css"]) = inl (x_file (B"a.css") false (B"b{}")) /\ 
  regular (x_file (B"a.css") false (B"b{}")) (B"b{}") /\ unconditional x_q.
Proof.
  split; [left; reflexivity|]. split; [apply no_percent; vm_compute; intuition discriminate|].
  split; [apply no_percent; vm_compute; intuition discriminate|]. split; [vm_compute; intuition discriminate|].
  split; [reflexivity|]. split; [reflexivity|]. split; [apply x_regular; reflexivity|]. split; [reflexivity|repeat constructor].
Qed.
Print Assumptions C88_static_file_partial.
Print Assumptions C88_static_embed_partial.
Print Assumptions C88_fix_static_partial.
Print Assumptions C88_whole_file_partial.
Print Assumptions C88_index_redirect.
Print Assumptions C88_mount_refuted.
Print Assumptions C88_fix_index_redirect.
