(** C160: files whose paths need credentials. *)
From Verif Require Import Base GoStrings GoErrors GoPath M_Tree M_RegTree S_Route M_Cond M_Content S_Static P_GoPath M_Static Props_Static Props_Static2
  M_Mount S_Mount P_RegTree P_Mount Props_Mount S_Exposed P_Exposed P_Dotted Props_RegTree Props_Exposed Props_MountAnswer M_Site S_Site P_Site P_Site2 Props_Site.
From Verif Require M_Pipeline S_Pipeline M_Auth S_Auth P_Auth Props_Auth Props_Content.

(** requests for paths below [url] need credentials *)
Definition protected (h : M_Auth.base_auth) (url : bytes) : Prop :=
  M_Auth.a_use h = true /\ exists f, M_Auth.a_access h = Some f /\ forall rq, below url (M_Auth.rq_path rq) -> f rq = Ok true.
(** neither directory contains the other *)
Definition apart (d e : list bytes) : Prop := ~ (exists r, d = e ++ r) /\ ~ (exists r, e = d ++ r).
(** every registration is a route of the program or a mount of a directory of [fsys], and the mounts whose directory is
    below [priv], or contains it, are at protected paths *)
Definition guarded {U} (h : M_Auth.base_auth) (fsys : iofs) (priv : list bytes) (os : list (op U)) : Prop :=
  forall o, In o os ->
    (exists rm route n set, o = OAdd rm route n set) \/ (exists rm f n set, o = OAddReg rm f n set) \/
    (exists file up hsets, o = OStaticFileFS file ("/"%char :: up) fsys hsets /\ plain_url ("/"%char :: up) /\
       ~ In (B"..") (split "/" file) /\ no_escape file /\
       (protected h ("/"%char :: up) \/ apart (plain_elems file) priv)).

Lemma below_claim {U} other file url fsys hsets m path : plain_url url ->
  claims other (OStaticFileFS file url fsys hsets : op U) m path -> below url path.
Proof.
  intros Hp (_ & f & E & M). change (B"^" ++ url ++ B"/.*") with (mount_expr url) in E.
  rewrite compile_mount in E by (eapply Forall_impl; [|exact Hp]; auto). injection E as <-. apply match_plain in M; assumption.
Qed.
Lemma name_inj a b : Forall good a -> Forall good b -> name_of a = name_of b -> a = b.
Proof.
  intros Ha Hb E. assert (X : split "/" (name_of a) = split "/" (name_of b)) by (rewrite E; reflexivity).
  rewrite (name_of_parts a Ha), (name_of_parts b Hb) in X. destruct a as [|x a], b as [|y b]; try reflexivity; [| |exact X].
  - injection X as <- _. inversion Hb as [|? ? G]; subst. destruct G as (_ & G & _). exfalso. apply G. reflexivity.
  - injection X as -> _. inversion Ha as [|? ? G]; subst. destruct G as (_ & G & _). exfalso. apply G. reflexivity.
Qed.
Lemma app_comparable {A} (a b c d : list A) : a ++ b = c ++ d -> (exists r, a = c ++ r) \/ (exists r, c = a ++ r).
Proof.
  revert c. induction a as [|x a IH]; intros c E; [right; exists c; reflexivity|].
  destruct c as [|y c]; [left; exists (x :: a); reflexivity|]. injection E as <- E.
  destruct (IH c E) as [[r ->]|[r ->]]; [left|right]; exists r; reflexivity.
Qed.
Lemma trim_slash file : trim_prefix file (B"/") = file \/ file = "/"%char :: trim_prefix file (B"/").
Proof.
  unfold trim_prefix. destruct (strip_prefix (B"/") file) as [r|] eqn:E; [|left; reflexivity].
  right. apply Props_Content.strip_prefix_inv in E. exact E.
Qed.
Lemma trim_slash_facts file : plain_elems (trim_prefix file (B"/")) = plain_elems file /\
  (~ In (B"..") (split "/" file) -> ~ In (B"..") (split "/" (trim_prefix file (B"/")))) /\
  (no_escape file -> no_escape (trim_prefix file (B"/"))).
Proof.
  destruct (trim_slash file) as [-> | E]; [auto|]. revert E. generalize (trim_prefix file (B"/")). intros t ->. split; [reflexivity|]. split.
  - intros N H. apply N. cbn [split]. rewrite Ascii.eqb_refl. right. exact H.
  - intros N a x y s E. apply (N ("/"%char :: a) x y s). rewrite E. reflexivity.
Qed.

Section Private.
  Context {U : Type}.
  Variable other : bytes -> option matcher.
  Variable dir_fs : bytes -> iofs.
  Variable fresh_set : bytes -> U.
  Variable time_parse : bytes -> bytes -> option gtime.
  Variable fmt_time : gtime -> bytes.
  Variable mime_type : bytes -> bytes.
  Variables b1 b2 : bytes.
  Variable url_string : bytes -> bytes.
  Variable err_of : ferr -> bytes.
  Variable sets : U -> args -> mids.
  Variable mains : nat -> args -> option umain.
  Variable uni : bytes -> bytes.
  Variable order : rmap (@hs U) -> rmap (@hs U).
  Variable sched : list (option err) -> list (option err).
  Notation request := (site_request time_parse fmt_time mime_type b1 b2 url_string err_of sets mains order sched).
  Notation serve := (site_serve time_parse fmt_time mime_type b1 b2 url_string err_of sets mains uni order sched).
  Notation accepted := (accepted uni).

  Lemma bare name b w' files lvl w : (forall c, b c w = (w', files, ([], M_Pipeline.HRet None))) ->
    pg_wire (run_http (Some (SSet [] [] None (Some (name, nothing, b)))) None lvl sched w) = w'.
  Proof.
    intros H. unfold run_http, run_set. cbn [ss_main ss_before ss_after run_list]. unfold run1 at 1, nothing.
    unfold M_Pipeline.add_debug. cbn -[Z.leb].
    destruct (5 <=? lvl)%Z eqn:L; cbn -[Z.leb]; unfold run1; rewrite H; unfold M_Pipeline.add_debug; cbn -[Z.leb]; rewrite L; cbn; reflexivity.
  Qed.

  (** The claim: without credentials no file of the directory [priv] is opened. *)
  Definition C160_claim : Prop := forall st h os fsys priv w target,
    any_order order -> setup other dir_fs fresh_set new_srv os = Ok (st_srv st) -> Forall proper os ->
    st_auth st = Some h -> Forall good priv -> guarded h fsys priv os -> ~ accepted h w ->
    w_path w = normalize_path target ->
    (forall k, In k (pg_stages (serve st w)) -> who k = M_Pipeline.WMain -> w_path (g_in k) = w_path w) ->
    forall k more, In k (pg_stages (serve st w)) -> Forall good more -> ~ In (COpen (name_of (priv ++ more))) (g_files k).
  (** Missing below: request paths that have percent escapes left after fasthttp's decoding. *)
  Theorem C160_private_files_partial : forall st h os fsys priv w target,
    any_order order -> setup other dir_fs fresh_set new_srv os = Ok (st_srv st) -> Forall proper os ->
    st_auth st = Some h -> Forall good priv -> guarded h fsys priv os -> ~ accepted h w ->
    w_path w = normalize_path target -> no_escape (normalize_path target) ->
    (forall k, In k (pg_stages (serve st w)) -> who k = M_Pipeline.WMain -> w_path (g_in k) = w_path w) ->
    forall k more, In k (pg_stages (serve st w)) -> Forall good more -> ~ In (COpen (name_of (priv ++ more))) (g_files k).
  Proof.
    intros st h os fsys priv w target Ho Hs Hw Ha Hpriv Hg Nacc Hp Ne Hsame k more Hk Hmore Hin.
    assert (Nask : ~ asked h w).
    { intros A. apply Nacc. apply (C159_only_with_credentials time_parse fmt_time mime_type b1 b2 url_string err_of sets mains uni order sched st h w Ha A).
      intros X. rewrite X in Hk. exact Hk. }
    assert (Hreq : pg_stages (serve st w) = pg_stages (request st w)).
    { unfold site_serve in Hk |- *. rewrite Ha in Hk |- *.
      destruct (if M_Auth.a_use h then match M_Auth.a_access h with Some f => f (auth_request w) | None => Panic end else Ok false) as [[]|]; [|reflexivity|destruct Hk].
      destruct (snd (M_Auth.check uni h (auth_request w))) as [[]|]; [reflexivity|destruct Hk ..]. }
    rewrite Hreq in Hk, Hsame.
    destruct (srv_find order (st_srv st) (q_method (w_req w)) (w_path w) []) as [[[u hd]| | |] a] eqn:F;
      [|unfold site_request in Hk; rewrite F in Hk; destruct Hk ..].
    destruct (C158_files time_parse fmt_time mime_type b1 b2 url_string err_of sets mains order sched st w u hd a F k Hk) as [Sh W].
    { intros X. rewrite X in Hin. exact Hin. }
    destruct (found_cases other dir_fs fresh_set order os (st_srv st) _ _ _ _ a Ho Hs Hw F) as ((o & Io & Cl & So) & _).
    destruct (Hg o Io) as [(rm & route & n & set & ->)|[(rm & f & n & set & ->)|(file & up & hsets & -> & Pu & Nd & Nf & Ap)]].
    - cbn in So. destruct set; [|discriminate]. injection So as <- <-. exact (Sh n eq_refl).
    - cbn in So. destruct set; [|discriminate]. injection So as <- <-. exact (Sh n eq_refl).
    - cbn [S_Mount.set_of] in So. destruct (chosen fresh_set hsets ("/"%char :: up)) as [u'|]; [|discriminate]. cbn [option_map] in So. injection So as <- <-.
      pose proof (below_claim other _ _ _ _ _ _ Pu Cl) as Bl.
      destruct Ap as [(Us & f & Hf & Pr)|[Ap1 Ap2]].
      { apply Nask. split; [exact Us|]. exists f. split; [exact Hf|]. apply Pr. exact Bl. }
      destruct Bl as [rest Er]. destruct (trim_slash_facts file) as (T1 & T2 & T3).
      change (trim_prefix ("/"%char :: up) (B"/")) with up in *.
      destruct (handler_run time_parse fmt_time mime_type b1 b2 url_string (HEmbed fsys (trim_prefix file (B"/")) up) (w_req (g_in k)) (w_path (g_in k)) (w_resp (g_in k))) as [[oo path']|] eqn:E; [|discriminate E].
      destruct (static_stage time_parse fmt_time mime_type b1 b2 url_string err_of sets mains order sched st w u' _ a k oo path' F Hk W E) as [D _].
      destruct D as (_ & _ & D). destruct oo as [[[r e] files]|]; [|destruct D as [_ D]; rewrite D in Hin; exact Hin].
      destruct D as (_ & D & _). rewrite D in Hin. cbn [M_Mount.handler_run] in E. rewrite (Hsame k Hk W), Hp in E. rewrite Hp in Er.
      assert (Efst : fst (static_embed_run time_parse fmt_time mime_type b1 b2 url_string fsys (trim_prefix file (B"/")) up (w_req (g_in k)) (normalize_path target) (w_resp (g_in k))) = Some (r, e, files))
        by exact (f_equal (fun z => match z with Some z => fst z | None => None end) E).
      destruct (C46_mount_partial time_parse fmt_time mime_type b1 b2 url_string fsys _ target _ _ up r e files _ Ne (T3 Nf) (T2 Nd) (ex_intro _ rest Er) Efst Hin) as (bl & Gb & En).
      rewrite T1 in En. apply name_inj in En.
      + symmetry in En. apply app_comparable in En as [X|X]; [exact (Ap1 X)|exact (Ap2 X)].
      + apply Forall_app. auto.
      + apply Forall_app. split; [|exact Gb]. apply filter_good; [apply split_ns|exact Nd].
  Qed.

  (** Every file of an embedded file system is to be had without credentials if one of its directories is mounted at a
      path that does not need any. *)
  Theorem C160_every_file_without_credentials : forall st h os1 os2 file url fsys hsets u es f data,
    let o := OStaticFileFS file url fsys hsets in
    any_order order -> setup other dir_fs fresh_set new_srv (os1 ++ o :: os2) = Ok (st_srv st) -> Forall proper (os1 ++ o :: os2) ->
    st_auth st = Some h -> st_ses st = None -> sets u [] = Mids [] [] None ->
    chosen fresh_set hsets url = Some u -> plain_url url ->
    url = [] \/ (exists us, us <> [] /\ Forall good us /\ url = "/"%char :: join "/" us) ->
    ~ In (B"..") (split "/" file) ->
    (forall o' path, In o' (os1 ++ os2) -> below url path -> ~ claims other o' (B"GET") path) ->
    es <> [] -> Forall good es -> io_open fsys (name_of es) = inl f -> regular f data ->
    exists target, below url (normalize_path target) /\
      forall w, w_path w = normalize_path target -> unconditional (w_req w) -> not_asked h w ->
        p_status (w_resp (pg_wire (serve st w))) = 200%Z /\ p_body (w_resp (pg_wire (serve st w))) = p_body (w_resp w) ++ data.
  Proof.
    intros st h os1 os2 file url fsys hsets u es f data o Ho Hs Hw Ha Hses Hmid Hu Hpu Hurl Nd Hno Ne Ge Hf Hreg.
    destruct (C136_every_file_downloadable U other dir_fs fresh_set time_parse fmt_time mime_type b1 b2 url_string order os1 os2 file url fsys hsets (st_srv st) u es f data
      Ho Hs Hw Hu Hpu Hurl Nd Hno Ne Ge Hf Hreg) as (target & Bl & D).
    exists target. split; [exact Bl|]. intros w Ep Un Na.
    destruct (D (w_req w) Un [] (w_resp w)) as (u' & hd & r & calls & path' & F & R & S200 & Sb).
    assert (Fs : set_of dir_fs fresh_set o = Some (u', hd)).
    { destruct (C99_mount_partial other dir_fs fresh_set order os1 os2 o url (st_srv st) (q_method (w_req w)) (normalize_path target) []
        (u, HEmbed fsys (trim_prefix file (B"/")) (trim_prefix url (B"/")))) as [X _]; try assumption; try reflexivity.
      - unfold o. cbn [S_Mount.set_of]. rewrite Hu. reflexivity.
      - intros o' Io. rewrite (proj1 Un). apply Hno; assumption.
      - rewrite X in F by (split; [rewrite (proj1 Un); left; reflexivity|exact Bl]). injection F as <- <-.
        unfold o. cbn [S_Mount.set_of]. rewrite Hu. reflexivity. }
    assert (Eq : serve st w = request st w).
    { unfold site_serve. rewrite Ha. unfold auth_request. destruct Na as [Us|(g & Hg & Hr)]; [rewrite Us; reflexivity|].
      destruct (M_Auth.a_use h); [|reflexivity]. rewrite Hg, Hr. reflexivity. }
    rewrite Eq. unfold o in Fs. cbn [S_Mount.set_of] in Fs. rewrite Hu in Fs. cbn [option_map] in Fs. injection Fs as <- <-.
    rewrite <- Ep in F, R. unfold site_request. rewrite F, Hses. unfold sset_of. rewrite Hmid. cbn [mi_before mi_after mi_last map option_map static_name].
    rewrite (bare _ _ (Wire (w_req w) path' r) calls); [auto|].
    intros c. unfold static_code. rewrite R. reflexivity.
  Qed.
End Private.

(** ** Concrete cases *)
Definition s_fs : iofs := IoFs
  (fun n => if beq n (B"secret/key.txt") then inl (x_file (B"key.txt") false (B"top"))
            else if beq n (B"files/a.txt") then inl (x_file (B"a.txt") false (B"hello")) else inr err_not_exist)
  (fun _ => inr err_not_exist).
Definition s_setup : list (op nat) :=
  [OAdd MethodPost (B"/upload") 1 (Some 7); OStaticFileFS (B"/files") (B"/static") s_fs [Some 3]; OStaticFileFS (B"/secret") (B"/private") s_fs [Some 4];
   OStaticFileFS (B"/files") (B"/gated") s_fs [Some 5]].
Definition s_srv : srv nat := match setup y_other y_dir y_set new_srv s_setup with Ok sv => sv | Panic => new_srv end.
Definition s_auth : M_Auth.base_auth :=
  M_Auth.BaseAuth true [] [] (B"Basic realm=x") [(B"bob", B"pw")] false true (Some (fun rq => Ok (has_prefix (M_Auth.rq_path rq) (B"/private/")))).
(** a before handler that marks the response and lets only HTTP requests with a query pass, and an after handler *)
Definition s_gate : uhandler := UHandler (B"gate") (fun _ w =>
  (Wire (w_req w) (w_path w) (M_Cond.hset (B"X-Gate") (B"1") (w_resp w)),
   (if beq (q_uri (w_req w)) [] then [M_Pipeline.AStop] else [], M_Pipeline.HRet None))).
Definition s_after : uhandler := UHandler (B"late") (fun _ w =>
  (Wire (w_req w) (w_path w) (append_body (B"!") (w_resp w)), ([], M_Pipeline.HRet None))).
Definition s_sets (u : nat) (_ : args) : mids := if Nat.eqb u 5 then Mids [s_gate] [s_after] None else Mids [] [] None.
Definition s_mains (_ : nat) (_ : args) : option umain := None.
Definition s_site : @site nat := Site s_srv (Some s_auth) None 0.
Definition s_err (_ : ferr) : bytes := B"failed".
Definition s_request := site_request x_tp x_ft x_mt [] [] x_us s_err s_sets s_mains (fun l => l) (fun l => l) s_site.
Definition s_serve := site_serve x_tp x_ft x_mt [] [] x_us s_err s_sets s_mains (fun l => l) (fun l => l) (fun l => l) s_site.
Definition s_wire (path uri : bytes) (hd : headers) : wire := Wire (SReq (B"GET") uri hd) (normalize_path path) x_p.

Lemma s_plain url : (forall c, In c url -> ordinary c) -> plain_url url.
Proof. intros H. apply Forall_forall. exact H. Qed.
Ltac plain_chars := apply s_plain; intros c Hc; vm_compute in Hc;
  repeat (destruct Hc as [<-|Hc]; [split; [vm_compute; intuition discriminate|reflexivity]|]); destruct Hc.
Lemma s_order : @any_order (@hs nat) (fun l => l).
Proof. intros l. reflexivity. Qed.
Lemma s_ok : setup y_other y_dir y_set new_srv s_setup = Ok s_srv /\ Forall proper s_setup.
Proof. split; [reflexivity|repeat constructor]. Qed.
Lemma s_private : protected s_auth (B"/private").
Proof.
  split; [reflexivity|]. eexists. split; [reflexivity|]. intros rq [rest E]. rewrite E.
  change (B"/private" ++ "/"%char :: rest) with (B"/private/" ++ rest). unfold has_prefix. rewrite strip_prefix_app. reflexivity.
Qed.
Lemma s_apart : apart [B"files"] [B"secret"].
Proof. split; intros [r X]; discriminate X. Qed.
Lemma s_noesc s : existsb (fun c => Ascii.eqb c "%") s = false -> no_escape s.
Proof.
  intros H a x y b -> _. rewrite existsb_app in H. apply orb_false_iff in H as [_ H]. discriminate H.
Qed.
Lemma s_guarded : guarded s_auth s_fs [B"secret"] s_setup.
Proof.
  intros o [<-|[<-|[<-|[<-|[]]]]].
  - left. eauto.
  - right; right. exists (B"/files"), (B"static"), [Some 3]. split; [reflexivity|]. split; [plain_chars|].
    split; [vm_compute; intuition discriminate|]. split; [apply s_noesc; reflexivity|]. right. exact s_apart.
  - right; right. exists (B"/secret"), (B"private"), [Some 4]. split; [reflexivity|]. split; [plain_chars|].
    split; [vm_compute; intuition discriminate|]. split; [apply s_noesc; reflexivity|]. left. exact s_private.
  - right; right. exists (B"/files"), (B"gated"), [Some 5]. split; [reflexivity|]. split; [plain_chars|].
    split; [vm_compute; intuition discriminate|]. split; [apply s_noesc; reflexivity|]. right. exact s_apart.
Qed.
Lemma s_refused w : snd (M_Auth.check (fun l => l) s_auth (auth_request w)) = Ok false -> ~ accepted (fun l => l) s_auth w.
Proof.
  intros C A. assert (L : S_Auth.log_ok s_auth) by (intros X; discriminate X).
  apply (Props_Auth.C35_admitted_iff (fun l => l) s_auth (auth_request w) eq_refl L) in A. unfold S_Auth.admitted in A. rewrite C in A. discriminate A.
Qed.
(** a client without credentials gets [/secret/key.txt] as [/static/%252e%252e/secret/key.txt] *)
Definition s_attack := s_wire (B"/static/%252e%252e/secret/key.txt") (B"/x") [].
Example C160_attack :
  map g_files (pg_stages (s_serve s_attack)) = [[]; [COpen (B"secret/key.txt")]; []] /\
  p_body (w_resp (pg_wire (s_serve s_attack))) = B"top" /\
  p_status (w_resp (pg_wire (s_serve (s_wire (B"/private/key.txt") (B"/x") [])))) = 401%Z.
Proof. split; [vm_compute; reflexivity|]. split; vm_compute; reflexivity. Qed.
Theorem C160_private_files_refuted :
  ~ (forall (U : Type) other dir_fs (fresh_set : bytes -> U) time_parse fmt_time mime_type b1 b2 url_string err_of sets mains uni order sched,
       C160_claim other dir_fs fresh_set time_parse fmt_time mime_type b1 b2 url_string err_of sets mains uni order sched).
Proof.
  intros H.
  specialize (H nat y_other y_dir y_set x_tp x_ft x_mt [] [] x_us s_err s_sets s_mains (fun l => l) (fun l => l) (fun l => l)
    s_site s_auth s_setup s_fs [B"secret"] s_attack (B"/static/%252e%252e/secret/key.txt") s_order (proj1 s_ok) (proj2 s_ok) eq_refl).
  assert (G : Forall good [B"secret"]) by (repeat constructor; try discriminate; vm_compute; intuition discriminate).
  assert (G2 : Forall good [B"key.txt"]) by (repeat constructor; try discriminate; vm_compute; intuition discriminate).
  specialize (H G s_guarded). specialize (H (s_refused s_attack eq_refl) eq_refl).
  fold s_serve in H.
  assert (F : map g_files (pg_stages (s_serve s_attack)) = [[]; [COpen (B"secret/key.txt")]; []]) by (vm_compute; reflexivity).
  assert (W : forallb (fun k => beq (w_path (g_in k)) (B"/static/%2e%2e/secret/key.txt") ||
    match who k with M_Pipeline.WMain => false | _ => true end) (pg_stages (s_serve s_attack)) = true) by (vm_compute; reflexivity).
  revert H F W. generalize (pg_stages (s_serve s_attack)). intros ks H F W.
  destruct ks as [|k0 [|k1 ks]]; [discriminate F ..|]. injection F as _ F _.
  refine (H _ k1 [B"key.txt"] (or_intror (or_introl eq_refl)) G2 _).
  - intros k Hk Wk. rewrite forallb_forall in W. specialize (W k Hk). rewrite Wk, orb_false_r in W. apply beq_eq in W. rewrite W. reflexivity.
  - rewrite F. left. reflexivity.
Qed.
(** an honest request on the same server meets the hypotheses of C160_private_files_partial *)
Example C160_case : let w := s_wire (B"/static/a.txt") (B"/static/a.txt") [] in
  any_order (fun l : rmap (@hs nat) => l) /\ setup y_other y_dir y_set new_srv s_setup = Ok (st_srv s_site) /\ Forall proper s_setup /\
  st_auth s_site = Some s_auth /\ Forall good [B"secret"] /\ guarded s_auth s_fs [B"secret"] s_setup /\ ~ accepted (fun l => l) s_auth w /\
  w_path w = normalize_path (B"/static/a.txt") /\ no_escape (normalize_path (B"/static/a.txt")) /\
  map w_path (map g_in (pg_stages (s_serve w))) = [w_path w; w_path w; w_path w] /\
  map g_files (pg_stages (s_serve w)) = [[]; [COpen (B"files/a.txt")]; []].
Proof.
  cbv zeta. split; [exact s_order|]. split; [exact (proj1 s_ok)|]. split; [exact (proj2 s_ok)|]. split; [reflexivity|].
  split; [repeat constructor; try discriminate; vm_compute; intuition discriminate|]. split; [exact s_guarded|].
  split; [apply s_refused; reflexivity|]. split; [reflexivity|]. split; [apply s_noesc; reflexivity|]. split; vm_compute; reflexivity.
Qed.
Example C160_every_case :
  setup y_other y_dir y_set new_srv ([OAdd MethodPost (B"/upload") 1 (Some 7)] ++ OStaticFileFS (B"/files") (B"/static") s_fs [Some 3] ::
     [OStaticFileFS (B"/secret") (B"/private") s_fs [Some 4]; OStaticFileFS (B"/files") (B"/gated") s_fs [Some 5]]) = Ok (st_srv s_site) /\
  st_ses s_site = None /\ s_sets 3 [] = Mids [] [] None /\ chosen y_set [Some 3] (B"/static") = Some 3 /\ plain_url (B"/static") /\
  ~ In (B"..") (split "/" (B"/files")) /\
  (forall o' path, In o' ([OAdd MethodPost (B"/upload") 1 (Some 7)] ++ [OStaticFileFS (B"/secret") (B"/private") s_fs [Some 4]; OStaticFileFS (B"/files") (B"/gated") s_fs [Some 5]]) ->
     below (B"/static") path -> ~ claims y_other o' (B"GET") path) /\
  Forall good [B"secret"; B"key.txt"] /\ io_open s_fs (name_of [B"secret"; B"key.txt"]) = inl (x_file (B"key.txt") false (B"top")) /\
  regular (x_file (B"key.txt") false (B"top")) (B"top") /\
  (forall w, below (B"/static") (w_path w) -> not_asked s_auth w) /\ unconditional (w_req s_attack).
Proof.
  split; [reflexivity|]. split; [reflexivity|]. split; [reflexivity|]. split; [reflexivity|]. split; [plain_chars|].
  split; [vm_compute; intuition discriminate|]. split.
  { intros o' path [<-|[<-|[<-|[]]]] [rest ->] Cl.
    - destruct Cl as [X _]. discriminate X.
    - apply below_claim in Cl; [|plain_chars]. destruct Cl as [r X]. discriminate X.
    - apply below_claim in Cl; [|plain_chars]. destruct Cl as [r X]. discriminate X. }
  split; [repeat constructor; try discriminate; vm_compute; intuition discriminate|]. split; [reflexivity|]. split; [apply x_regular; reflexivity|].
  split.
  - intros w [rest E]. right. eexists. split; [reflexivity|]. cbn [M_Auth.rq_path]. rewrite E. reflexivity.
  - split; [reflexivity|repeat constructor].
Qed.
(** [/gated] has a before handler that marks the response and stops the request that has no URI, and an after handler *)
Example C158_case :
  let pass := s_request (s_wire (B"/gated/a.txt") (B"/gated/a.txt") []) in
  let stop := s_request (s_wire (B"/gated/a.txt") [] []) in
  srv_find (fun l => l) s_srv (B"GET") (B"/gated/a.txt") [] = (TFound (5, HEmbed s_fs (B"files") (B"gated")), []) /\
  map who (pg_stages pass) = [M_Pipeline.WInit; M_Pipeline.WBefore 0; M_Pipeline.WMain; M_Pipeline.WAfter 0; M_Pipeline.WWait] /\
  map g_files (pg_stages pass) = [[]; []; [COpen (B"files/a.txt")]; []; []] /\
  p_body (w_resp (pg_wire pass)) = B"hello!" /\ aget (B"X-Gate") (p_hdr (w_resp (pg_wire pass))) = Some (B"1") /\
  map who (pg_stages stop) = [M_Pipeline.WInit; M_Pipeline.WBefore 0; M_Pipeline.WWait] /\
  map (fun k => M_Pipeline.k_acts (g_call k)) (pg_stages stop) = [[]; [M_Pipeline.AStop]; []] /\
  p_body (w_resp (pg_wire stop)) = [] /\
  srv_find (fun l => l) s_srv (B"GET") (B"/none") [] = (TNotFound, []) /\
  p_body (w_resp (pg_wire (s_request (s_wire (B"/none") [] [])))) = B"not found".
Proof. cbv zeta. repeat (split; [vm_compute; reflexivity|]). vm_compute. reflexivity. Qed.
(** [around_static] speaks of this request: the mount's hypotheses hold *)
Example C158_mount_case :
  (forall o', In o' ([OAdd MethodPost (B"/upload") 1 (Some 7); OStaticFileFS (B"/files") (B"/static") s_fs [Some 3]; OStaticFileFS (B"/secret") (B"/private") s_fs [Some 4]] ++ []) ->
     ~ claims y_other o' (B"GET") (B"/gated/a.txt")) /\
  dot_match (B"/gated") (B"/gated/a.txt") (B"/a.txt") /\ remainder (B"gated") (B"/gated/a.txt") (B"a.txt") /\
  decodes (B"a.txt") (B"a.txt") /\ decodes (B"/files") (B"/files") /\
  decodes (last (plain_elems (B"/files") ++ plain_elems (B"a.txt")) []) (B"a.txt") /\
  name_of (walk (walk [] (split "/" (B"/files"))) (split "/" (B"a.txt"))) = B"files/a.txt" /\
  chosen y_set [Some 5] (B"/gated") = Some 5 /\ dotted_url (B"/gated") /\ no_escape (B"/gated/a.txt").
Proof.
  split. { intros o' [<-|[<-|[<-|[]]]] Cl.
    - destruct Cl as [X _]. discriminate X.
    - apply below_claim in Cl; [|plain_chars]. destruct Cl as [r X]. discriminate X.
    - apply below_claim in Cl; [|plain_chars]. destruct Cl as [r X]. discriminate X. }
  split. { apply (below_match (B"/gated") (B"a.txt")). eapply Forall_impl; [|plain_chars]. auto. }
  split; [left; reflexivity|]. split; [apply decodes_iff; reflexivity|]. split; [apply decodes_iff; reflexivity|]. split; [apply decodes_iff; reflexivity|].
  split; [reflexivity|]. split; [reflexivity|]. split; [|apply s_noesc; reflexivity]. eapply Forall_impl; [|plain_chars]. auto.
Qed.
Definition s_bob : headers := [(B"Authorization", B"Basic Ym9iOnB3")].
Example C159_case :
  S_Auth.log_ok s_auth /\ asked s_auth (s_wire (B"/private/key.txt") (B"/x") s_bob) /\ accepted (fun l => l) s_auth (s_wire (B"/private/key.txt") (B"/x") s_bob) /\
  p_body (w_resp (pg_wire (s_serve (s_wire (B"/private/key.txt") (B"/x") s_bob)))) = B"top" /\
  asked s_auth (s_wire (B"/private/key.txt") (B"/x") []) /\ ~ accepted (fun l => l) s_auth (s_wire (B"/private/key.txt") (B"/x") []) /\
  p_status (w_resp (pg_wire (s_serve (s_wire (B"/private/key.txt") (B"/x") [])))) = 401%Z /\
  aget (B"WWW-Authenticate") (p_hdr (w_resp (pg_wire (s_serve (s_wire (B"/private/key.txt") (B"/x") []))))) = Some (B"Basic realm=x") /\
  not_asked s_auth (s_wire (B"/gated/a.txt") (B"/x") []).
Proof.
  assert (L : S_Auth.log_ok s_auth) by (intros X; discriminate X). split; [exact L|].
  split; [split; [reflexivity|]; eexists; split; reflexivity|].
  split. { apply (Props_Auth.C35_admitted_iff (fun l => l) s_auth (auth_request (s_wire (B"/private/key.txt") (B"/x") s_bob)) eq_refl L). vm_compute. reflexivity. }
  split; [vm_compute; reflexivity|]. split; [split; [reflexivity|]; eexists; split; reflexivity|]. split; [apply s_refused; reflexivity|].
  split; [vm_compute; reflexivity|]. split; [vm_compute; reflexivity|]. right. eexists. split; reflexivity.
Qed.
(** a check that is to be logged, without a logger (fields as in [s_auth]) *)
Example C159_panics_case :
  let h := M_Auth.BaseAuth true [] [] (B"Basic realm=x") [(B"bob", B"pw")] true true (Some (fun rq => Ok (has_prefix (M_Auth.rq_path rq) (B"/private/")))) in
  M_Auth.a_use h = true /\ asked h (s_wire (B"/private/key.txt") (B"/x") s_bob) /\ ~ S_Auth.log_ok h.
Proof. split; [reflexivity|]. split; [split; [reflexivity|]; eexists; split; reflexivity|]. intros L. discriminate (L eq_refl). Qed.

Print Assumptions C158_request.
Print Assumptions C158_handlers.
Print Assumptions C158_not_found.
Print Assumptions C158_files.
Print Assumptions C158_barred.
Print Assumptions C158_reached.
Print Assumptions C158_directory_mount.
Print Assumptions C158_embedded_mount.
Print Assumptions C158_fixed_file.
Print Assumptions C158_path_restored.
Print Assumptions C159_refused.
Print Assumptions C159_admitted.
Print Assumptions C159_panics.
Print Assumptions C159_only_with_credentials.
Print Assumptions C160_private_files_partial.
Print Assumptions C160_private_files_refuted.
Print Assumptions C160_every_file_without_credentials.
