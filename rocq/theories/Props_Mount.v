(** Property theorems for static mounts: C99, C100. *)
From Verif Require Import Base GoStrings GoPath M_Tree M_RegTree S_Route P_TreeFind P_RegTree Props_Tree Props_RegTree
  M_Cond M_Content S_Static P_GoPath M_Static Props_Static Props_Static2 M_Mount S_Mount P_Mount.

Section Routing.
  Context {U : Type}.
  Variable other : bytes -> option matcher.
  Variable dir_fs : bytes -> iofs.
  Variable fresh_set : bytes -> U.
  Notation setup := (setup other dir_fs fresh_set).
  Notation set_of := (set_of dir_fs fresh_set).
  Notation claims := (claims other).

  Lemma found_cases order os (sv : srv U) m path old s a : any_order order -> setup new_srv os = Ok sv -> Forall proper os ->
    srv_find order sv m path old = (TFound s, a) ->
    (exists o, In o os /\ claims o m path /\ set_of o = Some s) /\
    (a = [] \/ exists o, In o os /\ claims o m path /\ path_reg dir_fs fresh_set o <> []).
  Proof.
    intros Ho Hs Hw F. destruct (setup_tables other dir_fs fresh_set os sv Hs) as [T1 T2 T3 T4].
    unfold srv_find, server_find in F. rewrite T1 in F.
    destruct (tree_find (routed (flat_map (path_reg dir_fs fresh_set) os)) m path old) as [[s0| | |] a0] eqn:E.
    - injection F as <- <-. apply C02_routing_sound in E; [|apply proper_regs; exact Hw].
      destruct E as (r & Hr & <- & Hc & Hf & _). apply in_flat_map in Hr as (o & Hin & Hr).
      destruct (path_reg_claims other dir_fs fresh_set o r m path Hr Hc Hf) as [Hcl Hset]. split; [eauto|].
      right. exists o. split; [exact Hin|]. split; [exact Hcl|]. intros X. rewrite X in Hr. destruct Hr.
    - destruct (reg_find (srv_matches sv) order (sv_rt sv) m path) as [[s1| | |] a1] eqn:R; try discriminate. injection F as <- <-.
      destruct (reg_find_found (srv_matches sv) order Ho _ _ m path s1 a1 T2 R) as (-> & re & Hm & Hl).
      split; [|left; reflexivity]. apply latest_for_current in Hl as (l1 & l2 & rm & El & Hc & _).
      assert (Hin : In (rm, re, s1) (number 0 (flat_map (expr_reg other dir_fs fresh_set) os))) by (rewrite El; apply in_elt).
      apply (number_In other dir_fs fresh_set) in Hin as (k & f & Ek & ->). cbn [Nat.add] in Hm.
      unfold srv_matches in Hm. rewrite T3, nth_error_map, Ek in Hm. cbn [option_map fst snd] in Hm.
      apply nth_error_In in Ek. apply in_flat_map in Ek as (o & Hin & Ho').
      destruct (expr_reg_claims other dir_fs fresh_set o rm f s1 Ho') as [Hset Hcl]. exists o.
      split; [exact Hin|]. split; [apply Hcl; assumption|exact Hset].
    - discriminate.
    - discriminate.
  Qed.
  Lemma not_found order os (sv : srv U) m path old : (forall s a, srv_find order sv m path old <> (TFound s, a)) ->
    setup new_srv os = Ok sv -> srv_find order sv m path old = (TNotFound, []).
  Proof.
    intros N Hs. unfold srv_find in *.
    destruct (C15_path_routes_first _ (srv_matches sv) order (sv_top sv) (sv_rt sv) m path old) as [A1 A2].
    destruct A2 as [A2 A3].
    { intros s a E. apply (N s a). apply A1. exact E. }
    apply A3. intros s a E. apply (N s []). exact (A2 s a E).
  Qed.

  (** ** C99: whatever the setup, an answer comes from a registration made for such requests,
      and a request for which an expression or a mount was registered is answered *)
  Theorem C99_answer_has_claimant : forall order os (sv : srv U) m path old s a,
    any_order order -> setup new_srv os = Ok sv -> Forall proper os ->
    srv_find order sv m path old = (TFound s, a) ->
    exists o, In o os /\ claims o m path /\ set_of o = Some s.
  Proof. intros. eapply found_cases; eassumption. Qed.
  Theorem C99_mounted_path_answered : forall order os (sv : srv U) m path old o url,
    any_order order -> setup new_srv os = Ok sv ->
    In o os -> mounts o url -> dotted_url url -> In m [B"GET"; B"HEAD"] -> below url path ->
    exists s a, srv_find order sv m path old = (TFound s, a).
  Proof.
    intros order os sv m path old o url Ho Hs Hin Hm Hd Hg [rest ->].
    destruct (setup_tables other dir_fs fresh_set os sv Hs) as [T1 T2 T3 T4].
    set (path := url ++ "/"%char :: rest).
    unfold srv_find. destruct (C15_path_routes_first _ (srv_matches sv) order (sv_top sv) (sv_rt sv) m path old) as [A1 A2].
    destruct (tree_find (sv_top sv) m path old) as [[s0| | |] a0] eqn:E; try (exists s0, a0; apply A1; reflexivity).
    all: destruct A2 as [A2 _]; [intros ? ? X; discriminate X|].
    all: destruct (T4 o Hin) as [Hso|(url' & Hm' & C)];
      [|exfalso; assert (url' = url) by (destruct o; cbn in *; try contradiction; congruence); subst url'; rewrite compile_mount in C by exact Hd; discriminate].
    all: destruct (set_of o) as [s|] eqn:So; [|congruence].
    all: set (f := match_items (map item_of url ++ [(Chr "/", false); (AnyRune, true)])).
    all: assert (Hr : In (MethodGetHead, f, s) (expr_reg other dir_fs fresh_set o))
      by (destruct o; cbn [mounts] in Hm; try contradiction; subst; unfold expr_reg; rewrite compile_mount by exact Hd; rewrite So; left; reflexivity).
    all: assert (Hr' : In (MethodGetHead, f, s) (flat_map (expr_reg other dir_fs fresh_set) os)) by (apply in_flat_map; eauto).
    all: apply In_nth_error in Hr' as [k Ek].
    all: assert (N : In (MethodGetHead, k, s) (number 0 (flat_map (expr_reg other dir_fs fresh_set) os))) by (apply (number_In other dir_fs fresh_set); eauto).
    all: destruct (C13_regexp_lookup _ (srv_matches sv) order _ _ m path Ho T2) as ((_ & K) & _ & _).
    all: assert (Hk : srv_matches sv k path = true)
      by (assert (Z : nth_error (sv_exprs sv) k = Some f) by (rewrite T3; exact (map_nth_error _ k _ Ek));
          unfold srv_matches; rewrite Z; apply match_dotted; exact Hd).
    all: destruct K as (s1 & a1 & F); [exists (MethodGetHead, k, s); split; [exact N|]; split; [apply covers_gethead; exact Hg|exact Hk]|].
    all: exists s1, []; exact (A2 s1 a1 F).
  Qed.

  (** Missing below: mount points with characters that mean something in an expression. *)
  Theorem C99_mount_partial : forall order os1 os2 o url (sv : srv U) m path old s,
    any_order order -> setup new_srv (os1 ++ o :: os2) = Ok sv -> Forall proper (os1 ++ o :: os2) ->
    mounts o url -> plain_url url -> set_of o = Some s ->
    (forall o', In o' (os1 ++ os2) -> ~ claims o' m path) ->
    (In m [B"GET"; B"HEAD"] /\ below url path -> srv_find order sv m path old = (TFound s, [])) /\
    (~ (In m [B"GET"; B"HEAD"] /\ below url path) -> srv_find order sv m path old = (TNotFound, [])).
  Proof.
    intros order os1 os2 o url sv m path old s Ho Hs Hw Hm Hp Hset Hno.
    assert (Hd : dotted_url url) by (eapply Forall_impl; [|exact Hp]; auto).
    assert (Hcl : claims o m path <-> In m [B"GET"; B"HEAD"] /\ below url path).
    { assert (X : claims o m path <-> In m [B"GET"; B"HEAD"] /\ exists f, compile other (mount_expr url) = Some f /\ f path = true)
        by (destruct o; cbn [mounts] in Hm; try contradiction; subst; reflexivity).
      rewrite X, compile_mount by exact Hd. rewrite <- (match_plain url path Hp). split.
      - intros (G & f & E & M). injection E as <-. auto.
      - intros (G & M). split; [exact G|]. eexists. split; [reflexivity|exact M]. }
    assert (Only : forall o', In o' (os1 ++ o :: os2) -> claims o' m path -> o' = o).
    { intros o' Hin Hc. apply in_app_or in Hin as [Hin|[Hin|Hin]]; [|auto|]; exfalso; apply (Hno o'); auto; apply in_or_app; auto. }
    split.
    - intros [G Bl]. destruct (C99_mounted_path_answered order _ sv m path old o url Ho Hs (in_elt _ _ _) Hm Hd G Bl) as (s' & a & F).
      rewrite F. destruct (found_cases order _ sv m path old s' a Ho Hs Hw F) as ((o' & Hin & Hc & Hs') & A).
      rewrite (Only o' Hin Hc) in Hs'. replace s' with s by congruence. f_equal.
      destruct A as [->|(o2 & Hin2 & Hc2 & Np)]; [reflexivity|]. exfalso. apply Np. rewrite (Only o2 Hin2 Hc2).
      destruct o; cbn [mounts] in Hm; try contradiction; reflexivity.
    - intros N. eapply not_found; [|exact Hs]. intros s' a F.
      destruct (found_cases order _ sv m path old s' a Ho Hs Hw F) as ((o' & Hin & Hc & _) & _).
      apply N. apply Hcl. rewrite <- (Only o' Hin Hc). exact Hc.
  Qed.
End Routing.

(** ** C99 end to end: a file below the mount point can be downloaded *)
Section Download.
  Context {U : Type}.
  Variable other : bytes -> option matcher.
  Variable dir_fs : bytes -> iofs.
  Variable fresh_set : bytes -> U.
  Variable time_parse : bytes -> bytes -> option gtime.
  Variable fmt_time : gtime -> bytes.
  Variable mime_type : bytes -> bytes.
  Variables b1 b2 : bytes.
  Variable url_string : bytes -> bytes.
  Notation setup := (setup other dir_fs fresh_set).
  Notation set_of := (set_of dir_fs fresh_set).
  Notation claims := (claims other).
  Notation handler_run := (handler_run time_parse fmt_time mime_type b1 b2 url_string).

  (** the request is routed to a handler that answers 200 with this body *)
  Definition downloads (order : rmap (@hs U) -> rmap (@hs U)) (sv : srv U) (q : sreq) (path : bytes) (data : bytes) : Prop :=
    forall old p, exists u h r calls path',
      srv_find order sv (q_method q) path old = (TFound (u, h), []) /\
      handler_run h q path p = Some (Some (r, FNil, calls), path') /\
      p_status r = 200%Z /\ p_body r = p_body p ++ data.

  Theorem C99_download_file_partial : forall order os1 os2 file up rest sets (sv : srv U) q target f data u,
    let path := normalize_path target in
    let o := OStaticFile file ("/"%char :: up) sets in
    any_order order -> setup new_srv (os1 ++ o :: os2) = Ok sv -> Forall proper (os1 ++ o :: os2) ->
    chosen fresh_set sets ("/"%char :: up) = Some u -> plain_url ("/"%char :: up) ->
    (forall o', In o' (os1 ++ os2) -> ~ claims o' (B"GET") path) ->
    unconditional q -> path = "/"%char :: up ++ "/"%char :: rest -> no_escape path -> last (plain_elems rest) [] <> B"index.html" ->
    io_open (dir_fs file) (name_of (plain_elems rest)) = inl f -> regular f data ->
    downloads order sv q path data.
  Proof.
    intros order os1 os2 file up rest sets sv q target f data u path o Ho Hs Hw Hu Hp Hno Un Ep Ne Ni Hopen Hreg old p.
    destruct (C99_mount_partial other dir_fs fresh_set order os1 os2 o ("/"%char :: up) sv (B"GET") path old (u, file_handler dir_fs file ("/"%char :: up))) as [Hf _]; try assumption.
    { reflexivity. }
    { unfold o. cbn [S_Mount.set_of]. rewrite Hu. reflexivity. }
    assert (Bl : below ("/"%char :: up) path) by (exists rest; rewrite Ep; reflexivity).
    specialize (Hf (conj (or_introl eq_refl) Bl)).
    pose proof Hreg as (_ & _ & _ & _ & info & Hst & Hd & _).
    pose proof (C88_static_file_partial time_parse fmt_time mime_type b1 b2 url_string (dir_fs file) q target p up rest f info (or_introl Ep) Ne Ni Hopen Hst Hd) as Ca.
    destruct (C88_whole_file_partial time_parse fmt_time mime_type b1 b2 q p f info _ data _ Un Hreg Hst Ca) as (r & Er & St & Bd).
    fold path in Er. exists u, (file_handler dir_fs file ("/"%char :: up)), r.
    assert (Et : trim_prefix ("/"%char :: up) (B"/") = up) by reflexivity.
    unfold file_handler in *. rewrite Et in *. cbn [M_Mount.handler_run].
    destruct (static_file_run time_parse fmt_time mime_type b1 b2 url_string (dir_fs file) up q path p) as [x y]. cbn [fst] in Er. subst x.
    eexists _, y. split; [destruct Un as [-> _]; exact Hf|]. split; [reflexivity|]. split; assumption.
  Qed.

  Theorem C99_download_embed_partial : forall order os1 os2 file fsys up rest sets (sv : srv U) q target f data u,
    let path := normalize_path target in
    let o := OStaticFileFS file ("/"%char :: up) fsys sets in
    let name := plain_elems file ++ plain_elems rest in
    any_order order -> setup new_srv (os1 ++ o :: os2) = Ok sv -> Forall proper (os1 ++ o :: os2) ->
    chosen fresh_set sets ("/"%char :: up) = Some u -> plain_url ("/"%char :: up) ->
    (forall o', In o' (os1 ++ os2) -> ~ claims o' (B"GET") path) ->
    unconditional q -> path = "/"%char :: up ++ "/"%char :: rest -> no_escape path ->
    no_escape file -> ~ In (B"..") (split "/" file) -> last name [] <> B"index.html" ->
    io_open fsys (name_of name) = inl f -> regular f data ->
    downloads order sv q path data.
  Proof.
    intros order os1 os2 file fsys up rest sets sv q target f data u path o name Ho Hs Hw Hu Hp Hno Un Ep Ne Nf Ndf Ni Hopen Hreg old p.
    destruct (C99_mount_partial other dir_fs fresh_set order os1 os2 o ("/"%char :: up) sv (B"GET") path old (u, embed_handler file ("/"%char :: up) fsys)) as [Hf _]; try assumption.
    { reflexivity. }
    { unfold o. cbn [S_Mount.set_of]. rewrite Hu. reflexivity. }
    assert (Bl : below ("/"%char :: up) path) by (exists rest; rewrite Ep; reflexivity).
    specialize (Hf (conj (or_introl eq_refl) Bl)).
    pose proof Hreg as (_ & _ & _ & _ & info & Hst & Hd & _).
    set (fp := trim_prefix file (B"/")).
    assert (Fp : plain_elems fp = plain_elems file /\ no_escape fp /\ ~ In (B"..") (split "/" fp)).
    { unfold fp, trim_prefix. change (B"/") with ["/"%char]. destruct file as [|c file']; [auto|]. cbn [strip_prefix].
      destruct (Ascii.eqb_spec "/"%char c) as [<-|]; [|auto]. split; [|split].
      - unfold plain_elems. cbn [split]. rewrite Ascii.eqb_refl. reflexivity.
      - exact (no_escape_tail ["/"%char] _ Nf).
      - intros X. apply Ndf. cbn [split]. rewrite Ascii.eqb_refl. right. exact X. }
    destruct Fp as (Fe & Fn & Fd).
    assert (En : plain_elems fp ++ plain_elems rest = name) by (rewrite Fe; reflexivity).
    assert (Ca : content_answer time_parse fmt_time mime_type b1 b2 q p f info (name_of name)
                   (fst (static_embed_run time_parse fmt_time mime_type b1 b2 url_string fsys fp up q path p))).
    { rewrite <- En. apply (C88_static_embed_partial time_parse fmt_time mime_type b1 b2 url_string fsys q target p fp up rest f info (or_introl Ep) Ne Fn Fd); rewrite ?En; assumption. }
    destruct (C88_whole_file_partial time_parse fmt_time mime_type b1 b2 q p f info _ data _ Un Hreg Hst Ca) as (r & Er & St & Bd).
    exists u, (embed_handler file ("/"%char :: up) fsys), r.
    assert (Et : trim_prefix ("/"%char :: up) (B"/") = up) by reflexivity.
    unfold embed_handler in *. rewrite Et in *. fold fp in Hf. fold fp. cbn [M_Mount.handler_run].
    destruct (static_embed_run time_parse fmt_time mime_type b1 b2 url_string fsys fp up q path p) as [x y]. cbn [fst] in Er. subst x.
    eexists _, y. split; [destruct Un as [-> _]; exact Hf|]. split; [reflexivity|]. split; assumption.
  Qed.
End Download.

(** ** C99: mount points that end in a slash, or do not begin with one, answer nothing *)
Lemma normalized_no_double target a b : normalize_path target <> a ++ "/"%char :: "/"%char :: b.
Proof.
  intros E. destruct (normalize_shape target) as (es & lst & G & N & _ & En). rewrite En in E. rewrite with_slashes_join in E.
  apply (f_equal (split "/")) in E. rewrite split_app_slash in E.
  cbn [split] in E. rewrite Ascii.eqb_refl in E. rewrite split_join in E.
  - destruct (split "/" a) as [|x l] eqn:Ea; [exfalso; exact (split_nonempty a Ea)|].
    cbn [app] in E. injection E as _ E.
    destruct (exists_last (l := split "/" b)) as (ys & y & Ey); [apply split_nonempty|]. rewrite Ey in E.
    change (l ++ [] :: ys ++ [y]) with (l ++ ([] :: ys) ++ [y]) in E. rewrite app_assoc in E. apply app_inj_tail in E as [E _].
    assert (X : In (@nil ascii) es) by (rewrite E; apply in_elt). rewrite Forall_forall in G. destruct (G _ X) as [K _]. congruence.
  - destruct es; discriminate.
  - apply Forall_app. split; [apply goods_ns; exact G|repeat constructor; exact N].
Qed.
Theorem C99_unreachable_mounts : forall (U : Type) other dir_fs fresh_set order os1 os2 o url (sv : srv U) m target old s,
  any_order order -> setup other dir_fs fresh_set new_srv (os1 ++ o :: os2) = Ok sv -> Forall proper (os1 ++ o :: os2) ->
  mounts o url -> plain_url url -> set_of dir_fs fresh_set o = Some s ->
  (exists x, url = x ++ B"/") \/ (exists c x, url = c :: x /\ c <> "/"%char) ->
  (forall o', In o' (os1 ++ os2) -> ~ claims other o' m (normalize_path target)) ->
  srv_find order sv m (normalize_path target) old = (TNotFound, []).
Proof.
  intros U other dir_fs fresh_set order os1 os2 o url sv m target old s Ho Hs Hw Hm Hp Hset Hu Hno.
  eapply C99_mount_partial; try eassumption. intros [_ [rest E]].
  destruct Hu as [(x & ->)|(c & x & -> & Nc)].
  - rewrite <- app_assoc in E. exact (normalized_no_double _ _ _ E).
  - pose proof (normalize_rooted target) as R. rewrite E in R. cbn in R. apply Ascii.eqb_eq in R. congruence.
Qed.

(** the property as one would state it *)
Definition C99_claim : Prop := forall (U : Type) other dir_fs fresh_set order o up (sv : srv U) m target old s,
  let path := normalize_path target in
  any_order order -> setup other dir_fs fresh_set new_srv [o] = Ok sv ->
  mounts o ("/"%char :: up) -> set_of dir_fs fresh_set o = Some s ->
  (srv_find order sv m path old = (TFound s, []) <-> In m [B"GET"; B"HEAD"] /\ below ("/"%char :: up) path).
Definition y_other : bytes -> option matcher := fun _ => None.
Definition y_dir (d : bytes) : iofs := x_fs.
Definition y_set (n : bytes) : nat := 0.
Definition y_mount : op nat := OStaticFile (B"data") (B"/v1.0") [].
Theorem C99_mount_refuted : ~ C99_claim.
Proof.
  intros H. destruct (H nat y_other y_dir y_set (fun l => l) y_mount (B"v1.0")
    (Srv new_tree [(MethodHead, [(0, (0, file_handler y_dir (B"data") (B"/v1.0")))]); (MethodGet, [(0, (0, file_handler y_dir (B"data") (B"/v1.0")))]); (MethodPost, []); (MethodPut, []);
       (MethodPatch, []); (MethodDelete, []); (MethodConnect, []); (MethodOptions, []); (MethodTrace, [])]
       [match_items (map item_of (B"/v1.0") ++ [(Chr "/", false); (AnyRune, true)])])
    (B"GET") (B"/v1x0/a") [] (0, file_handler y_dir (B"data") (B"/v1.0"))) as [F _].
  - intros l. apply Permutation_refl.
  - reflexivity.
  - reflexivity.
  - reflexivity.
  - destruct F as [_ [rest E]]; [reflexivity|]. vm_compute in E. discriminate.
Qed.

(** ** C100: one file at one URL *)
(** no other path route takes part in the routing of the path *)
Definition stays_clear {U} (path : bytes) (o : op U) : Prop :=
  match o with
  | OAdd _ route _ _ => ~ prefix_fits (pattern_of route) (segments path)
  | OFixStaticFileFS _ url _ _ => ~ prefix_fits (pattern_of url) (segments path)
  | _ => True
  end.
Lemma clear_regs {U} dir_fs fresh_set path (os : list (op U)) r :
  Forall (stays_clear path) os -> In r (flat_map (path_reg dir_fs fresh_set) os) -> ~ prefix_fits (pattern_of (r_route r)) (segments path).
Proof.
  intros F H. apply in_flat_map in H as (o & Hin & Hr). rewrite Forall_forall in F. specialize (F o Hin).
  destruct o as [rm route n set|rm g n set|file url sets|file url fsys sets|file url fsys sets]; cbn [path_reg] in Hr; cbn [stays_clear] in F;
    try (destruct Hr; fail);
    match type of Hr with context [match ?x with _ => _ end] => destruct x end; try (destruct Hr; fail); destruct Hr as [<-|[]]; exact F.
Qed.
Section Fixed.
  Context {U : Type}.
  Variable other : bytes -> option matcher.
  Variable dir_fs : bytes -> iofs.
  Variable fresh_set : bytes -> U.

  (** Missing: HEAD requests. *)
  Theorem C100_fixed_file_partial : forall order os1 os2 file url fsys sets (sv : srv U) m path old u,
    let o := OFixStaticFileFS file url fsys sets in
    setup other dir_fs fresh_set new_srv (os1 ++ o :: os2) = Ok sv -> Forall proper (os1 ++ o :: os2) ->
    chosen fresh_set sets url = Some u -> In m [B"GET"; B"POST"] ->
    fits (pattern_of url) (segments path) -> Forall (stays_clear path) (os1 ++ os2) ->
    srv_find order sv m path old = (TFound (u, HFix fsys file), bindings (pattern_of url) (segments path)).
  Proof.
    intros order os1 os2 file url fsys sets sv m path old u o Hs Hw Hu Hm Hf Hc.
    destruct (setup_tables other dir_fs fresh_set _ sv Hs) as [T1 T2 T3 T4].
    assert (Er : path_reg dir_fs fresh_set o = [Reg MethodGetPost url (u, HFix fsys file)]).
    { unfold o. cbn [path_reg S_Mount.set_of]. rewrite Hu. reflexivity. }
    apply proper_regs with (dir_fs := dir_fs) (fresh_set := fresh_set) in Hw.
    rewrite flat_map_app in T1, Hw. cbn [flat_map] in T1, Hw. rewrite Er in T1, Hw. cbn [app] in T1, Hw.
    apply C15_path_routes_first. rewrite T1.
    apply (C03_unambiguous_route_found _ _ _ _ m path old Hw).
    - change (beq m MethodGet || beq m MethodPost = true). destruct Hm as [<-|[<-|[]]]; reflexivity.
    - exact Hf.
    - intros r Hr. rewrite <- flat_map_app in Hr. exact (clear_regs dir_fs fresh_set path _ r Hc Hr).
  Qed.
  (** requests with another method are not answered on account of it *)
  Theorem C100_other_methods_partial : forall order os1 os2 file url fsys sets (sv : srv U) m path old,
    let o := OFixStaticFileFS file url fsys sets in
    any_order order -> setup other dir_fs fresh_set new_srv (os1 ++ o :: os2) = Ok sv -> Forall proper (os1 ++ o :: os2) ->
    ~ In m [B"GET"; B"POST"] -> (forall o', In o' (os1 ++ os2) -> ~ claims other o' m path) ->
    srv_find order sv m path old = (TNotFound, []).
  Proof.
    intros order os1 os2 file url fsys sets sv m path old o Ho Hs Hw Hm Hno.
    eapply (not_found other dir_fs fresh_set); [|exact Hs]. intros s a F.
    destruct (found_cases other dir_fs fresh_set order _ sv m path old s a Ho Hs Hw F) as ((o' & Hin & Hc & _) & _).
    apply in_app_or in Hin as [Hin|[<-|Hin]]; [|destruct Hc as [Hc _]|].
    - apply (Hno o'); [apply in_or_app; auto|exact Hc].
    - apply Hm. change (beq m MethodGet || beq m MethodPost = true) in Hc. apply orb_true_iff in Hc. rewrite !beq_eq in Hc.
      destruct Hc as [->| ->]; [left|right; left]; reflexivity.
    - apply (Hno o'); [apply in_or_app; auto|exact Hc].
  Qed.
End Fixed.
(** the property as one would state it *)
Definition C100_claim : Prop := forall (U : Type) other dir_fs fresh_set order file url fsys sets (sv : srv U) m path old u,
  any_order order -> setup other dir_fs fresh_set new_srv [OFixStaticFileFS file url fsys sets] = Ok sv -> wf_routeb url = true ->
  chosen fresh_set sets url = Some u -> In m [B"GET"; B"HEAD"] ->
  fits (pattern_of url) (segments path) ->
  exists a, srv_find order sv m path old = (TFound (u, HFix fsys file), a).
Theorem C100_fixed_file_refuted : ~ C100_claim.
Proof.
  intros H. destruct (H nat y_other y_dir y_set (fun l => l) (B"data/favicon.ico") (B"/favicon.ico") x_fs []
    (Srv (routed [Reg MethodGetPost (B"/favicon.ico") (0, HFix x_fs (B"data/favicon.ico"))]) new_reg_tree [])
    (B"HEAD") (B"/favicon.ico") [] 0) as [a E].
  - intros l. apply Permutation_refl.
  - reflexivity.
  - reflexivity.
  - reflexivity.
  - cbn. auto.
  - repeat constructor.
  - vm_compute in E. discriminate.
Qed.

(** ** The hypotheses are met: the set-up of the example program examples/example_2 *)
Definition z_setup : list (op nat) :=
  [OAdd MethodGetPost (B"/") 1 (Some 7); OAdd MethodGet (B"/html/edit/:id") 2 (Some 8);
   OStaticFileFS (B"/files") (B"/html") x_fs []; OFixStaticFileFS (B"files/css/a.css") (B"/favicon.ico") x_fs [Some 9]].
Definition z_srv : srv nat := match setup y_other y_dir y_set new_srv z_setup with Ok sv => sv | Panic => new_srv end.
Example C99_case : setup y_other y_dir y_set new_srv z_setup = Ok z_srv /\ Forall proper z_setup /\ plain_url (B"/html") /\
  (forall o', In o' ([OAdd MethodGetPost (B"/") 1 (Some 7); OAdd MethodGet (B"/html/edit/:id") 2 (Some 8)] ++
                     [OFixStaticFileFS (B"files/css/a.css") (B"/favicon.ico") x_fs [Some 9]]) ->
              ~ claims y_other o' (B"GET") (B"/html/css/a.css")) /\
  srv_find (fun l => l) z_srv (B"GET") (B"/html/css/a.css") [] = (TFound (0, HEmbed x_fs (B"files") (B"html")), []) /\
  srv_find (fun l => l) z_srv (B"HEAD") (B"/html/") [] = (TFound (0, HEmbed x_fs (B"files") (B"html")), []) /\
  srv_find (fun l => l) z_srv (B"POST") (B"/html/css/a.css") [] = (TNotFound, []) /\
  srv_find (fun l => l) z_srv (B"GET") (B"/htmlx/a.css") [] = (TNotFound, []) /\
  srv_find (fun l => l) z_srv (B"GET") (B"/html/edit/5") [] = (TFound (8, HUser 2), [(B"id", B"5")]).
Proof.
  split; [reflexivity|]. split; [repeat constructor|]. split; [apply Forall_forall; intros c Hc; vm_compute in Hc; 
    repeat (destruct Hc as [<-|Hc]; [split; [vm_compute; intuition discriminate|reflexivity]|]); destruct Hc|].
  split.
  { intros o' [<-|[<-|[<-|[]]]] [_ F]; vm_compute in F;
    repeat (match goal with X : Forall2 _ _ _ |- _ => inversion X; subst; clear X end; try discriminate). }
  split; [reflexivity|]. split; [reflexivity|]. split; [reflexivity|]. split; reflexivity.
Qed.
Example C99_download_case : exists r calls path',
  handler_run x_tp x_ft x_mt [] [] x_us (HEmbed x_fs (B"files") (B"html")) x_q (B"/html/css/a.css") x_p = Some (Some (r, FNil, calls), path') /\
  p_status r = 200%Z /\ p_body r = B"b{}".
Proof. eexists _, _, _. split; [reflexivity|]. split; reflexivity. Qed.
Example C100_case :
  In (B"POST") [B"GET"; B"POST"] /\ fits (pattern_of (B"/favicon.ico")) (segments (B"/favicon.ico")) /\
  Forall (stays_clear (B"/favicon.ico")) [OAdd MethodGetPost (B"/") 1 (Some 7); OStaticFileFS (B"/files") (B"/html") x_fs []] /\
  srv_find (fun l => l) z_srv (B"GET") (B"/favicon.ico") [] = (TFound (9, HFix x_fs (B"files/css/a.css")), []) /\
  srv_find (fun l => l) z_srv (B"HEAD") (B"/favicon.ico") [] = (TNotFound, []).
Proof.
  split; [cbn; auto|]. split; [repeat constructor|]. split.
  { repeat constructor. intros (p1 & p2 & E & F). change (pattern_of (B"/")) with (@nil seg) in E.
    destruct p1; [|discriminate]. inversion F. }
  split; reflexivity.
Qed.
Print Assumptions C99_answer_has_claimant.
Print Assumptions C99_mounted_path_answered.
Print Assumptions C99_mount_partial.
Print Assumptions C99_download_file_partial.
Print Assumptions C99_download_embed_partial.
Print Assumptions C99_unreachable_mounts.
Print Assumptions C99_mount_refuted.
Print Assumptions C100_fixed_file_partial.
Print Assumptions C100_other_methods_partial.
Print Assumptions C100_fixed_file_refuted.
