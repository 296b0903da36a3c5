(** C170: the example file servers. *)
From Verif Require Import Base GoStrings GoPath M_Tree M_RegTree S_Route S_Path S_Paths P_Path P_TreeFind P_RegTree Props_Tree Props_RegTree
  M_Cond M_Content S_Static M_Static M_Mount S_Mount P_Mount M_Examples S_Examples2.
From Verif Require Import Props_Static Props_Static2.
From Verif Require Props_Paths Props_Mount.

(** ** The segments of a path begin like the path *)
Lemma blank_cases w : blank w -> w = [] \/ forall x, starts_blank (w ++ x).
Proof. intros H. inversion H as [|r w' Hr Hw]; subst; [left; reflexivity|]. right. intros x. exists r, (w' ++ x). rewrite app_assoc. auto. Qed.
Lemma slashes_head k x c r : slashes k ++ x = c :: r -> c <> "/"%char -> k = 0 /\ x = c :: r.
Proof. destruct k as [|k]; cbn; intros E N; [auto|]. injection E as E1 E2. congruence. Qed.
Lemma first_char c r ps : path_segments ("/"%char :: c :: r) ps -> c <> "/"%char -> ~ starts_blank (c :: r) -> exists v, parts (c :: v) ps.
Proof.
  intros (t & u & v & (w1 & w2 & B1 & B2 & E & _ & _) & (j & k & Et & Ns & _) & (w & Bw & Eu & _) & Hp) Nc Nb.
  destruct (blank_cases w1 B1) as [->|X]; [|exfalso; specialize (X (t ++ w2)); rewrite <- E in X; exact (slash_not_starts_blank _ X)].
  cbn [app] in E. subst t u.
  assert (E' : slashes j ++ (v ++ w ++ slashes k ++ w2) = "/"%char :: c :: r) by (rewrite E; rewrite <- !app_assoc; reflexivity).
  assert (R : v ++ w ++ slashes k ++ w2 = c :: r).
  { destruct j as [|j].
    - cbn in E'. exfalso. destruct v as [|d v].
      + cbn [app] in E', Ns. destruct (blank_cases w Bw) as [->|X]; [|specialize (X (slashes k ++ w2)); rewrite E' in X; exact (slash_not_starts_blank _ X)].
        cbn [app] in E'. destruct k as [|k]; cbn in E'.
        * destruct (blank_cases w2 B2) as [->|X]; [discriminate|]. specialize (X []). rewrite app_nil_r, E' in X. exact (slash_not_starts_blank _ X).
        * injection E' as E'. apply slashes_head in E' as [_ E']; [|exact Nc].
          destruct (blank_cases w2 B2) as [->|X]; [discriminate|]. specialize (X []). rewrite app_nil_r, E' in X. exact (Nb X).
      + cbn [app] in E'. injection E' as -> _. apply Ns. exists (v ++ w). reflexivity.
    - cbn in E'. injection E' as E'. apply slashes_head in E' as [_ E']; [exact E'|exact Nc]. }
  destruct v as [|d v]; [|cbn [app] in R; injection R as -> _; exists v; exact Hp].
  exfalso. cbn [app] in R. destruct (blank_cases w Bw) as [->|X]; [|specialize (X (slashes k ++ w2)); rewrite R in X; exact (Nb X)].
  cbn [app] in R. apply slashes_head in R as [_ R]; [|exact Nc].
  destruct (blank_cases w2 B2) as [->|X]; [discriminate|]. specialize (X []). rewrite app_nil_r, R in X. exact (Nb X).
Qed.
Lemma below_html path : below (B"/html") path -> segments path <> [] /\ segments path <> [B"cookie"] /\ segments path <> [B"favicon.ico"].
Proof.
  intros [rest ->].
  destruct (first_char "h" (B"tml" ++ "/"%char :: rest) (segments (B"/html" ++ "/"%char :: rest))) as [v P].
  - apply Props_Paths.C07_segments_exactly. reflexivity.
  - discriminate.
  - intros (r & t & Hr & E). inversion Hr; subst; cbn in *; try discriminate; injection E as <- _; discriminate.
  - destruct P as [[X _]|(_ & _ & Np & Ej)]; [discriminate|]. split; [exact Np|]. split; intros E; rewrite E in Ej; discriminate Ej.
Qed.

(** ** The pages: routes of literals, all different *)
Section Files.
  Context {U : Type}.
  Variables (other : bytes -> option matcher) (dir_fs : bytes -> iofs) (fresh_set : bytes -> U) (pages : U).
  Notation setup := (setup other dir_fs fresh_set).
  Notation claims := (claims other).

  Lemma getpost m : covers MethodGetPost m = true <-> In m [B"GET"; B"POST"].
  Proof.
    change (beq m MethodGet || beq m MethodPost = true <-> In m [B"GET"; B"POST"]). rewrite orb_true_iff, !beq_eq. cbn [In].
    split; [intros [->| ->]; auto|intros [<-|[<-|[]]]; auto].
  Qed.
  Lemma fits_lits l segs : fits (map Lit l) segs <-> segs = l.
  Proof.
    revert segs. induction l as [|x l IH]; intros segs; cbn [map]; split; intros H.
    - inversion H. reflexivity.
    - subst. constructor.
    - inversion H as [|? y ? ys E F]; subst. apply IH in F. cbn [seg_fits] in E. subst.
      f_equal. first [apply beq_eq in E; congruence|symmetry; apply beq_eq in E; congruence].
    - subst. constructor; [|apply IH; reflexivity]. cbn [seg_fits]. apply beq_eq. reflexivity.
  Qed.
  (** what the registrations are for *)
  Lemma claims_add route l n (set : option U) m path : pattern_of route = map Lit l -> claims (OAdd MethodGetPost route n set) m path <-> In m [B"GET"; B"POST"] /\ segments path = l.
  Proof. intros E. cbn [S_Mount.claims]. rewrite getpost, E, fits_lits. reflexivity. Qed.
  Lemma claims_fix file url fsys (sets : list (option U)) l m path : pattern_of url = map Lit l -> claims (OFixStaticFileFS file url fsys sets) m path <-> In m [B"GET"; B"POST"] /\ segments path = l.
  Proof. intros E. cbn [S_Mount.claims]. rewrite getpost, E, fits_lits. reflexivity. Qed.
  (** a page that only one registration is for: found, and with the right set *)
  Lemma only_claimant order os (sv : srv U) m path old s a o s' : any_order order -> setup new_srv os = Ok sv -> Forall proper os ->
    srv_find order sv m path old = (TFound s, a) -> set_of dir_fs fresh_set o = Some s' -> (forall o', In o' os -> claims o' m path -> o' = o) -> s = s'.
  Proof.
    intros Ho Hs Hw F E Un. destruct (Props_Mount.C99_answer_has_claimant other dir_fs fresh_set order os sv m path old s a Ho Hs Hw F) as (o' & I & C & E').
    rewrite (Un o' I C) in E'. congruence.
  Qed.
  Lemma plain_html : plain_url (B"/html").
  Proof.
    apply Forall_forall. intros c Hc. vm_compute in Hc.
    repeat (destruct Hc as [<-|Hc]; [split; [vm_compute; intuition discriminate|reflexivity]|]). destruct Hc.
  Qed.
  Lemma in_getpost m : In m [B"GET"; B"POST"] -> m = B"GET" \/ m = B"POST".
  Proof. intros [<-|[<-|[]]]; auto. Qed.
  (** the path routes decide, evaluated *)
  Lemma by_tree order os (sv : srv U) m path old s a : setup new_srv os = Ok sv -> Forall proper os ->
    ref_find (map entry_of (flat_map (path_reg dir_fs fresh_set) os)) m (segments path) = (TFound s, a) -> srv_find order sv m path old = (TFound s, a).
  Proof.
    intros Hs Hw R. destruct (setup_tables other dir_fs fresh_set os sv Hs) as [T1 T2 T3 T4].
    apply C15_path_routes_first. rewrite T1, C05_reference_semantics; [exact R|]. apply proper_regs. exact Hw.
  Qed.

  Variable order : rmap (@hs U) -> rmap (@hs U).
  Hypothesis Ho : any_order order.

  Theorem C170_example_2 : forall fsys, exists sv, setup new_srv (example_2 pages fsys) = Ok sv /\ forall m path old,
    (forall u h, chooses_2 pages fresh_set fsys m path u h -> srv_find order sv m path old = (TFound (u, h), [])) /\
    ((forall u h, ~ chooses_2 pages fresh_set fsys m path u h) -> srv_find order sv m path old = (TNotFound, [])).
  Proof.
    intros fsys. assert (Hs : exists sv, setup new_srv (example_2 pages fsys) = Ok sv) by (eexists; reflexivity).
    destruct Hs as [sv Hs]. exists sv. split; [exact Hs|]. intros m path old.
    assert (Hw : Forall proper (example_2 pages fsys)) by (repeat constructor).
    set (o1 := OAdd MethodGetPost (B"/") m_main (Some pages)). set (o2 := OAdd MethodGetPost (B"/cookie") m_cookie (Some pages)).
    set (o3 := OStaticFileFS (U := U) (B"data") (B"/html") fsys []). set (o4 := OFixStaticFileFS (U := U) (B"/data/favicons/favicon.ico") (B"/favicon.ico") fsys []).
    assert (E : example_2 pages fsys = [o1; o2] ++ o3 :: [o4]) by reflexivity.
    assert (C1 : claims o1 m path <-> In m [B"GET"; B"POST"] /\ segments path = []) by (apply claims_add; reflexivity).
    assert (C2 : claims o2 m path <-> In m [B"GET"; B"POST"] /\ segments path = [B"cookie"]) by (apply claims_add; reflexivity).
    assert (C4 : claims o4 m path <-> In m [B"GET"; B"POST"] /\ segments path = [B"favicon.ico"]) by (apply claims_fix; reflexivity).
    split.
    - intros u h H. destruct H as [m path M Sg|m path M Sg|m path M Sg|m path M Bl].
      1-3: apply (by_tree order _ _ _ _ _ _ _ Hs Hw); rewrite Sg; apply in_getpost in M as [->| ->]; reflexivity.
      destruct (below_html path Bl) as (N1 & N2 & N3).
      rewrite E in Hs, Hw. apply (Props_Mount.C99_mount_partial other dir_fs fresh_set order _ _ o3 (B"/html") sv m path old _ Ho Hs Hw eq_refl plain_html eq_refl); [|split; assumption].
      intros o' [<-|[<-|[<-|[]]]] C; [apply C1 in C as [_ C]|apply C2 in C as [_ C]|apply C4 in C as [_ C]]; auto.
    - intros N.
      assert (No : forall o', In o' ([o1; o2] ++ [o4]) -> ~ claims o' m path).
      { intros o' [<-|[<-|[<-|[]]]] C; [apply C1 in C as [M C]|apply C2 in C as [M C]|apply C4 in C as [M C]].
        - exact (N _ _ (F_main _ _ _ _ _ M C)).
        - exact (N _ _ (F_cookie _ _ _ _ _ M C)).
        - exact (N _ _ (F_icon _ _ _ _ _ M C)). }
      rewrite E in Hs, Hw. apply (Props_Mount.C99_mount_partial other dir_fs fresh_set order _ _ o3 (B"/html") sv m path old _ Ho Hs Hw eq_refl plain_html eq_refl No).
      intros [M Bl]. exact (N _ _ (F_html _ _ _ _ _ M Bl)).
  Qed.
  Theorem C170_example_3 : exists sv, setup new_srv (example_3 pages) = Ok sv /\ forall m path old,
    (forall u h, chooses_3 pages fresh_set (dir_fs (B"data")) m path u h -> srv_find order sv m path old = (TFound (u, h), [])) /\
    ((forall u h, ~ chooses_3 pages fresh_set (dir_fs (B"data")) m path u h) -> srv_find order sv m path old = (TNotFound, [])).
  Proof.
    assert (Hs : exists sv, setup new_srv (example_3 pages) = Ok sv) by (eexists; reflexivity).
    destruct Hs as [sv Hs]. exists sv. split; [exact Hs|]. intros m path old.
    assert (Hw : Forall proper (example_3 pages)) by (repeat constructor).
    set (o1 := OAdd MethodGetPost (B"/") m_main (Some pages)). set (o2 := OAdd MethodGetPost (B"/cookie") m_cookie (Some pages)).
    set (o3 := OStaticFile (U := U) (B"data") (B"/html") []).
    assert (E : example_3 pages = [o1; o2] ++ o3 :: []) by reflexivity.
    assert (C1 : claims o1 m path <-> In m [B"GET"; B"POST"] /\ segments path = []) by (apply claims_add; reflexivity).
    assert (C2 : claims o2 m path <-> In m [B"GET"; B"POST"] /\ segments path = [B"cookie"]) by (apply claims_add; reflexivity).
    split.
    - intros u h H. destruct H as [m path M Sg|m path M Sg|m path M Bl].
      1-2: apply (by_tree order _ _ _ _ _ _ _ Hs Hw); rewrite Sg; apply in_getpost in M as [->| ->]; reflexivity.
      destruct (below_html path Bl) as (N1 & N2 & _).
      rewrite E in Hs, Hw. apply (Props_Mount.C99_mount_partial other dir_fs fresh_set order _ _ o3 (B"/html") sv m path old _ Ho Hs Hw eq_refl plain_html eq_refl); [|split; assumption].
      intros o' [<-|[<-|[]]] C; [apply C1 in C as [_ C]|apply C2 in C as [_ C]]; auto.
    - intros N.
      assert (No : forall o', In o' ([o1; o2] ++ []) -> ~ claims o' m path).
      { intros o' [<-|[<-|[]]] C; [apply C1 in C as [M C]|apply C2 in C as [M C]].
        - exact (N _ _ (D_main _ _ _ _ _ M C)).
        - exact (N _ _ (D_cookie _ _ _ _ _ M C)). }
      rewrite E in Hs, Hw. apply (Props_Mount.C99_mount_partial other dir_fs fresh_set order _ _ o3 (B"/html") sv m path old _ Ho Hs Hw eq_refl plain_html eq_refl No).
      intros [M Bl]. exact (N _ _ (D_html _ _ _ _ _ M Bl)).
  Qed.

  (** The files are downloaded, unless they are called index.html (C88). *)
  Theorem C170_downloads_2 : forall time_parse fmt_time mime_type b1 b2 url_string fsys (sv : srv U) q target rest f data,
    setup new_srv (example_2 pages fsys) = Ok sv ->
    unconditional q -> normalize_path target = B"/html/" ++ rest -> no_escape (normalize_path target) -> last (B"data" :: plain_elems rest) [] <> B"index.html" ->
    io_open fsys (name_of (B"data" :: plain_elems rest)) = inl f -> regular f data ->
    Props_Mount.downloads time_parse fmt_time mime_type b1 b2 url_string order sv q (normalize_path target) data.
  Proof.
    intros tp ft mt b1 b2 us fsys sv q target rest f data Hs Un Ep Ne Ni Hopen Hreg.
    destruct (below_html (normalize_path target)) as (N1 & N2 & N3); [exists rest; exact Ep|].
    apply (Props_Mount.C99_download_embed_partial other dir_fs fresh_set tp ft mt b1 b2 us order
      [OAdd MethodGetPost (B"/") m_main (Some pages); OAdd MethodGetPost (B"/cookie") m_cookie (Some pages)]
      [OFixStaticFileFS (B"/data/favicons/favicon.ico") (B"/favicon.ico") fsys []] (B"data") fsys (B"html") rest [] sv q target f data
      (fresh_set (B"static for '/html'"))); try assumption; try reflexivity.
    - repeat constructor.
    - exact plain_html.
    - intros o' [<-|[<-|[<-|[]]]] C.
      + apply (claims_add (B"/") [] _ _ _ _ eq_refl) in C as [_ C]. auto.
      + apply (claims_add (B"/cookie") [B"cookie"] _ _ _ _ eq_refl) in C as [_ C]. auto.
      + apply (claims_fix _ (B"/favicon.ico") _ _ [B"favicon.ico"] _ _ eq_refl) in C as [_ C]. auto.
    - apply no_percent. vm_compute. intuition discriminate.
    - vm_compute. intuition discriminate.
  Qed.
  Theorem C170_downloads_3 : forall time_parse fmt_time mime_type b1 b2 url_string (sv : srv U) q target rest f data,
    setup new_srv (example_3 pages) = Ok sv ->
    unconditional q -> normalize_path target = B"/html/" ++ rest -> no_escape (normalize_path target) -> last (plain_elems rest) [] <> B"index.html" ->
    io_open (dir_fs (B"data")) (name_of (plain_elems rest)) = inl f -> regular f data ->
    Props_Mount.downloads time_parse fmt_time mime_type b1 b2 url_string order sv q (normalize_path target) data.
  Proof.
    intros tp ft mt b1 b2 us sv q target rest f data Hs Un Ep Ne Ni Hopen Hreg.
    destruct (below_html (normalize_path target)) as (N1 & N2 & N3); [exists rest; exact Ep|].
    apply (Props_Mount.C99_download_file_partial other dir_fs fresh_set tp ft mt b1 b2 us order
      [OAdd MethodGetPost (B"/") m_main (Some pages); OAdd MethodGetPost (B"/cookie") m_cookie (Some pages)] [] (B"data") (B"html") rest [] sv q target f data
      (fresh_set (B"static for '/html'"))); try assumption; try reflexivity.
    - repeat constructor.
    - exact plain_html.
    - intros o' [<-|[<-|[]]] C.
      + apply (claims_add (B"/") [] _ _ _ _ eq_refl) in C as [_ C]. auto.
      + apply (claims_add (B"/cookie") [B"cookie"] _ _ _ _ eq_refl) in C as [_ C]. auto.
  Qed.

  (** ... and the icon, whatever slashes and white space surround its name. *)
  Theorem C170_icon : forall time_parse fmt_time mime_type b1 b2 url_string fsys (sv : srv U) q path f data,
    setup new_srv (example_2 pages fsys) = Ok sv ->
    unconditional q -> segments path = [B"favicon.ico"] ->
    io_open fsys (name_of [B"data"; B"favicons"; B"favicon.ico"]) = inl f -> regular f data ->
    Props_Mount.downloads time_parse fmt_time mime_type b1 b2 url_string order sv q path data.
  Proof.
    intros tp ft mt b1 b2 us fsys sv q path f data Hs Un Sg Hopen Hreg old p.
    destruct (C170_example_2 fsys) as (sv' & Hs' & A). assert (sv' = sv) by congruence. subst sv'.
    destruct (A (B"GET") path old) as [A1 _]. pose proof (A1 _ _ (F_icon pages fresh_set fsys (B"GET") path (or_introl eq_refl) Sg)) as F.
    pose proof Hreg as (_ & _ & _ & _ & info & Hst & Hd & _).
    pose proof (C88_fix_static_partial tp ft mt b1 b2 us fsys q path p (B"/data/favicons/favicon.ico") f info) as Ca.
    assert (Pe : plain_elems (B"/data/favicons/favicon.ico") = [B"data"; B"favicons"; B"favicon.ico"]) by reflexivity.
    rewrite Pe in Ca. assert (Nf : no_escape (B"/data/favicons/favicon.ico")) by (apply no_percent; vm_compute; intuition discriminate).
    assert (Nd : ~ In (B"..") (split "/" (B"/data/favicons/favicon.ico"))) by (vm_compute; intuition discriminate).
    specialize (Ca Nf Nd ltac:(vm_compute; discriminate) Hopen Hst Hd).
    destruct (C88_whole_file_partial tp ft mt b1 b2 q p f info _ data _ Un Hreg Hst Ca) as (r & Er & St & Bd).
    exists (fresh_set (B"static for '/favicon.ico'")), (HFix fsys (B"/data/favicons/favicon.ico")), r. cbn [handler_run].
    destruct (static_fix_run tp ft mt b1 b2 us fsys (B"/data/favicons/favicon.ico") q path p) as [x y]. cbn [fst] in Er. subst x.
    eexists _, y. destruct Un as [-> _]. split; [exact F|]. split; [reflexivity|]. split; assumption.
  Qed.
End Files.
Print Assumptions C170_icon.
Print Assumptions C170_example_2.
Print Assumptions C170_example_3.
Print Assumptions C170_downloads_2.
Print Assumptions C170_downloads_3.

(** Not vacuous: requests for each handler and for none, and files that can be downloaded. *)
Definition e2_fs : iofs := IoFs
  (fun n => if beq n (B"data/css/style.css") then inl (x_file (B"style.css") false (B"b{}")) else inr err_not_exist)
  (fun _ => inr err_not_exist).
Definition e2_srv : srv nat := match setup Props_Mount.y_other Props_Mount.y_dir Props_Mount.y_set new_srv (example_2 7 e2_fs) with Ok sv => sv | Panic => new_srv end.
Example C170_case :
  any_order (fun l : rmap (@hs nat) => l) /\
  chooses_2 7 Props_Mount.y_set e2_fs (B"POST") (B"/cookie/") 7 (HUser m_cookie) /\
  chooses_2 7 Props_Mount.y_set e2_fs (B"HEAD") (B"/html/css/style.css") 0 (HEmbed e2_fs (B"data") (B"html")) /\
  (forall u h, ~ chooses_2 7 Props_Mount.y_set e2_fs (B"POST") (B"/html/css/style.css") u h) /\
  (forall u h, ~ chooses_2 7 Props_Mount.y_set e2_fs (B"HEAD") (B"/favicon.ico") u h) /\
  srv_find (fun l => l) e2_srv (B"GET") (B"/favicon.ico") [] = (TFound (0, HFix e2_fs (B"/data/favicons/favicon.ico")), []) /\
  unconditional x_q /\ normalize_path (B"/html/css/style.css") = B"/html/" ++ B"css/style.css" /\ no_escape (normalize_path (B"/html/css/style.css")) /\
  last (B"data" :: plain_elems (B"css/style.css")) [] <> B"index.html" /\
  io_open e2_fs (name_of (B"data" :: plain_elems (B"css/style.css"))) = inl (x_file (B"style.css") false (B"b{}")) /\
  regular (x_file (B"style.css") false (B"b{}")) (B"b{}").
Proof.
  split; [intros l; apply Permutation.Permutation_refl|]. split; [constructor; [cbn; auto|reflexivity]|].
  split; [apply F_html; [cbn; auto|exists (B"css/style.css"); reflexivity]|].
  split. { intros u h H. inversion H as [? ? ? E|? ? ? E|? ? ? E|? ? M]; subst; try (vm_compute in E; discriminate E). cbn in M. intuition discriminate. }
  split. { intros u h H. inversion H as [? ? ? E|? ? ? E|? ? M E|? ? ? E]; subst; try (vm_compute in E; discriminate E);
    [cbn in M; intuition discriminate|destruct E as [r E]; discriminate E]. }
  split; [reflexivity|]. split; [apply x_unconditional|]. split; [reflexivity|].
  split. { apply no_percent. vm_compute. intuition discriminate. }
  split; [discriminate|]. split; [reflexivity|]. apply x_regular. reflexivity.
Qed.
