(** C151: directory listings.  (dirList is reached only with serveFile's showDir, which the exported functions
    leave off: C47.) *)
From Verif Require Import Base GoStrings GoPath M_Cond M_Content M_Static S_Listing.
From Coq Require Import Sorting.Sorted.
From Verif Require Props_Static.

Lemma before_iff : forall a b, bytes_ltb a b = true <-> before a b.
Proof.
  induction a as [|x a IH]; intros [|y b]; cbn [bytes_ltb].
  - split; [discriminate|]. intros (p & a' & b' & E1 & E2 & [[-> N]|(u & v & a2 & b2 & -> & -> & _)]); destruct p; try discriminate; cbn in E2; congruence.
  - split; [|reflexivity]. intros _. exists [], [], (y :: b). split; [reflexivity|]. split; [reflexivity|]. left. split; [reflexivity|discriminate].
  - split; [discriminate|]. intros (p & a' & b' & E1 & E2 & [[-> N]|(u & v & a2 & b2 & -> & -> & _)]); destruct p; try discriminate; cbn in E2; congruence.
  - destruct (N.ltb_spec (bv x) (bv y)) as [L|L].
    + split; [|reflexivity]. intros _. exists [], (x :: a), (y :: b). split; [reflexivity|]. split; [reflexivity|]. right. exists x, y, a, b. auto.
    + destruct (N.ltb_spec (bv y) (bv x)) as [L'|L'].
      * split; [discriminate|]. intros (p & a' & b' & E1 & E2 & H). exfalso. destruct p as [|z p]; cbn [app] in E1, E2.
        -- destruct H as [[-> _]|(u & v & a2 & b2 & -> & -> & H)]; [discriminate E1|]. injection E1 as -> ->. injection E2 as -> ->. lia.
        -- injection E1 as -> _. injection E2 as -> _. lia.
      * assert (bv x = bv y) as E by lia. assert (x = y) as ->.
        { apply (f_equal ascii_of_N) in E. unfold bv in E. rewrite !ascii_N_embedding in E. exact E. }
        rewrite IH. split.
        -- intros (p & a' & b' & -> & -> & H). exists (y :: p), a', b'. auto.
        -- intros (p & a' & b' & E1 & E2 & H). destruct p as [|z p]; cbn [app] in E1, E2.
           ++ destruct H as [[-> _]|(u & v & a2 & b2 & -> & -> & H)]; [discriminate E1|]. injection E1 as -> ->. injection E2 as -> ->. lia.
           ++ injection E1 as -> ->. injection E2 as ->. exists p, a', b'. auto.
Qed.
Lemma ltb_trans a b c : bytes_ltb a b = true -> bytes_ltb b c = true -> bytes_ltb a c = true.
Proof.
  revert b c. induction a as [|x a IH]; intros [|y b] [|z c]; cbn [bytes_ltb]; try discriminate; try reflexivity.
  intros H1 H2. destruct (N.ltb_spec (bv x) (bv y)), (N.ltb_spec (bv y) (bv z)), (N.ltb_spec (bv x) (bv z)); try lia; try reflexivity;
    destruct (N.ltb_spec (bv y) (bv x)), (N.ltb_spec (bv z) (bv y)), (N.ltb_spec (bv z) (bv x)); try lia; try discriminate. exact (IH _ _ H1 H2).
Qed.
Lemma ltb_total a b : bytes_ltb a b = false -> a <> b -> bytes_ltb b a = true.
Proof.
  revert b. induction a as [|x a IH]; intros [|y b]; cbn [bytes_ltb]; intros H N; try congruence; try discriminate H; try reflexivity.
  destruct (N.ltb_spec (bv x) (bv y)) as [L|L]; [discriminate H|]. destruct (N.ltb_spec (bv y) (bv x)) as [L'|L']; [reflexivity|].
  assert (bv x = bv y) as E by lia. assert (x = y) as ->.
  { apply (f_equal ascii_of_N) in E. unfold bv in E. rewrite !ascii_N_embedding in E. exact E. }
  apply IH; [exact H|congruence].
Qed.
Notation lt2 := (fun x y : bytes * bool => before (fst x) (fst y)).
Lemma insert_perm e l : Permutation (insert_entry e l) (e :: l).
Proof.
  induction l as [|x l IH]; [reflexivity|]. cbn [insert_entry]. destruct (bytes_ltb (fst e) (fst x)); [reflexivity|].
  eapply Permutation_trans; [apply perm_skip; exact IH|apply perm_swap].
Qed.
Lemma insert_sorted e l : ~ In (fst e) (map fst l) -> StronglySorted lt2 l -> StronglySorted lt2 (insert_entry e l).
Proof.
  induction l as [|x l IH]; intros N S; cbn [insert_entry]; [repeat constructor|]. inversion S as [|? ? S' F]; subst.
  destruct (bytes_ltb (fst e) (fst x)) eqn:L.
  - constructor; [exact S|]. constructor; [apply before_iff; exact L|]. apply Forall_forall. intros y I. rewrite Forall_forall in F.
    apply before_iff. apply (ltb_trans _ (fst x)); [exact L|]. apply before_iff. exact (F y I).
  - constructor; [apply IH; [intros I; apply N; right; exact I|exact S']|]. apply Forall_forall. intros y I.
    apply (Permutation_in _ (insert_perm e l)) in I as [<-|I]; [|rewrite Forall_forall in F; exact (F y I)].
    apply before_iff, ltb_total; [exact L|]. intros E. apply N. left. symmetry. exact E.
Qed.
Lemma sort_facts l : NoDup (map fst l) -> Permutation (sort_entries l) l /\ StronglySorted lt2 (sort_entries l).
Proof.
  unfold sort_entries. intros N.
  assert (K : forall l acc, NoDup (map fst (l ++ acc)) -> StronglySorted lt2 acc ->
    Permutation (fold_left (fun acc e => insert_entry e acc) l acc) (l ++ acc) /\ StronglySorted lt2 (fold_left (fun acc e => insert_entry e acc) l acc)).
  { clear. induction l as [|e l IH]; intros acc N S; cbn [fold_left app]; [split; [reflexivity|exact S]|].
    cbn [app map] in N. inversion N as [|? ? N1 N2]; subst.
    assert (P : Permutation (l ++ insert_entry e acc) (e :: l ++ acc)).
    { eapply Permutation_trans; [apply Permutation_app_head, insert_perm|]. symmetry. apply Permutation_middle. }
    destruct (IH (insert_entry e acc)) as [P1 S1].
    - apply (Permutation_NoDup (l := map fst (e :: l ++ acc))); [apply Permutation_map; symmetry; exact P|exact N].
    - apply insert_sorted; [|exact S]. intros I. apply N1. rewrite map_app. apply in_or_app. right. exact I.
    - split; [|exact S1]. eapply Permutation_trans; [exact P1|exact P]. }
  destruct (K l []) as [P S]; [rewrite app_nil_r; exact N|constructor|]. rewrite app_nil_r in P. auto.
Qed.
Lemma replace_escaped s : escaped (html_replace s) s.
Proof.
  induction s as [|c s IH]; [constructor|]. unfold html_replace in *. cbn [map concat].
  unfold html_escape1.
  destruct (Ascii.eqb_spec c "&") as [->|N1]; [apply Esc_amp; exact IH|]. destruct (Ascii.eqb_spec c "<") as [->|N2]; [apply Esc_lt; exact IH|].
  destruct (Ascii.eqb_spec c ">") as [->|N3]; [apply Esc_gt; exact IH|]. destruct (Ascii.eqb_spec c """") as [->|N4]; [apply Esc_quot; exact IH|].
  destruct (Ascii.eqb_spec c "'") as [->|N5]; [apply Esc_apos; exact IH|]. apply Esc_plain; [|exact IH].
  intros [E|[E|[E|[E|[E|[]]]]]]; congruence.
Qed.

(** ** C151 *)
(** The listing of a directory whose entries have different names. *)
Theorem C151_listing : forall link p f entries, g_entries f = inl entries -> NoDup (map fst entries) ->
  exists body, lists_all link entries body /\
    dir_list link p f = (SResp (p_status p) (aput (B"Content-Type") (B"text/html; charset=utf-8") (p_hdr p)) (p_body p ++ body), FNil).
Proof.
  intros link p f l E N. destruct (sort_facts l N) as [P S]. unfold dir_list. rewrite E.
  eexists. split; [|reflexivity]. exists (sort_entries l). eexists. split; [exact P|]. split; [exact S|]. split; [|reflexivity].
  clear. induction (sort_entries l) as [|e r IH]; cbn [map]; constructor; [|exact IH]. exists (html_replace (shown_name e)). split; [apply replace_escaped|reflexivity].
Qed.
(** A directory that cannot be read. *)
Theorem C151_unreadable : forall link p f e, g_entries f = inr e ->
  exists r, dir_list link p f = (r, FErr e) /\ p_status r = 500%Z /\ p_body r = p_body p ++ B"Error reading directory" /\
    aget (B"Content-Type") (p_hdr r) = Some (B"text/plain; charset=utf-8").
Proof.
  intros link p f e E. unfold dir_list. rewrite E. eexists. split; [reflexivity|]. split; [reflexivity|]. split; [reflexivity|]. reflexivity.
Qed.
(** Escaped text is harmless and unambiguous. *)
Theorem C151_escaping : forall esc raw, escaped esc raw ->
  (forall c, In c (B"<>'""") -> ~ In c esc) /\ (forall raw', escaped esc raw' -> raw = raw').
Proof.
  intros esc raw H. split.
  - induction H as [|c e r N H IH|e r H IH|e r H IH|e r H IH|e r H IH|e r H IH]; intros d D I; [exact I| | | | | |].
    { destruct I as [<-|I]; [|exact (IH d D I)]. apply N. cbn in D |- *. intuition auto. }
    all: apply in_app_or in I as [I|I]; [|exact (IH d D I)]; clear - D I; cbn in D, I; intuition (subst; discriminate).
  - induction H as [|c e r N H IH|e r H IH|e r H IH|e r H IH|e r H IH|e r H IH]; intros raw' H'.
    + inversion H'; reflexivity.
    + inversion H' as [|? ? ? N' H2|e1 r1 H2 E1|e1 r1 H2 E1|e1 r1 H2 E1|e1 r1 H2 E1|e1 r1 H2 E1]; subst; [f_equal; auto|..]; exfalso; apply N; left; congruence.
    + inversion H' as [|? ? ? N' H2|e1 r1 H2 E1|e1 r1 H2 E1|e1 r1 H2 E1|e1 r1 H2 E1|e1 r1 H2 E1]; subst; try discriminate; [exfalso; apply N'; left; reflexivity|f_equal; auto].
    + inversion H' as [|? ? ? N' H2|e1 r1 H2 E1|e1 r1 H2 E1|e1 r1 H2 E1|e1 r1 H2 E1|e1 r1 H2 E1]; subst; try discriminate; [exfalso; apply N'; left; reflexivity|f_equal; auto].
    + inversion H' as [|? ? ? N' H2|e1 r1 H2 E1|e1 r1 H2 E1|e1 r1 H2 E1|e1 r1 H2 E1|e1 r1 H2 E1]; subst; try discriminate; [exfalso; apply N'; left; reflexivity|f_equal; auto].
    + inversion H' as [|? ? ? N' H2|e1 r1 H2 E1|e1 r1 H2 E1|e1 r1 H2 E1|e1 r1 H2 E1|e1 r1 H2 E1]; subst; try discriminate; [exfalso; apply N'; left; reflexivity|f_equal; auto].
    + inversion H' as [|? ? ? N' H2|e1 r1 H2 E1|e1 r1 H2 E1|e1 r1 H2 E1|e1 r1 H2 E1|e1 r1 H2 E1]; subst; try discriminate; [exfalso; apply N'; left; reflexivity|f_equal; auto].
Qed.

(** ** serveFile with showDir *)
Lemma base_of d e k : e <> [] -> ~ In "/"%char e -> path_base (d ++ "/"%char :: e ++ repeat "/"%char k) = e.
Proof.
  intros Ne Ns. destruct (exists_last Ne) as (e0 & c & ->).
  assert (Nc : c <> "/"%char) by (intros ->; apply Ns, in_or_app; right; left; reflexivity).
  unfold path_base. replace (is_empty (d ++ "/"%char :: (e0 ++ [c]) ++ repeat "/"%char k)) with false by (destruct d; reflexivity).
  assert (T : trim_right "/" (d ++ "/"%char :: (e0 ++ [c]) ++ repeat "/"%char k) = d ++ "/"%char :: e0 ++ [c]).
  { unfold trim_right, trim_left. replace (d ++ "/"%char :: (e0 ++ [c]) ++ repeat "/"%char k) with ((d ++ "/"%char :: e0 ++ [c]) ++ repeat "/"%char k) by (rewrite <- app_assoc; reflexivity).
    rewrite rev_app_distr.
    assert (D : forall n t, drop_while (Ascii.eqb "/") (rev (repeat "/"%char n) ++ c :: t) = c :: t).
    { intros n t. replace (rev (repeat "/"%char n)) with (repeat "/"%char n).
      - induction n as [|n IH]; [|exact IH]. cbn [repeat app drop_while]. destruct (Ascii.eqb_spec "/" c); [congruence|reflexivity].
      - clear. induction n as [|n IH]; [reflexivity|]. cbn [repeat rev]. rewrite <- IH. clear. induction n as [|n IH]; [reflexivity|]. cbn [repeat app]. rewrite <- IH. reflexivity. }
    rewrite (rev_app_distr d). cbn [rev]. rewrite !(rev_app_distr e0). cbn [rev app]. rewrite D. cbn [rev]. rewrite rev_app_distr. cbn [rev app]. rewrite rev_app_distr. cbn [rev app].
    rewrite !rev_involutive, <- !app_assoc. reflexivity. }
  assert (Sp : split "/" (d ++ "/"%char :: e0 ++ [c]) = split "/" d ++ [e0 ++ [c]]).
  { assert (App : forall a b, split "/" (a ++ "/"%char :: b) = split "/" a ++ split "/" b).
    { clear. induction a as [|x a IH]; intros b; cbn [app split]; [reflexivity|]. destruct (Ascii.eqb x "/"); [rewrite IH; reflexivity|]. rewrite IH.
      destruct (split "/" a) as [|w ws] eqn:E; [|reflexivity]. exfalso. destruct a as [|y a]; cbn [split] in E; [discriminate E|]. destruct (Ascii.eqb y "/"); [discriminate E|]. destruct (split "/" a); discriminate E. }
    rewrite App. f_equal. clear - Ns. induction (e0 ++ [c]) as [|x l IH]; [reflexivity|]. cbn [split]. destruct (Ascii.eqb_spec x "/") as [->|_]; [exfalso; apply Ns; left; reflexivity|].
    rewrite IH by (intros X; apply Ns; right; exact X). reflexivity. }
  rewrite T, Sp, rev_app_distr. cbn [rev app]. destruct e0; reflexivity.
Qed.
Lemma index_name_is name index : index_name name index -> trim_suffix name (B"/") ++ B"/index.html" = index.
Proof.
  intros (stem & [[-> N]| ->] & ->); f_equal; unfold trim_suffix, trim_prefix; change (rev (B"/")) with ["/"%char].
  - destruct (rev stem) as [|c s] eqn:Er; cbn [strip_prefix]; [rewrite <- Er; apply rev_involutive|].
    destruct (Ascii.eqb_spec "/" c) as [<-|]; [|rewrite <- Er; apply rev_involutive]. exfalso.
    apply (N (rev s)). rewrite <- (rev_involutive stem), Er. reflexivity.
  - rewrite rev_app_distr. change (rev (B"/")) with ["/"%char]. cbn [app strip_prefix]. rewrite Ascii.eqb_refl. apply rev_involutive.
Qed.

Section Serve.
  Variable time_parse : bytes -> bytes -> option gtime.
  Variable fmt_time : gtime -> bytes.
  Variable mime_type : bytes -> bytes.
  Variables boundary1 boundary2 : bytes.
  Variable link : bytes -> bytes.
  Notation serve := (serve_file time_parse fmt_time mime_type boundary1 boundary2 link).
  (** the Location of a relative redirect: the request URI is appended as if it were the query (C59) *)
  Definition to (q : sreq) (l : bytes) : bytes := l ++ (if is_empty (q_uri q) then [] else B"?" ++ q_uri q).
  Lemma redirect_is q p l : local_redirect q p l = SResp 301 (aput (B"Location") (to q l) (p_hdr p)) (p_body p).
  Proof. unfold local_redirect, to, hset, set_status. destruct (is_empty (q_uri q)); [rewrite app_nil_r|]; reflexivity. Qed.
  Lemma last_of (d e : bytes) c0 : ~ In "/"%char e -> e <> [] -> match rev (d ++ c0 :: e) with c :: _ => Ascii.eqb c "/" | [] => false end = false.
  Proof.
    intros Ns Ne. destruct (exists_last Ne) as (e0 & c & ->). replace (d ++ c0 :: e0 ++ [c]) with ((d ++ c0 :: e0) ++ [c]) by (rewrite <- app_assoc; reflexivity).
    rewrite rev_app_distr. cbn [rev app]. apply Ascii.eqb_neq. intros ->. apply Ns, in_or_app. right. left. reflexivity.
  Qed.
  (** A directory asked for without its slash is redirected to the name with a slash. *)
  Theorem C151_slash_added : forall q d e p open name redirect f info calls,
    e <> B"index.html" -> e <> [] -> ~ In "/"%char e ->
    open name = (inl f, calls) -> g_stat f = inl info -> fi_dir info = true ->
    serve q (d ++ "/"%char :: e) p open name true redirect =
      Some (SResp 301 (aput (B"Location") (to q (e ++ B"/")) (p_hdr p)) (p_body p), FNil, calls).
  Proof.
    intros q d e p open name redirect f info calls Ni Ne Ns Ho Hs Hd. unfold serve_file.
    assert (Sx : has_suffix (d ++ "/"%char :: e) (B"/index.html") = false).
    { destruct (has_suffix (d ++ "/"%char :: e) (B"/index.html")) eqn:X; [|reflexivity]. exfalso. apply Ni. unfold has_suffix in X.
      assert (Y : exists a, d ++ "/"%char :: e = a ++ "/"%char :: B"index.html").
      { apply Props_Static.has_suffix_iff in X as (a & X). exists a. exact X. }
      destruct Y as (a & Y). assert (N2 : ~ In "/"%char (B"index.html")) by (vm_compute; intuition discriminate).
      apply (f_equal (@rev _)) in Y. rewrite !rev_app_distr in Y. cbn [rev] in Y. rewrite <- !app_assoc in Y.
      assert (K : forall u v x y : bytes, ~ In "/"%char u -> ~ In "/"%char v -> u ++ ["/"%char] ++ x = v ++ ["/"%char] ++ y -> u = v).
      { clear. induction u as [|c u IH]; intros [|c' v] x y N1 N2 E; cbn [app] in E.
        - reflexivity.
        - injection E as E _. exfalso. apply N2. left. congruence.
        - injection E as E _. exfalso. apply N1. left. congruence.
        - injection E as -> E. f_equal. apply (IH v x y); [intros X; apply N1; right; exact X|intros X; apply N2; right; exact X|exact E]. }
      assert (Z : rev e = rev (B"index.html")).
      { apply (K _ _ (rev d) (rev a)); [intros X'; apply Ns, in_rev; exact X'|intros X'; apply N2, in_rev; exact X'|exact Y]. }
      rewrite <- (rev_involutive e), Z, rev_involutive. reflexivity. }
    rewrite Sx, Ho, Hs, Hd. cbn [negb andb]. pose proof (last_of d e "/" Ns Ne) as L. pose proof (base_of d e 0 Ne Ns) as Bs. cbn [repeat] in Bs. rewrite app_nil_r in Bs.
    rewrite Bs.
    assert (Em : is_empty (d ++ "/"%char :: e) = false) by (destruct d; reflexivity).
    destruct (rev (d ++ "/"%char :: e)) as [|c r] eqn:R.
    - apply (f_equal (@length _)) in R. rewrite rev_length, app_length in R. cbn in R. lia.
    - rewrite L, Em. cbn [negb orb]. destruct redirect; rewrite redirect_is; reflexivity.
  Qed.
  (** A file asked for with a slash, when canonical redirects are wanted. *)
  Theorem C151_slash_removed : forall q d e p open name show f info calls,
    e <> [] -> ~ In "/"%char e -> open name = (inl f, calls) -> g_stat f = inl info -> fi_dir info = false ->
    serve q (d ++ "/"%char :: e ++ B"/") p open name show true =
      Some (SResp 301 (aput (B"Location") (to q (B"../" ++ e)) (p_hdr p)) (p_body p), FNil, calls).
  Proof.
    intros q d e p open name show f info calls Ne Ns Ho Hs Hd. unfold serve_file.
    assert (E : d ++ "/"%char :: e ++ B"/" = (d ++ "/"%char :: e) ++ ["/"%char]) by (rewrite <- app_assoc; reflexivity).
    assert (Sx : has_suffix (d ++ "/"%char :: e ++ B"/") (B"/index.html") = false).
    { destruct (has_suffix _ _) eqn:X; [|reflexivity]. apply Props_Static.has_suffix_iff in X as (a & X). rewrite E in X.
      change (B"/index.html") with (B"/index.htm" ++ ["l"%char]) in X. rewrite app_assoc in X. apply app_inj_tail in X as [_ X]. discriminate X. }
    rewrite Sx, Ho, Hs, Hd, andb_false_r. pose proof (base_of d e 1 Ne Ns) as Bs. cbn [repeat] in Bs. change (B"/") with ["/"%char]. rewrite Bs.
    change (B"/") with ["/"%char] in E. rewrite E, rev_app_distr. cbn [rev app]. rewrite Ascii.eqb_refl, redirect_is. reflexivity.
  Qed.
  (** A directory asked for with its slash that has no index.html is listed; without conditions in the request always. *)
  Theorem C151_listed : forall q d p open name index redirect f info calls calls2 e entries, index_name name index ->
    open name = (inl f, calls) -> g_stat f = inl info -> fi_dir info = true ->
    open index = (inr e, calls2) ->
    g_entries f = inl entries -> NoDup (map fst entries) -> hpeek (q_hdr q) (B"If-Modified-Since") = [] -> fi_mod info <> zero_time -> fi_mod info <> 0%Z ->
    exists body, lists_all link entries body /\
      serve q (d ++ B"/") p open name true redirect =
        Some (SResp (p_status p) (aput (B"Content-Type") (B"text/html; charset=utf-8") (aput (B"Last-Modified") (fmt_time (fi_mod info)) (p_hdr p))) (p_body p ++ body), FNil, calls ++ calls2).
  Proof.
    intros q d p open name index redirect f info calls calls2 e entries Hn Ho Hs Hd Hi0 He Nd Hc Z1 Z2.
    assert (Hi : open (trim_suffix name (B"/") ++ B"/index.html") = (inr e, calls2)) by (rewrite <- Hi0; f_equal; exact (index_name_is _ _ Hn)).
    destruct (C151_listing link (set_last_modified fmt_time (fi_mod info) p) f entries He Nd) as (body & Hl & Hb). exists body. split; [exact Hl|].
    unfold serve_file.
    assert (Sx : has_suffix (d ++ B"/") (B"/index.html") = false).
    { destruct (has_suffix _ _) eqn:X; [|reflexivity]. apply Props_Static.has_suffix_iff in X as (a & X).
      change (B"/index.html") with (B"/index.htm" ++ ["l"%char]) in X. rewrite app_assoc in X. apply app_inj_tail in X as [_ X]. discriminate X. }
    rewrite Sx, Ho, Hs, Hd. cbn [negb andb]. change (B"/") with ["/"%char] at 1 2 3 4 5. rewrite rev_app_distr. cbn [rev app]. rewrite Ascii.eqb_refl. cbn [negb].
    assert (Em : is_empty (d ++ ["/"%char]) = false) by (destruct d; reflexivity). rewrite Em. cbn [orb]. rewrite Hi.
    assert (Cm : is_cfalse (check_if_modified_since time_parse q (fi_mod info)) = false).
    { unfold check_if_modified_since. rewrite Hc. destruct (get_or_head q); reflexivity. }
    assert (Lm : set_last_modified fmt_time (fi_mod info) p = SResp (p_status p) (aput (B"Last-Modified") (fmt_time (fi_mod info)) (p_hdr p)) (p_body p)).
    { unfold set_last_modified. replace (is_zero_time (fi_mod info)) with false; [reflexivity|]. symmetry. unfold is_zero_time.
      apply orb_false_iff. split; apply Z.eqb_neq; assumption. }
    rewrite Cm, Hb, Lm. cbn [p_status p_hdr p_body]. destruct redirect; reflexivity.
  Qed.
End Serve.

Definition ex_file : gofile := GoFile (inl (FInfo (B"d") true 5000000000%Z 0%Z)) closed_content (inl [(B"b<", false); (B"a", true); (B"a b", false)]).
Definition ex_open : fsystem := fun n => if beq n (B"/d") then (inl ex_file, [COpen n]) else (inr err_not_exist, [COpen n]).
Definition ex_q : sreq := SReq (B"GET") (B"/d/") [].
Example C151_example :
  NoDup (map fst [(B"b<", false); (B"a", true); (B"a b", false)]) /\
  match serve_file (fun _ _ => None) (fun _ => B"date") (fun _ => []) [] [] (fun s => s) ex_q (B"/d/") (SResp 200%Z [] []) ex_open (B"/d") true true with
  | Some (r, _, _) => p_body r = B"<pre>" ++ [ch 10] ++ B"<a href=""a/"">a/</a>" ++ [ch 10] ++ B"<a href=""a b"">a b</a>" ++ [ch 10] ++ B"<a href=""b<"">b&lt;</a>" ++ [ch 10] ++ B"</pre>" ++ [ch 10]
  | None => False
  end /\
  match serve_file (fun _ _ => None) (fun _ => B"date") (fun _ => []) [] [] (fun s => s) ex_q (B"/x/d") (SResp 200%Z [] []) ex_open (B"/d") true true with
  | Some (r, _, _) => p_status r = 301%Z /\ aget (B"Location") (p_hdr r) = Some (B"d/?/d/")
  | None => False
  end.
Proof. split; [|split; vm_compute; auto]. repeat constructor; vm_compute; intuition discriminate. Qed.
Print Assumptions C151_listing.
Print Assumptions C151_unreadable.
Print Assumptions C151_escaping.
Print Assumptions C151_slash_added.
Print Assumptions C151_slash_removed.
Print Assumptions C151_listed.
