(** C156: index.html of a directory (package static, with serveFile's showDir, which the exported functions leave off). *)
From Verif Require Import Base GoStrings GoInt GoPath M_Range M_Sniff M_Cond M_Content M_Static S_Listing S_Cond S_Content Props_Static Props_Static2 Props_Cond Props_Content Props_Answer Props_Listing.

Section Index.
  Variable time_parse : bytes -> bytes -> option gtime.
  Variable fmt_time : gtime -> bytes.
  Variable mime_type : bytes -> bytes.
  Variables boundary1 boundary2 : bytes.
  Variable link : bytes -> bytes.
  Notation serve := (serve_file time_parse fmt_time mime_type boundary1 boundary2 link).

  (** the two file systems differ at most in what can be read from one file (or listed, if it is a directory) *)
  Definition same_but_content (open open' : fsystem) (index : bytes) : Prop :=
    (forall n, n <> index -> open n = open' n) /\
    match open index, open' index with
    | (inl f, calls), (inl f', calls') => g_stat f = g_stat f' /\ calls = calls'
    | x, y => x = y
    end.
  (** The answer to a request for a directory does not depend on what its index.html contains: the file has been closed
      before it is read. *)
  Theorem C156_content_never_read : forall q path p open open' name index f info calls show redirect,
    index_name name index -> same_but_content open open' index -> open name = (inl f, calls) -> g_stat f = inl info -> fi_dir info = true ->
    serve q path p open name show redirect = serve q path p open' name show redirect.
  Proof.
    intros q path p open open' name index f info calls show redirect Hn [Ho Hi] E Hs Hd.
    assert (Nn : name <> index).
    { destruct Hn as (stem & [[-> _]| ->] & ->); intros X; apply (f_equal (@length ascii)) in X; rewrite !app_length in X; cbn in X; lia. }
    unfold serve_file. destruct (has_suffix path (B"/index.html")); [reflexivity|]. rewrite <- (Ho name Nn), E, Hs, Hd.
    destruct (negb show && true); [reflexivity|]. pose proof (index_name_is _ _ Hn) as Ei.
    match goal with |- context [if redirect then ?a else ?b] => destruct (if redirect then a else b) as [[t|]|] end; try reflexivity.
    destruct (is_empty path || _); [reflexivity|].
    assert (Q : forall (o : fsystem), o (trim_suffix name (B"/") ++ B"/index.html") = o index) by (intros o; f_equal; exact Ei). rewrite !Q.
    destruct (open index) as [[g|e] c], (open' index) as [[g'|e'] c']; try (injection Hi; intros; subst; reflexivity); try discriminate Hi.
    destruct Hi as (-> & ->). reflexivity.
  Qed.

  (** If index.html is itself a directory the request fails. *)
  Theorem C156_index_directory : forall q d p open name index f info calls g dd calls2,
    index_name name index -> open name = (inl f, calls) -> g_stat f = inl info -> fi_dir info = true ->
    open index = (inl g, calls2) -> g_stat g = inl dd -> fi_dir dd = true -> unconditional q ->
    exists r e, serve q (d ++ B"/") p open name true false = Some (r, FErr e, calls ++ calls2) /\
      p_status r = 500%Z /\ p_body r = p_body p ++ B"Error reading directory".
  Proof.
    intros q d p open name index f info calls g dd calls2 Hn Ho Hs Hd Hi Gs Gd Un.
    unfold serve_file.
    assert (Sx : has_suffix (d ++ B"/") (B"/index.html") = false).
    { destruct (has_suffix _ _) eqn:X; [|reflexivity]. apply Props_Static.has_suffix_iff in X as (a & X).
      change (B"/index.html") with (B"/index.htm" ++ ["l"%char]) in X. rewrite app_assoc in X. apply app_inj_tail in X as [_ X]. discriminate X. }
    rewrite Sx, Ho, Hs, Hd. cbn [negb andb]. change (B"/") with ["/"%char] at 1 2. rewrite rev_app_distr. cbn [rev app]. rewrite Ascii.eqb_refl. cbn [negb].
    assert (Em : is_empty (d ++ ["/"%char]) = false) by (destruct d; reflexivity). rewrite Em. cbn [orb].
    assert (Q : open (trim_suffix name (B"/") ++ B"/index.html") = open index) by (f_equal; exact (index_name_is _ _ Hn)). rewrite Q, Hi, Gs, Gd.
    assert (C : is_cfalse (check_if_modified_since time_parse q (fi_mod dd)) = false).
    { unfold check_if_modified_since. destruct Un as [_ Un]. destruct (negb (get_or_head q)); [reflexivity|].
      assert (Hq : hpeek (q_hdr q) (B"If-Modified-Since") = []) by (rewrite Forall_forall in Un; apply Un; vm_compute; auto).
      rewrite Hq. reflexivity. }
    rewrite C. eexists _, _. split; [reflexivity|]. split; [reflexivity|].
    cbn [error_reply append_body set_status hset p_body]. rewrite slm_body. reflexivity.
  Qed.

  (** the claim: a directory with an index.html is answered with what is in that file *)
  Definition C156_claim : Prop := forall q d p open name index f info calls g calls2 data,
    index_name name index -> open name = (inl f, calls) -> g_stat f = inl info -> fi_dir info = true ->
    open index = (inl g, calls2) -> regular g data -> unconditional q ->
    exists r e cs, serve q (d ++ B"/") p open name true false = Some (r, e, cs) /\ p_body r = p_body p ++ data.
  (** What is missing is the content: the answer has the status and the length of index.html and no body; or, if the type
      has to be found from the content, it is a 500. *)
  Theorem C156_index_partial : forall q d p open name index f info calls g dd calls2 data,
    index_name name index -> open name = (inl f, calls) -> g_stat f = inl info -> fi_dir info = true ->
    open index = (inl g, calls2) -> regular g data -> g_stat g = inl dd -> unconditional q ->
    exists r, let typed := hdr q (B"Content-Type") <> [] \/ mime_type (file_ext (fi_name dd)) <> [] in
      (typed -> serve q (d ++ B"/") p open name true false = Some (r, FNil, calls ++ calls2) /\ p_status r = 200%Z /\ p_body r = p_body p /\
         (rhdr p (B"Content-Encoding") = [] -> rhdr r (B"Content-Length") = fmt_int (Z.of_nat (length data)))) /\
      (~ typed -> serve q (d ++ B"/") p open name true false = Some (r, FServe SSeek, calls ++ calls2) /\ p_status r = 500%Z /\
         p_body r = p_body p ++ B"seeker can't seek").
  Proof.
    intros q d p open name index f info calls g dd calls2 data Hn Ho Hs Hd Hi (_ & _ & _ & _ & dd' & Gs & Gd & Gz) Gs' Un.
    rewrite Gs' in Gs. injection Gs as <-.
    assert (E : serve q (d ++ B"/") p open name true false =
      match serve_content time_parse fmt_time mime_type boundary1 boundary2 q p (fi_name dd) (fi_mod dd) (Some (fi_size dd)) closed_content with
      | None => None | Some (r, e) => Some (r, match e with SOk => FNil | _ => FServe e end, calls ++ calls2) end).
    { unfold serve_file.
      assert (Sx : has_suffix (d ++ B"/") (B"/index.html") = false).
      { destruct (has_suffix _ _) eqn:X; [|reflexivity]. apply Props_Static.has_suffix_iff in X as (a & X).
        change (B"/index.html") with (B"/index.htm" ++ ["l"%char]) in X. rewrite app_assoc in X. apply app_inj_tail in X as [_ X]. discriminate X. }
      rewrite Sx, Ho, Hs, Hd. cbn [negb andb]. change (B"/") with ["/"%char] at 1 2. rewrite rev_app_distr. cbn [rev app]. rewrite Ascii.eqb_refl. cbn [negb].
      assert (Em : is_empty (d ++ ["/"%char]) = false) by (destruct d; reflexivity). rewrite Em. cbn [orb].
      assert (Q : open (trim_suffix name (B"/") ++ B"/index.html") = open index) by (f_equal; exact (index_name_is _ _ Hn)). rewrite Q, Hi, Gs', Gd. reflexivity. }
    destruct (unconditional_proceeds time_parse q p (fi_mod dd) Un) as [Pr Hr].
    assert (Pre : check_preconditions time_parse q (set_last_modified fmt_time (fi_mod dd) p) (fi_mod dd) = Some (set_last_modified fmt_time (fi_mod dd) p, false, [])).
    { apply (pre_go time_parse fmt_time mime_type boundary2 q p (fi_mod dd) [] Pr).
      destruct (off_dec time_parse q p (fi_mod dd)) as [O|O]; [right; auto|left; split; [exact Hr|exact O]]. }
    rewrite E. unfold serve_content. rewrite Pre. fold (hdr q (B"Content-Type")).
    set (p1 := set_last_modified fmt_time (fi_mod dd) p).
    assert (P1 : p_body p1 = p_body p) by apply slm_body.
    assert (P2 : rhdr p1 (B"Content-Encoding") = rhdr p (B"Content-Encoding")) by (apply slm_other; reflexivity).
    assert (Z0 : (0 <= fi_size dd)%Z) by (rewrite Gz; lia).
    assert (K : forall p2 ct, p_body p2 = p_body p -> rhdr p2 (B"Content-Encoding") = rhdr p (B"Content-Encoding") ->
      exists r, match (if (fi_size dd <? 0)%Z then Some (finish q p2 false 200 (fi_size dd) (c_data closed_content), SOk)
                       else match parse_range [] (fi_size dd) with
                            | inr e => Some (error_reply (match e with RNoOverlap => hset (B"Content-Range") (B"bytes */" ++ fmt_int (fi_size dd)) p2 | RInvalid => p2 end) (rerr_text e) 416, SRange e)
                            | inl rs => let rs := (if (fi_size dd <? sum_ranges rs)%Z then [] else rs) in match rs with
                                        | [] => Some (finish q p2 true 200 (fi_size dd) (c_data closed_content), SOk)
                                        | [ra] => if c_seek closed_content (r_start ra) then Some (finish q (hset (B"Content-Range") (content_range ra (fi_size dd)) p2) true 206 (r_len ra) (skipn (Z.to_nat (r_start ra)) (c_data closed_content)), SOk)
                                                  else Some (error_reply p2 (B"seek error") 416, SSeek)
                                        | _ => Some (finish q (hset (B"Content-Type") (B"multipart/byteranges; boundary=" ++ boundary2) p2) true 206 (ranges_mime_size boundary1 rs ct (fi_size dd)) (pipe_bytes boundary2 true rs ct (fi_size dd) closed_content), SOk)
                                        end
                            end) with None => None | Some (r, e) => Some (r, match e with SOk => FNil | _ => FServe e end, calls ++ calls2) end = Some (r, FNil, calls ++ calls2) /\
                p_status r = 200%Z /\ p_body r = p_body p /\ (rhdr p (B"Content-Encoding") = [] -> rhdr r (B"Content-Length") = fmt_int (Z.of_nat (length data)))).
    { intros p2 ct B2 C2. rewrite (proj2 (Z.ltb_ge (fi_size dd) 0)) by exact Z0. change (parse_range [] (fi_size dd)) with (@inl (list hrange) rerr []).
      cbv iota. change (sum_ranges []) with 0%Z. rewrite (proj2 (Z.ltb_ge (fi_size dd) 0)) by exact Z0.
      destruct (finish_facts q p2 200 (fi_size dd) (c_data closed_content)) as (F1 & F2 & F3 & F4 & F5). cbv zeta in *.
      eexists. split; [reflexivity|]. split; [exact F1|]. split.
      - rewrite F2. cbn [c_data closed_content]. rewrite firstn_nil, app_nil_r, B2. destruct (beq _ _); reflexivity.
      - intros Ce. rewrite <- Gz. apply F4. rewrite C2. exact Ce. }
    destruct (hdr q (B"Content-Type")) as [|c0 ct0] eqn:Ect.
    - cbn [is_empty]. destruct (mime_type (file_ext (fi_name dd))) as [|c1 ct1] eqn:Em.
      + cbn [is_empty closed_content c_data c_seek firstn]. change (detect_content_type []) with (Ok (B"text/plain; charset=utf-8")).
        cbn [is_empty]. eexists. cbv zeta. split; [intros [X|X]; exfalso; apply X; first [reflexivity|assumption]|]. intros _. split; [reflexivity|]. split; [reflexivity|].
        cbn [error_reply append_body set_status hset p_body]. rewrite P1. reflexivity.
      + cbn [is_empty]. destruct (K (hset (B"Content-Type") (c1 :: ct1) p1) (c1 :: ct1) P1 ltac:(rewrite rhdr_set; exact P2)) as (r & H).
        exists r. cbv zeta. split; [intros _; exact H|]. intros X. exfalso. apply X. right. discriminate.
    - cbn [is_empty]. destruct (K p1 (c0 :: ct0) P1 P2) as (r & H). exists r. cbv zeta. split; [intros _; exact H|]. intros X. exfalso. apply X. left. discriminate.
  Qed.
End Index.

Definition ix_html : gofile := GoFile (inl (FInfo (B"index.html") false 5000000000%Z 5%Z)) (Content (B"hello") (fun _ => true) true) (inl []).
Definition ix_open : fsystem := fun n => if beq n (B"/d") then (inl Props_Listing.ex_file, [COpen n])
  else if beq n (B"/d/index.html") then (inl ix_html, [COpen n]) else (inr err_not_exist, [COpen n]).
Definition ix_open2 : fsystem := fun n => if beq n (B"/d") || beq n (B"/d/index.html") then (inl Props_Listing.ex_file, [COpen n]) else (inr err_not_exist, [COpen n]).
Definition ix_q : sreq := SReq (B"GET") (B"/d/") [].
Example C156_example : index_name (B"/d") (B"/d/index.html") /\ regular ix_html (B"hello") /\ unconditional ix_q /\
  match serve_file (fun _ _ => None) (fun _ => B"date") (fun e => if beq e (B".html") then B"text/html" else []) [] [] (fun s => s) ix_q (B"/d/") (SResp 200%Z [] []) ix_open (B"/d") true false with
  | Some (r, e, _) => p_status r = 200%Z /\ p_body r = [] /\ aget (B"Content-Length") (p_hdr r) = Some (B"5") /\ e = FNil
  | None => False
  end.
Proof.
  split; [exists (B"/d"); split; [|reflexivity]; left; split; [reflexivity|]; intros x H; apply (f_equal (@rev ascii)) in H; change (B"/") with ["/"%char] in H; rewrite rev_app_distr in H; discriminate H|].
  split; [split; [reflexivity|]; split; [reflexivity|]; split; [reflexivity|]; split; [reflexivity|]; eexists; split; [reflexivity|]; split; reflexivity|].
  split; [split; [reflexivity|]; repeat constructor|]. vm_compute. auto.
Qed.
Example C156_directory_example :
  match serve_file (fun _ _ => None) (fun _ => B"date") (fun e => []) [] [] (fun s => s) ix_q (B"/d/") (SResp 200%Z [] []) ix_open2 (B"/d") true false with
  | Some (r, e, _) => p_status r = 500%Z /\ p_body r = B"Error reading directory"
  | None => False
  end.
Proof. vm_compute. auto. Qed.
Theorem C156_index_is_served_refuted : forall tp ft mt b1 b2 link, ~ C156_claim tp ft mt b1 b2 link.
Proof.
  intros tp ft mt b1 b2 link H. destruct C156_example as (X1 & X2 & X3 & _).
  destruct (H ix_q (B"/d") (SResp 200%Z [] []) ix_open (B"/d") (B"/d/index.html") Props_Listing.ex_file (FInfo (B"d") true 5000000000%Z 0%Z) [COpen (B"/d")] ix_html [COpen (B"/d/index.html")] (B"hello")
    X1 eq_refl eq_refl eq_refl eq_refl X2 X3) as (r & e & cs & E & Hb).
  destruct (C156_index_partial tp ft mt b1 b2 link ix_q (B"/d") (SResp 200%Z [] []) ix_open (B"/d") (B"/d/index.html") Props_Listing.ex_file (FInfo (B"d") true 5000000000%Z 0%Z) [COpen (B"/d")] ix_html _ [COpen (B"/d/index.html")] (B"hello")
    X1 eq_refl eq_refl eq_refl eq_refl X2 eq_refl X3) as (r' & H1 & H2).
  destruct (mt (file_ext (B"index.html"))) as [|c0 c] eqn:Em.
  - destruct H2 as (H2 & _ & H3). { intros [Y|Y]; [apply Y; reflexivity|]. apply Y. exact Em. }
    rewrite E in H2. injection H2 as -> _ _. cbn [p_body app] in Hb, H3. rewrite H3 in Hb. discriminate Hb.
  - destruct H1 as (H1 & _ & H3 & _). { right. cbn [fi_name]. rewrite Em. discriminate. }
    rewrite E in H1. injection H1 as -> _ _. cbn [p_body app] in Hb, H3. rewrite H3 in Hb. discriminate Hb.
Qed.
Print Assumptions C156_content_never_read.
Print Assumptions C156_index_directory.
Print Assumptions C156_index_partial.
Print Assumptions C156_index_is_served_refuted.
