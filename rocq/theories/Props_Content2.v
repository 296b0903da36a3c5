(** C83 (negative sizes), C87 (type by extension). *)
From Verif Require Import Base GoStrings GoInt M_Text M_Range M_Cond M_Sniff M_Content
  S_Cond S_Range S_Content P_Range P_Cond Props_Cond Props_Range Props_Sniff Props_Content.
Local Open Scope Z_scope.

(** the extension of a file name: the part of its last element from the last dot on *)
Definition extension (name e : bytes) : Prop :=
  (exists stem x, name = stem ++ "."%char :: x /\ e = "."%char :: x /\ ~ In "."%char x /\ ~ In "/"%char x) \/
  (e = [] /\ forall stem x, name = stem ++ "."%char :: x -> In "/"%char x).

Lemma ext_rev_ok : forall rest seen, ~ In "."%char seen -> ~ In "/"%char seen -> extension (rev rest ++ seen) (ext_rev seen rest).
Proof.
  induction rest as [|c rest IH]; intros seen N1 N2; cbn [ext_rev].
  - right. split; [reflexivity|]. cbn [rev app]. intros stem x E. exfalso. apply N1. rewrite E. apply in_or_app. right. left. reflexivity.
  - cbn [rev]. rewrite <- app_assoc. cbn [app]. destruct (Ascii.eqb_spec c "/") as [->|Ns].
    + right. split; [reflexivity|]. intros stem x E.
      destruct (le_lt_dec (length (rev rest)) (length stem)) as [L|L].
      * exfalso. apply N1.
        assert (E2 : skipn (length (rev rest)) (rev rest ++ "/"%char :: seen) = skipn (length (rev rest)) (stem ++ "."%char :: x)) by (rewrite E; reflexivity).
        rewrite skipn_app, Nat.sub_diag, skipn_all in E2. cbn [skipn app] in E2.
        rewrite skipn_app in E2. replace (length (rev rest) - length stem)%nat with 0%nat in E2 by lia. cbn [skipn] in E2.
        destruct (skipn (length (rev rest)) stem) as [|y l]; cbn [app] in E2; [discriminate|]. injection E2 as _ E2. rewrite E2.
        apply in_or_app. right. left. reflexivity.
      * assert (E2 : skipn (length stem) (rev rest ++ "/"%char :: seen) = skipn (length stem) (stem ++ "."%char :: x)) by (rewrite E; reflexivity).
        rewrite (skipn_app (length stem) stem), Nat.sub_diag, skipn_all in E2. cbn [skipn app] in E2.
        rewrite skipn_app in E2. replace (length stem - length (rev rest))%nat with 0%nat in E2 by lia. cbn [skipn] in E2.
        destruct (skipn (length stem) (rev rest)) as [|y l] eqn:Es; cbn [app] in E2; [discriminate|]. injection E2 as _ <-.
        apply in_or_app. right. left. reflexivity.
    + destruct (Ascii.eqb_spec c ".") as [->|Nd].
      * left. exists (rev rest), seen. repeat split; assumption.
      * apply IH; intros [X|X]; congruence || contradiction.
Qed.
Lemma file_ext_ok name : extension name (file_ext name).
Proof.
  unfold file_ext. pose proof (ext_rev_ok (rev name) [] (fun H => H) (fun H => H)) as H. rewrite rev_involutive, app_nil_r in H. exact H.
Qed.
Lemma two_dots : forall (s1 s2 x1 x2 : bytes), s1 ++ "."%char :: x1 = s2 ++ "."%char :: x2 ->
  ~ In "."%char x1 -> ~ In "."%char x2 -> x1 = x2.
Proof.
  induction s1 as [|c s1 IH]; intros [|d s2] x1 x2 E H1 H2; cbn [app] in E.
  - congruence.
  - injection E as _ ->. exfalso. apply H1, in_or_app. right. left. reflexivity.
  - injection E as _ E. exfalso. apply H2. rewrite <- E. apply in_or_app. right. left. reflexivity.
  - injection E as _ E. eapply IH; eassumption.
Qed.
Theorem C87_extension_unique : forall name e e', extension name e -> extension name e' -> e = e'.
Proof.
  intros name e e' [(s & x & E & -> & N1 & N2)|[-> H]] [(s' & x' & E' & -> & N1' & N2')|[-> H']].
  - f_equal. rewrite E in E'. eapply two_dots; eassumption.
  - exfalso. apply N2. eapply H'. exact E.
  - exfalso. apply N2'. eapply H. exact E'.
  - reflexivity.
Qed.

Section Types.
  Variable time_parse : bytes -> bytes -> option gtime.
  Variable fmt_time : gtime -> bytes.
  Variable mime_type : bytes -> bytes.
  Variables b1 b2 : bytes.
  Notation serve := (serve_content time_parse fmt_time mime_type b1 b2).

  Lemma finish_ct q p rg code n src : rhdr (finish q p rg code n src) (B"Content-Type") = rhdr p (B"Content-Type").
  Proof.
    unfold finish. repeat match goal with |- context [if ?b then _ else _] => destruct b end;
      rewrite ?rhdr_body, ?rhdr_status, ?rhdr_set; reflexivity.
  Qed.
  Lemma pre_done q p m p1 done rr : check_preconditions time_parse q (set_last_modified fmt_time m p) m = Some (p1, done, rr) ->
    (done = true -> p_status p1 = 304 \/ p_status p1 = 412) /\ (done = false -> p1 = set_last_modified fmt_time m p).
  Proof.
    intros Pre. unfold check_preconditions in Pre.
    repeat match type of Pre with
    | None = Some _ => discriminate
    | Some (_, _, _) = Some _ => injection Pre as <- <- _; split; intros; try discriminate; try reflexivity; auto
    | context [match ?x with _ => _ end] => destruct x
    end.
  Qed.
  (** ** C87: without a Content-Type in the request, a complete answer carries the type
      registered for the name's extension, or, if there is none, the sniffed one *)
  Theorem C87_type_by_extension : forall q p name m size c r e,
    serve q p name m size c = Some (r, SOk) -> p_status r = 200 -> hdr q (B"Content-Type") = [] ->
    extension name e ->
    (mime_type e <> [] -> rhdr r (B"Content-Type") = mime_type e) /\
    (mime_type e = [] -> exists ct, detect_content_type (c_data c) = Ok ct /\ rhdr r (B"Content-Type") = ct).
  Proof.
    intros q p name m size c r e H St Hq He.
    assert (Ee : file_ext name = e) by (eapply C87_extension_unique; [apply file_ext_ok|exact He]).
    unfold serve_content in H.
    destruct (check_preconditions _ _ _ _) as [[[p1 done] rr]|] eqn:Pre; [|discriminate].
    destruct (pre_done _ _ _ _ _ _ Pre) as [D1 D2]. destruct done.
    { injection H as <-. destruct (D1 eq_refl) as [X|X]; rewrite X in St; discriminate. }
    rewrite (D2 eq_refl) in H. clear p1 Pre D1 D2. set (p1 := set_last_modified fmt_time m p) in H.
    fold (hdr q (B"Content-Type")) in H. rewrite Hq in H. cbn [is_empty] in H. rewrite Ee in H.
    (* the rest keeps the type that was set *)
    assert (K : forall ct, (match size with
            | None => Some (error_reply (hset (B"Content-Type") ct p1) (B"seeker can't seek") 500, SSeek)
            | Some size =>
                if size <? 0 then Some (finish q (hset (B"Content-Type") ct p1) false 200 size (c_data c), SOk)
                else match parse_range rr size with
                     | inr e =>
                         let p := match e with
                                  | RNoOverlap => hset (B"Content-Range") (B"bytes */" ++ fmt_int size) (hset (B"Content-Type") ct p1)
                                  | RInvalid => (hset (B"Content-Type") ct p1)
                                  end in
                         Some (error_reply p (rerr_text e) 416, SRange e)
                     | inl rs =>
                         let rs := if size <? sum_ranges rs then [] else rs in
                         match rs with
                         | [] => Some (finish q (hset (B"Content-Type") ct p1) true 200 size (c_data c), SOk)
                         | [ra] =>
                             if c_seek c (r_start ra) then
                               Some (finish q (hset (B"Content-Range") (content_range ra size) (hset (B"Content-Type") ct p1))
                                            true 206 (r_len ra) (skipn (Z.to_nat (r_start ra)) (c_data c)), SOk)
                             else Some (error_reply (hset (B"Content-Type") ct p1) (B"seek error") 416, SSeek)
                         | _ =>
                             let send_size := ranges_mime_size b1 rs ct size in
                             let p := hset (B"Content-Type") (B"multipart/byteranges; boundary=" ++ b2) (hset (B"Content-Type") ct p1) in
                             Some (finish q p true 206 send_size (pipe_bytes b2 true rs ct size c), SOk)
                         end
                     end
            end) = Some (r, SOk) -> rhdr r (B"Content-Type") = ct).
    { intros ct X. cbv zeta in X. destruct size as [size|]; [|discriminate].
      destruct (size <? 0); [injection X as <-; rewrite finish_ct, rhdr_set, beq_refl; reflexivity|].
      destruct (parse_range rr size) as [rs|]; [|discriminate].
      assert (F6 : forall q p rg n src, p_status (finish q p rg 206 n src) = 200 -> False).
      { intros q0 p0 rg n src. unfold finish. cbn.
        repeat match goal with |- context [if ?b then _ else _] => destruct b end; cbn; discriminate. }
      destruct (if size <? sum_ranges rs then [] else rs) as [|ra [|rb rs']].
      - injection X as <-. rewrite finish_ct, rhdr_set, beq_refl. reflexivity.
      - destruct (c_seek c (r_start ra)); [|discriminate]. injection X as <-. exfalso. exact (F6 _ _ _ _ _ St).
      - injection X as <-. exfalso. exact (F6 _ _ _ _ _ St). }
    destruct (is_empty (mime_type e)) eqn:Em.
    - split; [intros N; apply is_empty_false in N; congruence|]. intros _.
      destruct (C57_total (firstn 512 (c_data c))) as (ct & Ect & _). rewrite Ect in H.
      exists ct. split.
      { rewrite <- Ect. apply C57_first_512. rewrite firstn_firstn. reflexivity. }
      destruct (c_seek c 0); [|discriminate]. apply K. exact H.
    - split; [intros _; apply K; exact H|]. intros X. rewrite X in Em. discriminate.
  Qed.
  (** ** C83: a negative size (an unknown length): an empty answer that announces no length *)
  Theorem C83_negative_size : forall q p name m size c,
    proceeds time_parse q p m -> seekable c -> size < 0 ->
    exists r, serve q p name m (Some size) c = Some (r, SOk) /\ p_status r = 200 /\ p_body r = p_body p /\
      rhdr r (B"Content-Length") = rhdr p (B"Content-Length") /\
      rhdr r (B"Accept-Ranges") = rhdr p (B"Accept-Ranges").
  Proof.
    intros q p name m size c G [Sk Se] Hs.
    assert (D : exists v, (range_asked time_parse q p m v \/ range_off time_parse q p m /\ v = [])).
    { pose proof (ir_iff time_parse q p m) as I. destruct (is_cfalse (check_if_range time_parse q p m)).
      - exists []. right. split; [apply I; reflexivity|reflexivity].
      - exists (hdr q (B"Range")). left. split; [reflexivity|]. intros X. apply I in X. discriminate. }
    destruct D as (v & Hv). unfold serve_content. rewrite (pre_go time_parse fmt_time mime_type b1 q p m v G Hv).
    destruct (C57_total (firstn 512 (c_data c))) as (ct & Ect & _). rewrite Ect, Sk.
    apply Z.ltb_lt in Hs as Hb.
    assert (Fin : forall p1 n, (n < 0 -> p_body (finish q p1 false 200 n (c_data c)) = p_body p1) /\
       p_status (finish q p1 false 200 n (c_data c)) = 200 /\
       rhdr (finish q p1 false 200 n (c_data c)) (B"Content-Length") = rhdr p1 (B"Content-Length") /\
       rhdr (finish q p1 false 200 n (c_data c)) (B"Accept-Ranges") = rhdr p1 (B"Accept-Ranges")).
    { intros p1 n. unfold finish. destruct (beq (q_method q) (B"HEAD")); cbn [p_status set_status append_body p_body];
        rewrite ?rhdr_body, ?rhdr_status; repeat split; auto.
      intros Hn. replace (Z.to_nat n) with 0%nat by lia. cbn [firstn]. apply app_nil_r. }
    assert (Done : forall p1, p_body p1 = p_body p -> rhdr p1 (B"Content-Length") = rhdr p (B"Content-Length") ->
       rhdr p1 (B"Accept-Ranges") = rhdr p (B"Accept-Ranges") ->
       exists r, Some (finish q p1 false 200 size (c_data c), SOk) = Some (r, SOk) /\ p_status r = 200 /\ p_body r = p_body p /\
         rhdr r (B"Content-Length") = rhdr p (B"Content-Length") /\ rhdr r (B"Accept-Ranges") = rhdr p (B"Accept-Ranges")).
    { intros p1 H1 H2 H3. destruct (Fin p1 size) as (F1 & F2 & F3 & F4). eexists. split; [reflexivity|].
      rewrite F2, (F1 Hs), F3, F4. auto. }
    destruct (is_empty (hpeek (q_hdr q) (B"Content-Type"))); [destruct (is_empty (mime_type (file_ext name)))|];
      rewrite Hb; apply Done; rewrite ?rhdr_set; cbn [hset p_body];
      rewrite ?slm_body, ?(slm_other fmt_time m p) by reflexivity; reflexivity.
  Qed.
End Types.
Example C87_example :
  extension (B"/a.b/c.tar.gz") (B".gz") /\ extension (B"/a.b/c") [] /\
  match serve_content_seek (fun _ _ => None) (fun _ => []) (fun e => if beq e (B".css") then B"text/css" else []) [] []
      (SReq (B"GET") (B"/f") []) (SResp 200 [] []) (B"x.css") zero_time (Content (B"<html>") (fun _ => true) true) with
  | Some (r, SOk) => p_status r = 200 /\ rhdr r (B"Content-Type") = B"text/css" | _ => False end.
Proof.
  split; [|split; [|vm_compute; auto]].
  - left. exists (B"/a.b/c.tar"), (B"gz"). repeat split; try reflexivity; cbn; intuition discriminate.
  - exact (file_ext_ok (B"/a.b/c")).
Qed.
Example C83_negative_example : forall tp, proceeds tp (ex_q []) ex_p 5 /\ seekable ex_c.
Proof. intros tp. split; [apply ex_proceeds|apply ex_seekable]. Qed.
Print Assumptions C87_extension_unique.
Print Assumptions C87_type_by_extension.
Print Assumptions C83_negative_size.
