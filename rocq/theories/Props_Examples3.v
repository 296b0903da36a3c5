(** C171: the video example. *)
From Verif Require Import Base GoStrings GoPath GoInt M_Range P_Range S_Range M_Tree M_RegTree S_Route P_RegTree Props_Tree Props_RegTree
  M_Cond S_Cond M_Sniff M_Content S_Content S_Static P_GoPath M_Static M_Mount S_Mount P_Mount M_Examples S_Examples2 Props_Cond Props_Sniff Props_Static Props_Static2 Props_Content Props_Content2.
From Verif Require Props_Paths Props_Mount Props_Examples2.
Import Props_Examples2.

Lemma below_html_file path : below (B"/html") path -> segments path <> [B"file"].
Proof.
  intros [rest ->] E.
  destruct (first_char "h" (B"tml" ++ "/"%char :: rest) (segments (B"/html" ++ "/"%char :: rest))) as [v P].
  - apply Props_Paths.C07_segments_exactly. reflexivity.
  - discriminate.
  - intros (r & t & Hr & X). inversion Hr; subst; cbn in *; try discriminate; injection X as <- _; discriminate.
  - rewrite E in P. destruct P as [[X _]|(_ & _ & _ & Ej)]; [discriminate|discriminate Ej].
Qed.
Theorem C171_routes : forall (U : Type) other dir_fs fresh_set (pages pages2 : U) order, any_order order ->
  exists sv, setup other dir_fs fresh_set new_srv (example_video pages pages2) = Ok sv /\ forall m path old,
    (forall u h, chooses_video pages fresh_set (dir_fs (B"data")) pages2 m path u h -> srv_find order sv m path old = (TFound (u, h), [])) /\
    ((forall u h, ~ chooses_video pages fresh_set (dir_fs (B"data")) pages2 m path u h) -> srv_find order sv m path old = (TNotFound, [])).
Proof.
  intros U other dir_fs fresh_set pages pages2 order Ho.
  assert (Hs : exists sv, setup other dir_fs fresh_set new_srv (example_video pages pages2) = Ok sv) by (eexists; reflexivity).
  destruct Hs as [sv Hs]. exists sv. split; [exact Hs|]. intros m path old.
  assert (Hw : Forall proper (example_video pages pages2)) by (repeat constructor).
  set (o1 := OAdd MethodGetPost (B"/") m_main (Some pages)). set (o2 := OAdd MethodGetPost (B"/file") m_file (Some pages2)).
  set (o3 := OStaticFile (U := U) (B"data") (B"/html") []).
  assert (E : example_video pages pages2 = [o1; o2] ++ o3 :: []) by reflexivity.
  assert (C1 : claims other o1 m path <-> In m [B"GET"; B"POST"] /\ segments path = []) by (apply claims_add; reflexivity).
  assert (C2 : claims other o2 m path <-> In m [B"GET"; B"POST"] /\ segments path = [B"file"]) by (apply claims_add; reflexivity).
  split.
  - intros u h H. destruct H as [m path M Sg|m path M Sg|m path M Bl].
    1-2: apply (by_tree other dir_fs fresh_set order _ _ _ _ _ _ _ Hs Hw); rewrite Sg; apply in_getpost in M as [->| ->]; reflexivity.
    destruct (below_html path Bl) as (N1 & _ & _). pose proof (below_html_file path Bl) as N2.
    rewrite E in Hs, Hw. apply (Props_Mount.C99_mount_partial other dir_fs fresh_set order _ _ o3 (B"/html") sv m path old _ Ho Hs Hw eq_refl plain_html eq_refl); [|split; assumption].
    intros o' [<-|[<-|[]]] C; [apply C1 in C as [_ C]|apply C2 in C as [_ C]]; auto.
  - intros N.
    assert (No : forall o', In o' ([o1; o2] ++ []) -> ~ claims other o' m path).
    { intros o' [<-|[<-|[]]] C; [apply C1 in C as [M C]|apply C2 in C as [M C]].
      - exact (N _ _ (V_main _ _ _ _ _ _ M C)).
      - exact (N _ _ (V_file _ _ _ _ _ _ M C)). }
    rewrite E in Hs, Hw. apply (Props_Mount.C99_mount_partial other dir_fs fresh_set order _ _ o3 (B"/html") sv m path old _ Ho Hs Hw eq_refl plain_html eq_refl No).
    intros [M Bl]. exact (N _ _ (V_html _ _ _ _ _ _ M Bl)).
Qed.

(** ** What /file sends *)
Section Run.
  Variable time_parse : bytes -> bytes -> option gtime.
  Variable fmt_time : gtime -> bytes.
  Variable mime_type : bytes -> bytes.
  Variables b1 b2 : bytes.
  Notation run := (video_run time_parse fmt_time mime_type b1 b2).
  Lemma video_extension : extension video_name [].
  Proof.
    right. split; [reflexivity|]. intros s x E. exfalso.
    assert (I : In "."%char video_name) by (rewrite E; apply in_elt).
    revert I. vm_compute. intuition discriminate.
  Qed.
  (** other headers are kept in whole answers *)
  Lemma kept_header q p now name c r k : unconditional q -> seekable c -> (size_of c < two63)%Z ->
    serve_content time_parse fmt_time mime_type b1 b2 q p name now (Some (size_of c)) c = Some (r, SOk) ->
    ~ In k [B"Content-Type"; B"Last-Modified"; B"Accept-Ranges"; B"Content-Length"] -> rhdr r k = rhdr p k.
  Proof.
    intros Un Sk Sz E Nk. destruct (unconditional_proceeds time_parse q p now Un) as [Pr Rg].
    assert (D : range_off time_parse q p now \/ ~ range_off time_parse q p now).
    { pose proof (ir_iff time_parse q p now) as I. destruct (is_cfalse (check_if_range time_parse q p now));
        [left; apply I; reflexivity|right; intros X; apply I in X; discriminate]. }
    destruct (serve_go time_parse fmt_time mime_type b1 b2 q p name now c [] Pr) as (p1 & ct & (_ & S2 & _) & _ & G); [|exact Sk|].
    { destruct D as [D|D]; [right; auto|left; split; assumption]. }
    assert (Hs0 : (0 <= size_of c)%Z) by (unfold size_of; lia). rewrite (G _ Hs0) in E. cbn [parse_range] in E.
    change (parse_range [] (size_of c)) with (@inl (list (hrange)) rerr []) in E. cbv iota beta in E.
    assert (X : (if (size_of c <? sum_ranges [])%Z then [] else @nil hrange) = []) by (destruct (_ <? _)%Z; reflexivity).
    rewrite X in E. injection E as <-. destruct (finish_facts q p1 200 (size_of c) (c_data c)) as (_ & _ & _ & _ & F5). cbv zeta in F5.
    cbn [In] in Nk. rewrite F5 by (intros ->; apply Nk; tauto). apply S2; intros ->; apply Nk; tauto.
  Qed.
  (** Proved: the whole file, with the Cache-Control the handler set, but with the type that the content looks like.  Missing (false): video/mp4. *)
  Theorem C171_video_partial : forall q p now c,
    unconditional q -> hdr q (B"Content-Type") = [] -> seekable c -> (size_of c < two63)%Z -> mime_type [] = [] ->
    exists r ct, run q p now (Some c) = Some (r, true) /\ p_status r = 200%Z /\ p_body r = p_body p ++ c_data c /\
      detect_content_type (c_data c) = Ok ct /\ rhdr r (B"Content-Type") = ct /\
      rhdr r (B"Cache-Control") = B"private, max-age=21299".
  Proof.
    intros q p now c Un Ct Sk Sz Mt. unfold video_run.
    set (p1 := hset (B"Content-Type") (B"video/mp4") (hset (B"Cache-Control") (B"private, max-age=21299") p)).
    destruct (unconditional_proceeds time_parse q p1 now Un) as [Pr Rg].
    assert (Nh : q_method q <> B"HEAD") by (destruct Un as [-> _]; discriminate).
    destruct (C51_whole_content time_parse fmt_time mime_type b1 b2 q p1 video_name now c Pr Sk Sz Nh (or_introl Rg)) as (r & E & St & Bd & _).
    pose proof (kept_header q p1 now video_name c r (B"Cache-Control") Un Sk Sz E ltac:(vm_compute; intuition discriminate)) as Kc.
    pose proof E as E'. unfold serve_content_seek. destruct Sk as [S1 S2]. rewrite S2, S1. cbn [andb]. fold (size_of c). rewrite E'. cbv iota beta.
    destruct (C87_type_by_extension time_parse fmt_time mime_type b1 b2 q p1 video_name now (Some (size_of c)) c r [] E St Ct video_extension) as [_ T].
    destruct (T Mt) as (ct & D & H). exists r, ct. repeat split; assumption.
  Qed.
  (** a file that cannot be opened: the error is returned, nothing is sent *)
  Theorem C171_missing_file : forall q p now, exists r, run q p now None = Some (r, false) /\ p_status r = p_status p /\ p_body r = p_body p.
  Proof. intros. eexists. split; [reflexivity|]. split; reflexivity. Qed.
End Run.
(** the property as one would state it *)
Definition C171_claim : Prop := forall time_parse fmt_time mime_type b1 b2 q p now c r,
  unconditional q -> hdr q (B"Content-Type") = [] -> seekable c -> (size_of c < two63)%Z -> mime_type [] = [] ->
  video_run time_parse fmt_time mime_type b1 b2 q p now (Some c) = Some (r, true) -> rhdr r (B"Content-Type") = B"video/mp4".
Definition v_req : sreq := SReq (B"GET") (B"/file") [].
Definition v_content (d : bytes) : content := Content d (fun _ => true) true.
Lemma v_unconditional : unconditional v_req.
Proof. split; [reflexivity|]. repeat constructor. Qed.
Lemma v_seekable d : seekable (v_content d).
Proof. split; reflexivity. Qed.
Theorem C171_video_refuted : ~ C171_claim.
Proof.
  intros H.
  specialize (H (fun _ _ => None) (fun _ => []) (fun _ => []) [] [] v_req (SResp 200 [] []) 1%Z (v_content (map ch [26; 69; 223; 163]%N))).
  cbv beta in H. specialize (H _ v_unconditional eq_refl (v_seekable _) eq_refl eq_refl ltac:(vm_compute; reflexivity)).
  vm_compute in H. discriminate.
Qed.
(** Not vacuous. *)
Example C171_case :
  unconditional v_req /\ hdr v_req (B"Content-Type") = [] /\ seekable (v_content (B"x")) /\
  chooses_video 1 (fun _ => 0) (Props_Mount.y_dir (B"data")) 2 (B"POST") (B"/file/") 2 (HUser m_file) /\
  (forall u h, ~ chooses_video 1 (fun _ => 0) (Props_Mount.y_dir (B"data")) 2 (B"HEAD") (B"/file") u h).
Proof.
  split; [split; [reflexivity|repeat constructor]|]. split; [reflexivity|]. split; [split; reflexivity|].
  split; [constructor; [cbn; auto|reflexivity]|].
  intros u h H. inversion H as [? ? M E|? ? M E|? ? ? E]; subst; try (vm_compute in E; discriminate E); [cbn in M; intuition discriminate|destruct E as [r E]; discriminate E].
Qed.
Print Assumptions C171_routes.
Print Assumptions C171_video_partial.
Print Assumptions C171_missing_file.
Print Assumptions C171_video_refuted.
