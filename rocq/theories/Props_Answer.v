(** C139: the complete response of ServeContent: status, body, every header field, for every
    request, response so far, name, modification time and seekable content. *)
From Verif Require Import Base GoStrings GoInt M_Text M_Range S_Range P_Range M_Cond S_Cond P_Cond
  M_Sniff M_Content S_Content Props_Range Props_Cond Props_Sniff Props_Content S_Answer.
From Verif Require S_Sniff Props_Sniff2.
From Coq Require Import ZifyNat ZifyN.
Local Open Scope Z_scope.

(** filepath.Ext *)
Lemma file_ext_ok name : extension name (file_ext name).
Proof.
  unfold file_ext.
  assert (G : forall rest seen, ~ In "/"%char seen -> ~ In "."%char seen ->
    exists dir base, rev rest ++ seen = dir ++ base /\ (dir = [] \/ exists d, dir = d ++ B"/") /\ ~ In "/"%char base /\
    ((~ In "."%char base /\ ext_rev seen rest = []) \/
     exists x y, base = x ++ "."%char :: y /\ ~ In "."%char y /\ ext_rev seen rest = "."%char :: y)).
  { (* once the dot is met, the rest only decides where the element starts *)
    assert (Cut : forall r tail, ~ In "/"%char tail -> exists dir base, rev r ++ tail = dir ++ base ++ tail /\
        (dir = [] \/ exists d, dir = d ++ B"/") /\ ~ In "/"%char (base ++ tail)).
    { induction r as [|c r IH]; intros tail Nt; [exists [], []; auto|]. cbn [rev].
      destruct (Ascii.eqb_spec c "/"%char) as [->|Nc].
      - exists (rev r ++ B"/"), []. split; [reflexivity|]. split; [right; eexists; reflexivity|exact Nt].
      - destruct (IH (c :: tail)) as (d & b & E & Hd & Nb). { intros [X|X]; congruence. }
        exists d, (b ++ [c]). split; [rewrite <- !app_assoc; exact E|]. split; [exact Hd|].
        rewrite <- app_assoc. exact Nb. }
    induction rest as [|c rest IH]; intros seen Ns Nd; cbn [ext_rev rev].
    - exists [], seen. split; [reflexivity|]. split; [left; reflexivity|]. split; [exact Ns|]. left. auto.
    - destruct (Ascii.eqb_spec c "/"%char) as [->|Nc].
      + exists (rev rest ++ B"/"), seen. split; [reflexivity|]. split; [right; eexists; reflexivity|]. split; [exact Ns|]. left. auto.
      + destruct (Ascii.eqb_spec c "."%char) as [->|Ndot].
        * destruct (Cut rest ("."%char :: seen)) as (d & b & E & Hd & Nb). { intros [X|X]; [discriminate X|contradiction]. }
          exists d, (b ++ "."%char :: seen). split; [rewrite <- app_assoc; exact E|]. split; [exact Hd|]. split; [exact Nb|].
          right. exists b, seen. auto.
        * destruct (IH (c :: seen)) as (d & b & E & H). { intros [X|X]; congruence. } { intros [X|X]; congruence. }
          exists d, b. split; [rewrite <- app_assoc; exact E|exact H]. }
  destruct (G (rev name) [] ltac:(intros []) ltac:(intros [])) as (d & b & E & H).
  rewrite rev_involutive, app_nil_r in E. exists d, b. split; [exact E|exact H].
Qed.
Lemma last_cut (c : ascii) : forall x y x' y' : bytes, ~ In c y -> ~ In c y' -> x ++ c :: y = x' ++ c :: y' -> x = x' /\ y = y'.
Proof.
  induction x as [|a x IH]; intros y [|a' x'] y' N N' E; cbn [app] in E.
  - injection E as ->. auto.
  - injection E as <- E. exfalso. apply N. rewrite E. apply in_or_app. right. left. reflexivity.
  - injection E as -> E. exfalso. apply N'. rewrite <- E. apply in_or_app. right. left. reflexivity.
  - injection E as -> E. destruct (IH _ _ _ N N' E) as [-> ->]. auto.
Qed.
Lemma extension_unique name x y : extension name x -> extension name y -> x = y.
Proof.
  intros (d & b & -> & Hd & Nb & H) (d' & b' & E & Hd' & Nb' & H').
  assert (b = b') as <-.
  { destruct Hd as [->|(e & ->)], Hd' as [->|(e' & ->)]; cbn [app] in E.
    - exact E.
    - exfalso. apply Nb. rewrite E, <- app_assoc. apply in_or_app. right. left. reflexivity.
    - exfalso. apply Nb'. rewrite <- E, <- app_assoc. apply in_or_app. right. left. reflexivity.
    - rewrite <- !app_assoc in E. cbn [app] in E. exact (proj2 (last_cut _ _ _ _ _ Nb Nb' E)). }
  destruct H as [[N ->]|(u & v & -> & Nv & ->)], H' as [[N' ->]|(u' & v' & E' & Nv' & ->)].
  - reflexivity.
  - exfalso. apply N. rewrite E'. apply in_or_app. right. left. reflexivity.
  - exfalso. apply N'. apply in_or_app. right. left. reflexivity.
  - destruct (last_cut _ _ _ _ _ Nv Nv' E') as [_ ->]. reflexivity.
Qed.

Lemma content_type_iff mime_type q name c ct :
  content_type mime_type (hdr q (B"Content-Type")) name (c_data c) ct <-> chosen_type mime_type q name c ct.
Proof.
  unfold chosen_type. pose proof (file_ext_ok name) as X.
  destruct (Props_Sniff2.C86_sniff_table (c_data c)) as (s & Ds & Ss). split.
  - intros [N|e E0 Ex N|e s' E0 Ex N Sn].
    + left. auto.
    + right. left. rewrite (extension_unique _ _ _ Ex X) in *. auto.
    + right. right. rewrite (extension_unique _ _ _ Ex X) in *. rewrite Ds, (Props_Sniff2.C86_unique _ _ _ _ Sn Ss). auto.
  - intros [[N ->]|[(E0 & N & ->)|(E0 & N & E)]].
    + apply CT_asked. exact N.
    + apply (CT_extension _ _ _ _ (file_ext name)); assumption.
    + apply (CT_sniffed _ _ _ _ (file_ext name)); try assumption. rewrite Ds in E. injection E as <-. exact Ss.
Qed.

Ltac lits := repeat match goal with
  | |- context [length (B ?s)] => let v := eval vm_compute in (length (B s)) in change (length (B s)) with v
  | |- context [length eol] => change (length eol) with 2%nat end.
Section Answer.
  Variable time_parse : bytes -> bytes -> option gtime.
  Variable fmt_time : gtime -> bytes.
  Variable mime_type : bytes -> bytes.
  Variables b1 b2 : bytes.
  Variable q : sreq.
  Variable p : sresp.
  Variable name : bytes.
  Variable m : gtime.
  Variable c : content.

  Notation fails412 := (step1_fails q p \/ step2_fails time_parse q m \/ (step3_fails q p /\ ~ is_get_head q)).
  (** the request's Range header counts, and lists (loosely spelled) the specs [l] *)
  Definition ranges_asked (l : list rspec) : Prop :=
    exists os t, range_asked time_parse q p m (B"bytes=" ++ t) /\ loose_list (size_of c) os t /\ l = specs os.
  (** ... or the whole content is to be sent *)
  Definition whole : Prop :=
    hdr q (B"Range") = [] \/ range_off time_parse q p m \/
    exists l, ranges_asked l /\ (l = [] \/ size_of c < total (selected (size_of c) l)).
  (** ... or it is not such a list *)
  Definition garbled : Prop :=
    exists v, range_asked time_parse q p m v /\ v <> [] /\
      forall os t, v = B"bytes=" ++ t -> ~ loose_list (size_of c) os t.
  (** the content type goes into the response unless the request has one (C58) *)
  Definition typed (ct : bytes) (h : headers) : headers :=
    match hdr q (B"Content-Type") with [] => put (B"Content-Type") ct h | _ => h end.
  (** HEAD: no content *)
  Definition sent (body : bytes) : bytes := if beq (q_method q) (B"HEAD") then [] else body.

  Inductive answer : Z -> bytes -> headers -> Prop :=
  | A_failed h : fails412 -> dated fmt_time m (rhdr p) h -> answer 412 [] h
  | A_not_modified h : ~ fails412 -> (step3_fails q p \/ step4_fails time_parse q m) ->
      dated fmt_time m (rhdr p) h -> answer 304 [] (bare h)
  | A_whole h ct : proceeds time_parse q p m -> dated fmt_time m (rhdr p) h ->
      content_type mime_type (hdr q (B"Content-Type")) name (c_data c) ct ->
      whole -> answer 200 (sent (c_data c)) (sized (size_of c) (typed ct h))
  | A_single h ct l a n part : proceeds time_parse q p m -> dated fmt_time m (rhdr p) h ->
      content_type mime_type (hdr q (B"Content-Type")) name (c_data c) ct ->
      ranges_asked l -> selected (size_of c) l = [(a, n)] -> bytes_at (c_data c) a n part ->
      answer 206 (sent part) (sized n (put (B"Content-Range") (content_range_value a n (size_of c)) (typed ct h)))
  | A_multi h ct l body : proceeds time_parse q p m -> dated fmt_time m (rhdr p) h ->
      content_type mime_type (hdr q (B"Content-Type")) name (c_data c) ct ->
      ranges_asked l -> (2 <= length (selected (size_of c) l))%nat ->
      total (selected (size_of c) l) <= size_of c ->
      multipart b2 ct (c_data c) (size_of c) (selected (size_of c) l) body ->
      answer 206 (sent body) (sized (Z.of_nat (length body))
        (put (B"Content-Type") (B"multipart/byteranges; boundary=" ++ b2) h))
  | A_no_overlap h l : proceeds time_parse q p m -> dated fmt_time m (rhdr p) h ->
      ranges_asked l -> l <> [] -> selected (size_of c) l = [] ->
      answer 416 (B"invalid range: failed to overlap")
        (refused (put (B"Content-Range") (B"bytes */" ++ fmt_int (size_of c)) h))
  | A_garbled h : proceeds time_parse q p m -> dated fmt_time m (rhdr p) h ->
      garbled -> answer 416 (B"invalid range") (refused h).

  (** sizes stay below 2^63 *)
  Definition moderate : Prop :=
    size_of c < two63 /\
    forall l, ranges_asked l -> total (selected (size_of c) l) < two63 /\
      forall ct body, content_type mime_type (hdr q (B"Content-Type")) name (c_data c) ct ->
        multipart b2 ct (c_data c) (size_of c) (selected (size_of c) l) body -> Z.of_nat (length body) < two63.

  Notation serve := (serve_content time_parse fmt_time mime_type b1 b2).
  Notation slm := (set_last_modified fmt_time m p).
  Definition typed_resp (ct : bytes) : sresp := if is_empty (hdr q (B"Content-Type")) then hset (B"Content-Type") ct slm else slm.
  Lemma serve_exact v ct size : proceeds time_parse q p m ->
    (range_asked time_parse q p m v \/ range_off time_parse q p m /\ v = []) -> seekable c -> chosen_type mime_type q name c ct -> 0 <= size ->
    serve q p name m (Some size) c =
         match parse_range v size with
         | inr e => Some (error_reply (match e with
                                  | RNoOverlap => hset (B"Content-Range") (B"bytes */" ++ fmt_int size) (typed_resp ct)
                                  | RInvalid => typed_resp ct
                                  end) (rerr_text e) 416, SRange e)
         | inl rs => match (if size <? sum_ranges rs then [] else rs) with
                         | [] => Some (finish q (typed_resp ct) true 200 size (c_data c), SOk)
                         | [ra] => Some (finish q (hset (B"Content-Range") (content_range ra size) (typed_resp ct))
                                            true 206 (r_len ra) (skipn (Z.to_nat (r_start ra)) (c_data c)), SOk)
                         | rs =>
                             Some (finish q (hset (B"Content-Type") (B"multipart/byteranges; boundary=" ++ b2) (typed_resp ct))
                                     true 206 (ranges_mime_size b1 rs ct size) (pipe_bytes b2 true rs ct size c), SOk)
                         end
         end.
  Proof.
    intros G R [Sk Se] Ct Hs. unfold serve_content. rewrite (pre_go time_parse fmt_time mime_type b2 q p m v G R).
    fold (hdr q (B"Content-Type")). unfold typed_resp, chosen_type in *.
    assert (Sniff : detect_content_type (firstn 512 (c_data c)) = detect_content_type (c_data c)).
    { apply C57_first_512. rewrite firstn_firstn. reflexivity. }
    destruct (is_empty (hdr q (B"Content-Type"))) eqn:E.
    - apply is_empty_true in E. destruct Ct as [[N _]|[(_ & N & ->)|(_ & N & D)]]; [contradiction| |].
      + rewrite (nonempty_is _ N). cbv iota. rewrite (proj2 (Z.ltb_ge size 0)) by lia.
        destruct (parse_range v size) as [rs|]; [|reflexivity]. destruct (size <? sum_ranges rs); [reflexivity|].
        destruct rs as [|ra [|rb rs]]; [reflexivity|rewrite Sk; reflexivity|reflexivity].
      + rewrite N. cbn [is_empty]. rewrite Sniff, D, Sk. rewrite (proj2 (Z.ltb_ge size 0)) by lia.
        destruct (parse_range v size) as [rs|]; [|reflexivity]. destruct (size <? sum_ranges rs); [reflexivity|].
        destruct rs as [|ra [|rb rs]]; [reflexivity|rewrite Sk; reflexivity|reflexivity].
    - apply is_empty_false in E. destruct Ct as [[_ ->]|[(N & _)|(N & _)]]; [|contradiction|contradiction].
      rewrite (proj2 (Z.ltb_ge size 0)) by lia.
      destruct (parse_range v size) as [rs|]; [|reflexivity]. destruct (size <? sum_ranges rs); [reflexivity|].
      destruct rs as [|ra [|rb rs]]; [reflexivity|rewrite Sk; reflexivity|reflexivity].
  Qed.

  (** header fields, pointwise *)
  Notation same r h := (forall k, rhdr r k = h k).
  Lemma slm_dated h : dated fmt_time m (rhdr p) h -> same slm h.
  Proof.
    intros D k. unfold set_last_modified. destruct D as [[K ->]|[K ->]].
    - apply known_iff in K. rewrite K, rhdr_set. reflexivity.
    - destruct (is_zero_time m) eqn:Z0; [reflexivity|]. exfalso. apply K, known_iff. exact Z0.
  Qed.
  Lemma dated_exists : exists h, dated fmt_time m (rhdr p) h.
  Proof.
    destruct (is_zero_time m) eqn:Z0; eexists; [right; split; [|reflexivity]|left; split; [|reflexivity]].
    - intros K. apply known_iff in K. congruence.
    - apply known_iff. exact Z0.
  Qed.
  Lemma typed_same h ct : same slm h -> same (typed_resp ct) (typed ct h).
  Proof.
    intros H k. unfold typed_resp, typed. destruct (hdr q (B"Content-Type")); cbn [is_empty]; [|apply H].
    rewrite rhdr_set. unfold put. rewrite H. reflexivity.
  Qed.
  Lemma put_same r h k v : same r h -> same (hset k v r) (put k v h).
  Proof. intros H k'. rewrite rhdr_set. unfold put. rewrite H. reflexivity. Qed.
  Lemma sized_same r h code n src : same r h -> same (finish q r true code n src) (sized n h).
  Proof.
    intros H k. unfold finish, sized. fold (rhdr (hset (B"Accept-Ranges") (B"bytes") r) (B"Content-Encoding")).
    rewrite rhdr_set. change (beq (B"Content-Encoding") (B"Accept-Ranges")) with false. cbv iota. rewrite H.
    destruct (h (B"Content-Encoding")); cbn [is_empty]; destruct (beq (q_method q) (B"HEAD"));
      rewrite ?rhdr_body, ?rhdr_status, ?rhdr_set; unfold put; rewrite ?rhdr_set, ?H; reflexivity.
  Qed.
  Lemma refused_same r h text code : same r h -> same (error_reply r text code) (refused h).
  Proof.
    intros H k. unfold error_reply, refused. rewrite rhdr_body, rhdr_status, !rhdr_set. unfold put. rewrite H. reflexivity.
  Qed.
  Lemma slm_body' : p_body slm = p_body p. Proof. apply slm_body. Qed.
  Lemma typed_body ct : p_body (typed_resp ct) = p_body p.
  Proof. unfold typed_resp. destruct (is_empty _); cbn [hset p_body]; apply slm_body. Qed.
  (** a later Content-Type hides an earlier one *)
  Lemma typed_hidden ct h v : same slm h -> same (hset (B"Content-Type") v (typed_resp ct)) (put (B"Content-Type") v h).
  Proof.
    intros H k. rewrite (put_same _ _ _ _ (typed_same h ct H)). unfold typed, put.
    destruct (hdr q (B"Content-Type")); [|reflexivity]. destruct (beq k (B"Content-Type")); reflexivity.
  Qed.
  Lemma refused_typed h ct text code : same slm h -> same (error_reply (typed_resp ct) text code) (refused h).
  Proof.
    intros H k. rewrite (refused_same _ _ text code (typed_same h ct H)). unfold refused, typed, put.
    destruct (hdr q (B"Content-Type")); [|reflexivity].
    destruct (beq k (B"X-Content-Type-Options")); [reflexivity|]. destruct (beq k (B"Content-Type")); reflexivity.
  Qed.
  Lemma loose_bounds os t size : loose_list size os t -> 0 <= size ->
    Forall (fun r => 0 <= fst r /\ 0 <= snd r /\ fst r + snd r <= size) (selected size (specs os)).
  Proof.
    intros R Hs.
    assert (E1 : forall o s, loose_element size o s -> Forall (fun r => 0 <= fst r /\ 0 <= snd r /\ fst r + snd r <= size) (selected size (specs [o]))).
    { intros [sp|] s El; cbn [specs selected]; [|constructor]. cbn [loose_element] in El.
      destruct (selects size sp) as [[a n]|] eqn:S0; [|constructor]. constructor; [|constructor]. cbn [fst snd].
      destruct El as [x y sa sb o1 o2 o3 o4 Na Nb L|x sa o1 o2 o3 Na|x sn o1 o2 o3 Nn|x sa o1 o2 rest Na L];
        cbn [selects] in S0; try apply plus_facts in Na as (_ & _ & _ & _ & _ & Na);
        try apply plus_facts in Nn as (_ & _ & _ & _ & _ & Nn); try apply end_facts in Nb as (_ & _ & _ & _ & Nb).
      - destruct (Z.ltb_spec x size); [|discriminate]. injection S0 as <- <-. lia.
      - destruct (Z.ltb_spec x size); [|discriminate]. injection S0 as <- <-. lia.
      - injection S0 as <- <-. lia.
      - destruct (Z.ltb_spec x size); [lia|discriminate]. }
    assert (App : forall o os', selected size (specs (o :: os')) = selected size (specs [o]) ++ selected size (specs os')).
    { intros [sp|] os'; cbn [specs selected]; [destruct (selects size sp)|]; reflexivity. }
    induction R as [o s El|o s os t El R IH]; [eapply E1; exact El|].
    rewrite App. apply Forall_app. split; [eapply E1; exact El|exact IH].
  Qed.

  Lemma refused_ranged h ct v text code : same slm h ->
    same (error_reply (hset (B"Content-Range") v (typed_resp ct)) text code) (refused (put (B"Content-Range") v h)).
  Proof.
    intros H k. rewrite (refused_same _ _ text code (put_same _ _ (B"Content-Range") v (typed_same h ct H))). unfold refused, typed, put.
    destruct (hdr q (B"Content-Type")); [|reflexivity].
    destruct (beq k (B"X-Content-Type-Options")); [reflexivity|].
    destruct (beq k (B"Content-Type")) eqn:E; [reflexivity|]. destruct (beq k (B"Content-Range")); reflexivity.
  Qed.
  Lemma bare_same r h : same r h -> same (write_not_modified r) (bare h).
  Proof.
    intros H k. destruct (C54_not_modified r k) as (_ & _ & E). unfold rhdr, hpeek. rewrite E. unfold bare, without, put. cbv beta zeta.
    change (resp_etag r) with (rhdr r (B"Etag")). rewrite <- (H (B"Etag")).
    destruct (rhdr r (B"Etag")); cbn [is_empty negb]; rewrite <- (H k); unfold rhdr, hpeek;
      destruct (beq k (B"Content-Type")), (beq k (B"Content-Length")), (beq k (B"Content-Encoding")), (beq k (B"Last-Modified")); reflexivity.
  Qed.
  Lemma finish_body r code n src : p_body r = p_body p ->
    p_body (finish q r true code n src) = p_body p ++ sent (firstn (Z.to_nat n) src).
  Proof.
    intros E. destruct (finish_facts q r code n src) as (_ & F & _). cbv zeta in F. rewrite F, E. unfold sent.
    destruct (beq (q_method q) (B"HEAD")); [rewrite app_nil_r|]; reflexivity.
  Qed.
  Lemma total_le l size : Forall (fun r => 0 <= fst r /\ 0 <= snd r /\ fst r + snd r <= size) l -> Forall (fun r : Z * Z => 0 <= snd r) l.
  Proof. intros W. eapply Forall_impl; [|exact W]. cbn beta. intros; lia. Qed.

  (** the conditions are decided *)
  Lemma step1_dec : step1_fails q p \/ ~ step1_fails q p.
  Proof.
    unfold step1_fails. rewrite <- hit_strong.
    destruct (etag_loop_ok (fun e => etag_strong e (resp_etag p)) (length (hdr q (B"If-Match"))) (hdr q (B"If-Match")) (le_n _)) as ([|] & _ & Hb).
    - right. intros [_ X]. apply X, Hb. reflexivity.
    - destruct (hdr q (B"If-Match")) eqn:E; [right; intros [X _]; apply X; reflexivity|].
      left. split; [discriminate|]. intros X. apply Hb in X. discriminate X.
  Qed.
  Lemma step3_dec : step3_fails q p \/ ~ step3_fails q p.
  Proof.
    unfold step3_fails. rewrite <- hit_weak.
    destruct (etag_loop_ok (fun e => etag_weak e (resp_etag p)) (length (hdr q (B"If-None-Match"))) (hdr q (B"If-None-Match")) (le_n _)) as ([|] & _ & Hb).
    - destruct (hdr q (B"If-None-Match")) eqn:E; [right; intros [X _]; apply X; reflexivity|].
      left. split; [discriminate|]. apply Hb. reflexivity.
    - right. intros [_ X]. apply Hb in X. discriminate X.
  Qed.
  Lemma step2_dec : step2_fails time_parse q m \/ ~ step2_fails time_parse q m.
  Proof.
    unfold step2_fails. rewrite <- (ius_iff time_parse q m).
    destruct (hdr q (B"If-Match")); [|right; intros [X _]; discriminate X].
    destruct (is_cfalse _); [left; auto|right; intros [_ X]; discriminate X].
  Qed.
  Lemma step4_dec : step4_fails time_parse q m \/ ~ step4_fails time_parse q m.
  Proof.
    unfold step4_fails. rewrite <- (ims_iff time_parse q m).
    destruct (hdr q (B"If-None-Match")); [|right; intros [X _]; discriminate X].
    destruct (is_cfalse _); [left; auto|right; intros [_ X]; discriminate X].
  Qed.
  Lemma get_head_dec : is_get_head q \/ ~ is_get_head q.
  Proof. rewrite <- get_head_iff. destruct (get_or_head q); [left; reflexivity|right; discriminate]. Qed.
  Lemma off_dec : range_off time_parse q p m \/ ~ range_off time_parse q p m.
  Proof. rewrite <- ir_iff. destruct (is_cfalse _); [left; reflexivity|right; discriminate]. Qed.
  Lemma loose_dec t : size_of c < two63 -> (exists os, loose_list (size_of c) os t) \/ forall os, ~ loose_list (size_of c) os t.
  Proof.
    intros Hs. assert (Hz : 0 <= size_of c < two63) by (unfold size_of in *; lia).
    destruct (parse_pieces wrap64 (split "," t) (size_of c) [] false) as [[rs no]|e] eqn:E.
    - left. destruct (pieces_inv (size_of c) Hz (length t) t (le_n _) _ _ _ _ E) as (os & L & _). exists os. exact L.
    - right. intros os L. rewrite (pieces_loose os t _ Hz L) in E. discriminate E.
  Qed.
  Lemma not_failed : ~ fails412 -> ~ (step1_fails q p \/ step2_fails time_parse q m).
  Proof. tauto. Qed.

  (** ** C139 *)
  Theorem C139_answer : forall st body h,
    seekable c -> moderate -> length b1 = length b2 ->
    answer st body h ->
    exists r e, serve_content_seek time_parse fmt_time mime_type b1 b2 q p name m c = Some (r, e) /\
      p_status r = st /\ p_body r = p_body p ++ body /\ (forall k, rhdr r k = h k) /\ (e = SOk <-> st <> 416).
  Proof.
    intros st body h Sk [Hs Mod] Lb A. rewrite (serve_content_seek_eq time_parse fmt_time mime_type b1 b2 q p name m c Sk).
    assert (Hs0 : 0 <= size_of c) by (unfold size_of; lia).
    assert (Typ : exists ct, chosen_type mime_type q name c ct).
    { unfold chosen_type. destruct (hdr q (B"Content-Type")) eqn:E1; [|eexists; left; split; [discriminate|reflexivity]].
      destruct (mime_type (file_ext name)) eqn:E2; [|eexists; right; left; split; [reflexivity|split; [discriminate|reflexivity]]].
      destruct (C57_total (c_data c)) as (ct & D & _). exists ct. right. right. auto. }
    pose proof (C54_decision_order time_parse q slm m) as (D1 & D2 & D3 & D4 & _).
    unfold step1_fails, step3_fails in D1, D2, D3, D4. rewrite (slm_etag fmt_time m p) in D1, D2, D3, D4.
    fold (step1_fails q p) in D1, D2, D3, D4. fold (step3_fails q p) in D1, D2, D3, D4.
    destruct A as [h F D|h F F' D|h ct G D Ct W|h ct l a n part G D Ct Ra Sel Ba|h ct l bd G D Ct Ra Two Tot Mp|h l G D Ra Ne Sel|h G D Ga];
      pose proof (slm_dated h D) as Sl.
    - exists (set_status 412 slm), SOk. split; [|split; [reflexivity|split; [|split; [exact Sl|split; [discriminate|reflexivity]]]]].
      + unfold serve_content.
        assert (E : check_preconditions time_parse q slm m = Some (set_status 412 slm, true, [])).
        { destruct step1_dec as [X|X]; [apply D1; auto|]. destruct step2_dec as [Y|Y]; [apply D1; auto|].
          destruct F as [F|[F|[F1 F2]]]; [contradiction|contradiction|]. apply D3; tauto. }
        rewrite E. reflexivity.
      + rewrite app_nil_r. apply slm_body.
    - exists (write_not_modified slm), SOk. pose proof (C54_not_modified slm []) as (S1 & S2 & _).
      split; [|split; [exact S1|split; [|split; [apply bare_same; exact Sl|split; [discriminate|reflexivity]]]]].
      + unfold serve_content. apply not_failed in F as F0.
        assert (E : check_preconditions time_parse q slm m = Some (write_not_modified slm, true, [])).
        { destruct step3_dec as [X|X].
          - apply D2; [exact F0|exact X|]. destruct get_head_dec as [Y|Y]; [exact Y|]. exfalso. apply F. right. right. auto.
          - destruct F' as [F'|F']; [contradiction|]. apply D4; assumption. }
        rewrite E. reflexivity.
      + rewrite S2, app_nil_r. apply slm_body.
    - (* the whole content *)
      apply content_type_iff in Ct.
      assert (Hv : exists v rs, (range_asked time_parse q p m v \/ range_off time_parse q p m /\ v = []) /\
         parse_range v (size_of c) = inl rs /\ (if size_of c <? sum_ranges rs then [] else rs) = []).
      { assert (Nil : forall v, v = [] -> parse_range v (size_of c) = inl [] /\ (if size_of c <? sum_ranges [] then [] else []) = @nil hrange).
        { intros v ->. split; [reflexivity|]. destruct (_ <? _); reflexivity. }
        destruct W as [W|[W|(l & (os & t & Ra & L & ->) & W)]].
        - exists [], []. destruct (Nil [] eq_refl) as [N1 N2]. split; [|split; [exact N1|exact N2]].
          destruct off_dec as [O|O]; [right; auto|left; split; [exact W|exact O]].
        - exists [], []. destruct (Nil [] eq_refl) as [N1 N2]. split; [right; auto|split; [exact N1|exact N2]].
        - exists (B"bytes=" ++ t). pose proof (proj1 (C80_every_header t (size_of c) (conj Hs0 Hs)) os L) as P.
          pose proof (loose_bounds os t (size_of c) L Hs0) as Bd.
          destruct (Mod (specs os)) as [T _]. { exists os, t. auto. }
          destruct W as [W|W].
          + rewrite W in P. cbn [selected] in P. destruct P as (rs & P & E). exists rs. split; [left; exact Ra|]. split; [exact P|].
            destruct rs; [|discriminate E]. destruct (_ <? _); reflexivity.
          + destruct (selected (size_of c) (specs os)) as [|x sel] eqn:Es; [unfold total in W; cbn [fold_right] in W; lia|].
            assert (P' : exists rs, parse_range (B"bytes=" ++ t) (size_of c) = inl rs /\ map (fun r => (r_start r, r_len r)) rs = x :: sel).
            { destruct (specs os); exact P. }
            destruct P' as (rs & P' & E). exists rs. split; [left; exact Ra|]. split; [exact P'|].
            apply ranges_of in E. rewrite E. rewrite (sum_total time_parse fmt_time mime_type b1); [|eapply total_le; exact Bd|exact T].
            rewrite (proj2 (Z.ltb_lt _ _)) by lia. reflexivity. }
      destruct Hv as (v & rs & Hv & P & E). rewrite (serve_exact v ct (size_of c) G Hv Sk Ct Hs0), P, E.
      eexists _, _. split; [reflexivity|]. split; [apply finish_facts|].
      split; [rewrite finish_body by apply typed_body; unfold size_of; rewrite Nat2Z.id, firstn_all; reflexivity|].
      split; [apply sized_same, typed_same; exact Sl|split; [discriminate|reflexivity]].
    - (* one range *)
      destruct Ra as (os & t & Ra & L & ->). apply content_type_iff in Ct.
      rewrite (serve_exact _ ct (size_of c) G (or_introl Ra) Sk Ct Hs0).
      pose proof (proj1 (C80_every_header t (size_of c) (conj Hs0 Hs)) os L) as P. rewrite Sel in P.
      pose proof (loose_bounds os t (size_of c) L Hs0) as Bd. rewrite Sel in Bd. inversion Bd as [|? ? B0 _]; subst. cbn [fst snd] in B0.
      assert (P' : exists rs, parse_range (B"bytes=" ++ t) (size_of c) = inl rs /\ map (fun r => (r_start r, r_len r)) rs = [(a, n)]).
      { destruct (specs os); exact P. }
      destruct P' as (rs & P' & E). rewrite P'. apply ranges_of in E. subst rs.
      assert (Su : sum_ranges (map to_range [(a, n)]) = n).
      { rewrite (sum_total time_parse fmt_time mime_type b1); unfold total; cbn [fold_right snd]; [lia| |lia].
        constructor; [cbn [snd]; lia|constructor]. }
      rewrite Su, (proj2 (Z.ltb_ge (size_of c) n)) by lia. change (map to_range [(a, n)]) with [HRange a n]. cbv iota. cbn [r_len r_start].
      assert (Pa : firstn (Z.to_nat n) (skipn (Z.to_nat a) (c_data c)) = part).
      { apply (bytes_at_det time_parse fmt_time mime_type (c_data c) a n); [apply bytes_at_sub; [lia|lia|exact (proj2 (proj2 B0))]|exact Ba]. }
      eexists _, _. split; [reflexivity|]. split; [apply finish_facts|].
      split; [rewrite finish_body by (cbn [hset p_body]; apply typed_body); rewrite Pa; reflexivity|].
      split; [|split; [discriminate|reflexivity]].
      rewrite (content_range_ok time_parse fmt_time mime_type b1) by lia. apply sized_same, put_same, typed_same. exact Sl.
    - (* several ranges *)
      pose proof Ra as Ra0. pose proof Ct as Ct0. destruct Ra as (os & t & Ra & L & ->). apply content_type_iff in Ct.
      rewrite (serve_exact _ ct (size_of c) G (or_introl Ra) Sk Ct Hs0).
      pose proof (proj1 (C80_every_header t (size_of c) (conj Hs0 Hs)) os L) as P.
      pose proof (loose_bounds os t (size_of c) L Hs0) as W.
      destruct (Mod _ Ra0) as [T Ml]. specialize (Ml ct bd Ct0 Mp).
      set (l := selected (size_of c) (specs os)) in *.
      assert (P' : exists rs, parse_range (B"bytes=" ++ t) (size_of c) = inl rs /\ map (fun r => (r_start r, r_len r)) rs = l).
      { destruct l; [cbn [length] in Two; lia|]. destruct (specs os); exact P. }
      destruct P' as (rs & P' & E). rewrite P'. apply ranges_of in E. subst rs.
      pose proof (total_le _ _ W) as Nn.
      destruct (pipe_multipart time_parse fmt_time mime_type b2 ct c l Sk Hs W) as (x & Mx & _ & Pb).
      rewrite (multipart_det time_parse fmt_time mime_type _ _ _ _ _ _ Mx _ Mp) in Pb.
      assert (Nl : l <> []) by (intros X; rewrite X in Two; cbn [length] in Two; lia). specialize (Pb Nl).
      rewrite (sum_total time_parse fmt_time mime_type b1); [|exact Nn|exact T]. rewrite (proj2 (Z.ltb_ge _ _)) by lia.
      assert (Sz : ranges_mime_size b1 (map to_range l) ct (size_of c) = Z.of_nat (length bd)).
      { unfold ranges_mime_size. pose proof (multipart_len time_parse fmt_time mime_type b2 ct c l bd true Sk Hs W Pb) as Lm.
        pose proof (heads_nonneg time_parse fmt_time mime_type b1 l ct (size_of c) true). assert (0 <= total l) by (eapply total_nonneg; [exact time_parse|exact mime_type|exact b1|exact Nn]).
        rewrite <- (heads_len_boundary b1 b2 ct (size_of c) l Lb true) in Lm.
        assert (Lc : length (close_mw b1) = length (close_mw b2)) by (unfold close_mw; rewrite !app_length, Lb; reflexivity).
        rewrite (mime_loop_ok time_parse fmt_time mime_type b1) by (try exact Nn; lia). unfold count_write. rewrite Lc.
        rewrite !wrap64_id by (rewrite ?wrap64_id; unfold int64, two63 in *; lia). lia. }
      assert (Lr : (2 <= length (map to_range l))%nat) by (rewrite map_length; exact Two).
      destruct (map to_range l) as [|r1 [|r2 rs]]; [cbn [length] in Lr; lia|cbn [length] in Lr; lia|].
      cbv zeta. rewrite Sz, Pb.
      eexists _, _. split; [reflexivity|]. split; [apply finish_facts|].
      split; [rewrite finish_body by (cbn [hset p_body]; apply typed_body); rewrite Nat2Z.id, firstn_all; reflexivity|].
      split; [apply sized_same, typed_hidden; exact Sl|split; [discriminate|reflexivity]].
    - destruct Ra as (os & t & Ra & L & ->). destruct Typ as (ct & Ct).
      rewrite (serve_exact _ ct (size_of c) G (or_introl Ra) Sk Ct Hs0).
      pose proof (proj1 (C80_every_header t (size_of c) (conj Hs0 Hs)) os L) as P. rewrite Sel in P.
      destruct (specs os) as [|sp l]; [congruence|]. rewrite P.
      eexists _, _. split; [reflexivity|]. split; [reflexivity|].
      split; [cbn [error_reply append_body set_status hset p_body]; rewrite typed_body; reflexivity|].
      split; [apply refused_ranged; exact Sl|split; [discriminate|intros X; exfalso; apply X; reflexivity]].
    - destruct Ga as (v & Ra & Nv & Bad). destruct Typ as (ct & Ct).
      rewrite (serve_exact _ ct (size_of c) G (or_introl Ra) Sk Ct Hs0).
      assert (P : parse_range v (size_of c) = inr RInvalid).
      { destruct (strip_prefix (B"bytes=") v) as [t|] eqn:Sp.
        - apply strip_prefix_inv in Sp. subst v. apply (C80_every_header t (size_of c) ltac:(lia)).
          intros os. exact (Bad os t eq_refl).
        - apply C49_other_units_rejected; [exact Nv|]. intros (t & ->). rewrite strip_bytes in Sp. discriminate. }
      rewrite P. eexists _, _. split; [reflexivity|]. split; [reflexivity|].
      split; [cbn [error_reply append_body set_status hset p_body]; rewrite typed_body; reflexivity|].
      split; [apply refused_typed; exact Sl|split; [discriminate|intros X; exfalso; apply X; reflexivity]].
  Qed.

  (** enough for [moderate]: header, content, boundary and type are not huge together *)
  Lemma moderate_small ct :
    content_type mime_type (hdr q (B"Content-Type")) name (c_data c) ct ->
    Z.of_nat (length (hdr q (B"Range")) + 1) * (size_of c + Z.of_nat (length b2) + Z.of_nat (length ct) + 300) < two63 ->
    moderate.
  Proof.
    intros Ct Hb. assert (Hs0 : 0 <= size_of c) by (unfold size_of; lia).
    assert (Hs : size_of c < two63) by nia.
    split; [exact Hs|]. intros l (os & t & [Eh _] & L & ->).
    pose proof (loose_bounds os t (size_of c) L Hs0) as W.
    assert (Ls : (length (selected (size_of c) (specs os)) <= S (length t))%nat).
    { clear - L. assert (A : forall ls : list rspec, (length (selected (size_of c) ls) <= length ls)%nat).
      { induction ls as [|sp ls IH]; cbn [selected length]; [lia|]. destruct (selects (size_of c) sp); cbn [length]; lia. }
      refine (Nat.le_trans _ _ _ (A _) _). clear A. induction L as [o s E|o s os t E L IH].
      - destruct o; cbn [specs length]; lia.
      - rewrite app_length. cbn [length]. destruct o; cbn [specs length]; lia. }
    set (sel := selected (size_of c) (specs os)) in *.
    assert (Lh : (length sel + 5 <= length (hdr q (B"Range")))%nat) by (rewrite Eh, app_length; lits; lia).
    assert (Tt : total sel <= Z.of_nat (length sel) * size_of c).
    { clear - W Hs0. unfold total. induction W as [|r sel (H1 & H2 & H3) W IH]; cbn [fold_right length]; [lia|]. nia. }
    split; [nia|]. intros ct' body Ct' Mp. apply content_type_iff in Ct, Ct'. assert (Eq : ct' = ct) by (eapply chosen_unique; eassumption); rewrite Eq in Mp. clear Eq Ct' ct'.
    assert (Fl : forall z, 0 <= z < two63 -> (length (fmt_int z) <= 64)%nat).
    { intros z Hz. unfold fmt_int. rewrite (proj2 (Z.ltb_ge z 0)) by lia. unfold fmt_nat.
      assert (G : forall f n acc, (length (dec_digits f n acc) <= f + length acc)%nat).
      { clear. induction f as [|f IH]; intros n acc; cbn [dec_digits]; [cbn; lia|].
        match goal with |- context [if ?b then _ else _] => destruct b end; cbn [length]; [lia|]. eapply Nat.le_trans; [apply IH|]. cbn [length]. lia. }
      eapply Nat.le_trans; [apply G|]. cbn [length].
      assert (N.size_nat (Z.to_N z) <= 63)%nat; [|lia].
      assert (Sz : N.of_nat (N.size_nat (Z.to_N z)) = N.size (Z.to_N z)) by (destruct (Z.to_N z) as [|pz]; [reflexivity|clear; cbn [N.size_nat N.size]; induction pz as [x IH|x IH|]; cbn [Pos.size_nat Pos.size]; [rewrite Nat2N.inj_succ, IH; lia|rewrite Nat2N.inj_succ, IH; lia|reflexivity]]).
      destruct (N.eq_dec (Z.to_N z) 0) as [E0|E0]; [rewrite E0; cbn; lia|].
      rewrite N.size_log2 in Sz by exact E0.
      assert (N.log2 (Z.to_N z) < 63)%N; [|lia]. apply N.log2_lt_pow2; [lia|]. unfold two63 in Hz. change (2 ^ 63)%N with (Z.to_N (2 ^ 63)). lia. }
    assert (Len : forall ls bd, Forall (fun r : Z * Z => 0 <= fst r /\ 0 <= snd r /\ fst r + snd r <= size_of c) ls ->
        multipart b2 ct (c_data c) (size_of c) ls bd ->
        Z.of_nat (length bd) <= Z.of_nat (length ls + 1) * (size_of c + Z.of_nat (length b2) + Z.of_nat (length ct) + 300)).
    { clear - Fl Hs Hs0. intros ls bd Wl Mp. induction Mp as [|a n ls chunk rest Hc Hr IH].
      - rewrite !app_length. lits. lia.
      - inversion Wl as [|? ? (H1 & H2 & H3) Wl']; subst. specialize (IH Wl'). cbn [fst snd] in *.
        destruct Hc as (u & v & _ & _ & Lc).
        unfold part_head, content_range_value. rewrite !app_length. lits.
        pose proof (Fl a ltac:(lia)). pose proof (Fl (size_of c) ltac:(lia)).
        assert (length (fmt_int (a + n - 1)) <= 64)%nat.
        { destruct (Z.eq_dec (a + n) 0) as [E|E]; [rewrite E; vm_compute; lia|]. apply Fl. lia. }
        cbn [length]. replace (Z.of_nat (S (length ls) + 1)) with (1 + Z.of_nat (length ls + 1)) by lia.
        rewrite Z.mul_add_distr_r, Z.mul_1_l. lia. }
    specialize (Len _ _ W Mp). nia.
  Qed.

  (** every request has such an answer *)
  Theorem C139_total : size_of c < two63 -> exists st body h, answer st body h.
  Proof.
    intros Hs. assert (Hs0 : 0 <= size_of c) by (unfold size_of; lia).
    destruct dated_exists as (h & D).
    destruct step1_dec as [X1|X1]; [exists 412, [], h; apply A_failed; [tauto|exact D]|].
    destruct step2_dec as [X2|X2]; [exists 412, [], h; apply A_failed; [tauto|exact D]|].
    destruct step3_dec as [X3|X3].
    { destruct get_head_dec as [Y|Y]; [|exists 412, [], h; apply A_failed; [tauto|exact D]].
      exists 304, [], (bare h). apply A_not_modified; [tauto|tauto|exact D]. }
    destruct step4_dec as [X4|X4]; [exists 304, [], (bare h); apply A_not_modified; [tauto|tauto|exact D]|].
    assert (G : proceeds time_parse q p m) by (split; [|split; [|split]]; assumption).
    assert (Typ : exists ct, content_type mime_type (hdr q (B"Content-Type")) name (c_data c) ct).
    { destruct (hdr q (B"Content-Type")) eqn:E1; [|eexists; apply CT_asked; discriminate].
      destruct (mime_type (file_ext name)) eqn:E2.
      - destruct (Props_Sniff2.C86_sniff_table (c_data c)) as (s & _ & Ss). exists s.
        apply (CT_sniffed _ _ _ _ (file_ext name)); [reflexivity|apply file_ext_ok|exact E2|exact Ss].
      - exists (mime_type (file_ext name)). apply CT_extension; [reflexivity|apply file_ext_ok|rewrite E2; discriminate]. }
    destruct Typ as (ct & Ct).
    assert (Wh : whole -> exists st body h, answer st body h).
    { intros W. do 3 eexists. eapply A_whole; eassumption. }
    destruct off_dec as [O|O]; [apply Wh; right; left; exact O|].
    destruct (hdr q (B"Range")) as [|x v] eqn:Ev; [apply Wh; left; exact Ev|].
    assert (Ra : range_asked time_parse q p m (x :: v)) by (split; [exact Ev|exact O]).
    assert (Ga : (forall os t, x :: v = B"bytes=" ++ t -> ~ loose_list (size_of c) os t) -> exists st body h, answer st body h).
    { intros Bad. do 3 eexists. apply (A_garbled h); [exact G|exact D|]. exists (x :: v). split; [exact Ra|split; [discriminate|exact Bad]]. }
    destruct (strip_prefix (B"bytes=") (x :: v)) as [t|] eqn:Sp.
    2:{ apply Ga. intros os t E. rewrite E, strip_bytes in Sp. discriminate Sp. }
    apply strip_prefix_inv in Sp. rewrite Sp in Ra.
    destruct (loose_dec t Hs) as [(os & L)|N].
    2:{ apply Ga. intros os t' E. rewrite Sp in E. apply app_inv_head in E. subst t'. apply N. }
    assert (As : ranges_asked (specs os)) by (exists os, t; auto).
    destruct (specs os) as [|sp l] eqn:Es; [apply Wh; right; right; exists []; auto|].
    destruct (Z.lt_ge_cases (size_of c) (total (selected (size_of c) (sp :: l)))) as [Big|Small].
    { apply Wh. right. right. exists (sp :: l). auto. }
    pose proof (loose_bounds os t (size_of c) L Hs0) as W. rewrite Es in W.
    destruct (selected (size_of c) (sp :: l)) as [|[a n] [|r2 rs]] eqn:Sel.
    - do 3 eexists. apply (A_no_overlap h (sp :: l)); [exact G|exact D|exact As|discriminate|exact Sel].
    - inversion W as [|? ? B0 _]; subst. cbn [fst snd] in B0. do 3 eexists.
      eapply (A_single h ct (sp :: l) a n); [exact G|exact D|exact Ct|exact As|exact Sel|].
      apply bytes_at_sub; [lia|lia|exact (proj2 (proj2 B0))].
    - assert (Mp : exists bd, multipart b2 ct (c_data c) (size_of c) ((a, n) :: r2 :: rs) bd).
      { clear - W. induction W as [|[x y] l (H1 & H2 & H3) W IH]; [eexists; apply MP_end|]. destruct IH as (bd & IH). cbn [fst snd] in *.
        eexists. apply MP_part; [apply bytes_at_sub; [lia|lia|exact H3]|exact IH]. }
      destruct Mp as (bd & Mp). do 3 eexists. eapply (A_multi h ct (sp :: l)); [exact G|exact D|exact Ct|exact As| | |].
      + rewrite Sel. cbn [length]. lia.
      + rewrite Sel. exact Small.
      + rewrite Sel. exact Mp.
  Qed.
  (** so ServeContent's response is always one of them, and they exclude each other *)
  Theorem C139_complete : seekable c -> moderate -> length b1 = length b2 ->
    exists r e st body h, serve_content_seek time_parse fmt_time mime_type b1 b2 q p name m c = Some (r, e) /\
      answer st body h /\ p_status r = st /\ p_body r = p_body p ++ body /\ (forall k, rhdr r k = h k) /\ (e = SOk <-> st <> 416).
  Proof.
    intros Sk Mo Lb. destruct (C139_total (proj1 Mo)) as (st & body & h & A).
    destruct (C139_answer st body h Sk Mo Lb A) as (r & e & E & F). exists r, e, st, body, h. split; [exact E|split; [exact A|exact F]].
  Qed.
  Theorem C139_unique : forall st body h st' body' h', seekable c -> moderate -> length b1 = length b2 ->
    answer st body h -> answer st' body' h' -> st = st' /\ body = body' /\ forall k, h k = h' k.
  Proof.
    intros st body h st' body' h' Sk Mo Lb A A'.
    destruct (C139_answer _ _ _ Sk Mo Lb A) as (r & e & E & F1 & F2 & F3 & _).
    destruct (C139_answer _ _ _ Sk Mo Lb A') as (r' & e' & E' & G1 & G2 & G3 & _).
    rewrite E in E'. injection E' as <- <-. split; [congruence|]. split; [|intros k; rewrite <- F3; apply G3].
    rewrite F2 in G2. exact (app_inv_head _ _ _ G2).
  Qed.
  (** C79: what every 206 carries.  Proved: at least one byte of the content, for every request
      but those of the two exceptions.  Missing (false): ranges of which one is a suffix of length
      zero, and empty contents. *)
  Theorem C79_every_206_partial : forall r e, seekable c -> moderate -> length b1 = length b2 -> q_method q <> B"HEAD" ->
    serve_content_seek time_parse fmt_time mime_type b1 b2 q p name m c = Some (r, e) -> p_status r = 206 ->
    (exists x part y a n, p_body r = p_body p ++ x ++ part ++ y /\ part <> [] /\ bytes_at (c_data c) a n part) \/
    c_data c = [] \/ exists l, ranges_asked l /\ In (Suffix 0) l.
  Proof.
    intros r e Sk Mo Lb Hm E St. destruct (C139_complete Sk Mo Lb) as (r' & e' & st & body & h & E' & A & S1 & S2 & _).
    rewrite E in E'. injection E' as <- <-. rewrite St in S1. rewrite S2. clear S2 E.
    assert (Hb : forall b, sent b = b) by (intros b; unfold sent; rewrite (proj2 (beq_neq _ _) Hm); reflexivity).
    assert (Hs0 : 0 <= size_of c) by (unfold size_of; lia).
    destruct (c_data c) as [|d0 dd] eqn:Ed; [right; left; reflexivity|].
    assert (Sz : 0 < size_of c) by (unfold size_of; rewrite Ed; cbn [length]; lia). rewrite <- Ed in *.
    assert (Pos : forall l, ranges_asked l -> ~ In (Suffix 0) l -> Forall (fun r : Z * Z => 0 < snd r) (selected (size_of c) l)).
    { intros l (os & t & _ & L & ->) N.
      assert (K : forall sp, In sp (specs os) -> forall a n, selects (size_of c) sp = Some (a, n) -> 0 < n).
      { intros sp I a n Se.
        assert (X : exists s, loose (size_of c) sp s).
        { clear - L I. induction L as [o s El|o s os t El R IH].
          - destruct o as [sp'|]; cbn [specs] in I; [|contradiction]. destruct I as [<-|[]]. exists s. exact El.
          - destruct o as [sp'|]; cbn [specs] in I; [|auto]. destruct I as [<-|I]; [exists s; exact El|auto]. }
        destruct X as (s & El).
        destruct El as [x y sa sb o1 o2 o3 o4 Na Nb Lxy|x sa o1 o2 o3 Na|x sn o1 o2 o3 Nn|x sa o1 o2 rest Na Lx]; cbn [selects] in Se.
        - destruct (Z.ltb_spec x (size_of c)); [|discriminate]. injection Se as <- <-. lia.
        - destruct (Z.ltb_spec x (size_of c)); [|discriminate]. injection Se as <- <-. lia.
        - apply plus_facts in Nn as (_ & _ & _ & _ & _ & Nn). assert (x <> 0) by (intros ->; contradiction). injection Se as <- <-. lia.
        - destruct (Z.ltb_spec x (size_of c)); [lia|discriminate]. }
      clear - K. induction (specs os) as [|sp l IH]; cbn [selected]; [constructor|].
      assert (IH' := IH (fun sp' I => K sp' (or_intror I))).
      destruct (selects (size_of c) sp) as [[a n]|] eqn:Se; [|exact IH']. constructor; [|exact IH']. cbn [snd].
      exact (K sp (or_introl eq_refl) a n Se). }
    assert (Dec : forall l : list rspec, In (Suffix 0) l \/ ~ In (Suffix 0) l).
    { intros l. destruct (in_dec (fun x y : rspec => ltac:(decide equality; apply Z.eq_dec)) (Suffix 0) l); auto. }
    assert (Pt : forall a n part, 0 < n -> bytes_at (c_data c) a n part -> part <> []).
    { intros a n part Hn (u & v & _ & _ & L) ->. cbn [length] in L. lia. }
    destruct A as [h F D|h F F' D|h ct G D Ct W|h ct l a n part G D Ct Ra Sel Ba|h ct l bd G D Ct Ra Two Tot Mp|h l G D Ra Ne Sel|h G D Ga]; try discriminate S1.
    - destruct (Dec l) as [I|I]; [right; right; exists l; auto|]. left.
      specialize (Pos l Ra I). rewrite Sel in Pos. inversion Pos as [|? ? Hn _]; subst. cbn [snd] in Hn.
      rewrite Hb. exists [], part, [], a, n. rewrite app_nil_r. cbn [app].
      split; [reflexivity|]. split; [exact (Pt a n part Hn Ba)|exact Ba].
    - destruct (Dec l) as [I|I]; [right; right; exists l; auto|]. left.
      specialize (Pos l Ra I). destruct (selected (size_of c) l) as [|[a n] rs]; [cbn [length] in Two; lia|].
      inversion Pos as [|? ? Hn _]; subst. cbn [snd] in Hn. inversion Mp as [|? ? ? chunk rest Hc Hr]; subst.
      rewrite Hb. exists (part_head b2 ct a n (size_of c)), chunk, (eol ++ rest), a, n.
      split; [reflexivity|]. split; [exact (Pt a n chunk Hn Hc)|exact Hc].
  Qed.
  (** a content whose size cannot be found: an internal error, unless a precondition answers first *)
  Theorem C139_no_seek : forall h, (c_seek_end c = false \/ c_seek c 0 = false) -> dated fmt_time m (rhdr p) h ->
    exists r e, serve_content_seek time_parse fmt_time mime_type b1 b2 q p name m c = Some (r, e) /\
      ((proceeds time_parse q p m /\ p_status r = 500 /\ p_body r = p_body p ++ B"seeker can't seek" /\
        (forall k, rhdr r k = refused h k) /\ e = SSeek) \/
       (~ proceeds time_parse q p m /\ p_body r = p_body p /\ e = SOk /\
        exists h', answer (p_status r) [] h' /\ forall k, rhdr r k = h' k)).
  Proof.
    intros h Ns D. pose proof (slm_dated h D) as Sl.
    pose proof (C54_decision_order time_parse q slm m) as (D1 & D2 & D3 & D4 & D5 & D6).
    unfold step1_fails, step3_fails in D1, D2, D3, D4. rewrite (slm_etag fmt_time m p) in D1, D2, D3, D4.
    fold (step1_fails q p) in D1, D2, D3, D4. fold (step3_fails q p) in D1, D2, D3, D4.
    assert (F412 : check_preconditions time_parse q slm m = Some (set_status 412 slm, true, []) -> fails412 ->
      exists r e, serve_content_seek time_parse fmt_time mime_type b1 b2 q p name m c = Some (r, e) /\
      ((proceeds time_parse q p m /\ p_status r = 500 /\ p_body r = p_body p ++ B"seeker can't seek" /\
        (forall k, rhdr r k = refused h k) /\ e = SSeek) \/
       (~ proceeds time_parse q p m /\ p_body r = p_body p /\ e = SOk /\
        exists h', answer (p_status r) [] h' /\ forall k, rhdr r k = h' k))).
    { intros E F. unfold serve_content_seek, serve_content. rewrite E. eexists _, _. split; [reflexivity|].
      right. split; [unfold proceeds; tauto|]. split; [apply slm_body|]. split; [reflexivity|].
      exists h. split; [apply A_failed; [exact F|exact D]|exact Sl]. }
    assert (F304 : check_preconditions time_parse q slm m = Some (write_not_modified slm, true, []) -> ~ fails412 -> (step3_fails q p \/ step4_fails time_parse q m) ->
      exists r e, serve_content_seek time_parse fmt_time mime_type b1 b2 q p name m c = Some (r, e) /\
      ((proceeds time_parse q p m /\ p_status r = 500 /\ p_body r = p_body p ++ B"seeker can't seek" /\
        (forall k, rhdr r k = refused h k) /\ e = SSeek) \/
       (~ proceeds time_parse q p m /\ p_body r = p_body p /\ e = SOk /\
        exists h', answer (p_status r) [] h' /\ forall k, rhdr r k = h' k))).
    { intros E F F'. unfold serve_content_seek, serve_content. rewrite E. eexists _, _. split; [reflexivity|].
      destruct (C54_not_modified slm []) as (S1 & S2 & _).
      right. split; [unfold proceeds; tauto|]. split; [rewrite S2; apply slm_body|]. split; [reflexivity|].
      exists (bare h). rewrite S1. split; [apply A_not_modified; [exact F|exact F'|exact D]|apply bare_same; exact Sl]. }
    destruct step1_dec as [X1|X1]; [apply F412; [apply D1; left; exact X1|left; exact X1]|].
    destruct step2_dec as [X2|X2]; [apply F412; [apply D1; right; exact X2|right; left; exact X2]|].
    assert (N12 : ~ (step1_fails q p \/ step2_fails time_parse q m)) by (intros [X|X]; contradiction).
    destruct step3_dec as [X3|X3].
    { destruct get_head_dec as [Y|Y].
      - apply F304; [apply D2; assumption| |left; exact X3]. intros [X|[X|[_ X]]]; contradiction.
      - apply F412; [apply D3; assumption|right; right; split; assumption]. }
    destruct step4_dec as [X4|X4].
    { apply F304; [apply D4; assumption| |right; exact X4]. intros [X|[X|[X _]]]; contradiction. }
    assert (G : proceeds time_parse q p m) by (split; [|split; [|split]]; assumption).
    clear F412 F304 D1 D2 D3 D4 D5 D6.
    assert (Pre : exists v, check_preconditions time_parse q slm m = Some (slm, false, v)).
    { destruct off_dec as [O|O]; eexists.
      - apply (pre_go time_parse fmt_time mime_type b2 q p m [] G). right. auto.
      - apply (pre_go time_parse fmt_time mime_type b2 q p m _ G). left. split; [reflexivity|exact O]. }
    destruct Pre as (v & Pre). unfold serve_content_seek, serve_content. rewrite Pre. fold (hdr q (B"Content-Type")).
    assert (Sz : (if c_seek_end c && c_seek c 0 then Some (Z.of_nat (length (c_data c))) else None) = None).
    { destruct Ns as [-> | ->]; [|rewrite andb_false_r]; reflexivity. }
    rewrite Sz.
    assert (Fin : forall ct r, r = slm \/ r = hset (B"Content-Type") ct slm ->
      exists r0 e, Some (error_reply r (B"seeker can't seek") 500, SSeek) = Some (r0, e) /\
       ((proceeds time_parse q p m /\ p_status r0 = 500 /\ p_body r0 = p_body p ++ B"seeker can't seek" /\
        (forall k, rhdr r0 k = refused h k) /\ e = SSeek) \/
       (~ proceeds time_parse q p m /\ p_body r0 = p_body p /\ e = SOk /\
        exists h', answer (p_status r0) [] h' /\ forall k, rhdr r0 k = h' k))).
    { intros ct r R. eexists _, _. split; [reflexivity|]. left. split; [exact G|]. split; [reflexivity|].
      split; [cbn [error_reply append_body set_status hset p_body]; destruct R as [->| ->]; cbn [hset p_body]; rewrite slm_body; reflexivity|].
      split; [|reflexivity]. intros k. destruct R as [->| ->]; [apply refused_same; exact Sl|].
      rewrite (refused_same _ _ (B"seeker can't seek") 500 (put_same _ _ (B"Content-Type") ct Sl)). unfold refused, put.
      destruct (beq k (B"X-Content-Type-Options")); [reflexivity|]. destruct (beq k (B"Content-Type")); reflexivity. }
    destruct (is_empty (hdr q (B"Content-Type"))); [|apply (Fin []); left; reflexivity].
    destruct (is_empty (mime_type (file_ext name))); [|eapply Fin; right; reflexivity].
    destruct (C57_total (firstn 512 (c_data c))) as (ct & -> & _).
    destruct (c_seek c 0); [eapply Fin; right; reflexivity|apply (Fin []); left; reflexivity].
  Qed.
End Answer.

(** ** The hypotheses are met: two ranges of a text file, and its complete answer *)
Section Example.
  Let tp : bytes -> bytes -> option gtime := fun _ _ => None.
  Let ft (_ : gtime) := B"D5".
  Let mt (e : bytes) := if beq e (B".txt") then B"text/plain" else [].
  Let q := ex_q (B"bytes=0-1,8-x,12-z").
  Lemma ex_content_type : content_type mt (hdr q (B"Content-Type")) (B"/d.e/a.b.txt") (c_data ex_c) (B"text/plain").
  Proof.
    apply (CT_extension mt [] (B"/d.e/a.b.txt") (c_data ex_c) (B".txt")); [reflexivity| |discriminate].
    exists (B"/d.e/"), (B"a.b.txt"). split; [reflexivity|]. split; [right; exists (B"/d.e"); reflexivity|].
    split; [intros X; repeat (destruct X as [X|X]; [discriminate X|]); exact X|]. right.
    exists (B"a.b"), (B"txt"). split; [reflexivity|]. split; [|reflexivity].
    intros X; repeat (destruct X as [X|X]; [discriminate X|]); exact X.
  Qed.
  Lemma ex_moderate : moderate tp mt (B"yy") q ex_p (B"/d.e/a.b.txt") 5 ex_c.
  Proof. apply (moderate_small tp ft mt (B"yy") q ex_p _ 5 ex_c (B"text/plain")); [exact ex_content_type|vm_compute; reflexivity]. Qed.
  Example C139_example :
    seekable ex_c /\ moderate tp mt (B"yy") q ex_p (B"/d.e/a.b.txt") 5 ex_c /\
    answer tp ft mt (B"yy") (ex_q (B"bytes=0-1,12-z")) ex_p (B"/d.e/a.b.txt") 5 ex_c 206 (B"01")
      (sized 2 (put (B"Content-Range") (B"bytes 0-1/10") (put (B"Content-Type") (B"text/plain")
         (put (B"Last-Modified") (B"D5") (rhdr ex_p))))) /\
    match serve_content_seek tp ft mt (B"xx") (B"yy") (ex_q (B"bytes=0-1,12-z")) ex_p (B"/d.e/a.b.txt") 5 ex_c with
    | Some (r, SOk) => p_status r = 206 /\ p_body r = B"01" /\ rhdr r (B"Content-Type") = B"text/plain" /\ rhdr r (B"Etag") = B"""v1"""
    | _ => False end.
  Proof.
    split; [split; reflexivity|]. split; [exact ex_moderate|]. split; [|vm_compute; auto].
    eapply (A_single tp ft mt (B"yy") (ex_q (B"bytes=0-1,12-z")) ex_p (B"/d.e/a.b.txt") 5 ex_c
      (put (B"Last-Modified") (B"D5") (rhdr ex_p)) (B"text/plain") [FromTo 0 1; From_ 12] 0 2 (B"01")).
    - apply ex_proceeds.
    - left. split; [split; discriminate|reflexivity].
    - exact ex_content_type.
    - exists [Some (FromTo 0 1); Some (From_ 12)], (B"0-1,12-z"). split; [apply ex_asked|]. split; [|reflexivity].
      change (B"0-1,12-z") with (B"0-1" ++ ","%char :: B"12-z"). apply LLcons; [|apply LL1].
      + apply (L_FromTo _ 0 1 (B"0") (B"1") [] [] [] []); [left|left; left|lia|constructor|constructor|constructor|constructor]; apply ex_num; (discriminate || reflexivity).
      + apply (L_Beyond _ 12 (B"12") [] [] (B"z")); [left; apply ex_num; [discriminate|reflexivity|reflexivity]|vm_compute; discriminate|constructor|constructor|].
        intros [X|[]]; discriminate X.
    - reflexivity.
    - exists [], (B"23456789"). split; [reflexivity|split; reflexivity].
  Qed.
End Example.
Print Assumptions C139_answer.
Print Assumptions C139_total.
Print Assumptions C139_complete.
Print Assumptions C139_unique.
Print Assumptions C139_no_seek.
Print Assumptions C79_every_206_partial.
