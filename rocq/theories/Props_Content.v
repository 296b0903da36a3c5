(** C50-C53, C58, C79, C83: content responses. *)
From Verif Require Import Base GoStrings GoInt M_Text M_Range S_Range P_Range M_Cond S_Cond P_Cond
  M_Sniff M_Content S_Content Props_Range Props_Cond Props_Sniff.
From Coq Require Import ZifyNat ZifyN.
Local Open Scope Z_scope.

(** response header values *)
Definition rhdr (p : sresp) (k : bytes) : bytes := hpeek (p_hdr p) k.
Lemma rhdr_set k k' v p : rhdr (hset k' v p) k = if beq k k' then v else rhdr p k.
Proof. unfold rhdr, hset, hpeek; cbn [p_hdr]. rewrite aget_aput. destruct (beq k k'); reflexivity. Qed.
Lemma rhdr_status k c p : rhdr (set_status c p) k = rhdr p k.
Proof. reflexivity. Qed.
Lemma rhdr_body k b p : rhdr (append_body b p) k = rhdr p k.
Proof. reflexivity. Qed.

Lemma strip_prefix_inv p : forall s t, strip_prefix p s = Some t -> s = p ++ t.
Proof.
  induction p as [|a p IH]; intros [|b s] t X; cbn [strip_prefix] in X; try discriminate;
    try (injection X as <-; reflexivity).
  destruct (Ascii.eqb_spec a b) as [->|_]; [|discriminate]. cbn [app]. f_equal. apply IH. exact X.
Qed.

  Lemma bytes_at_sub data a n : 0 <= a -> 0 <= n -> a + n <= Z.of_nat (length data) ->
    bytes_at data a n (firstn (Z.to_nat n) (skipn (Z.to_nat a) data)).
  Proof.
    intros Ha Hn H. exists (firstn (Z.to_nat a) data), (skipn (Z.to_nat n) (skipn (Z.to_nat a) data)).
    rewrite firstn_skipn, firstn_skipn. split; [reflexivity|].
    rewrite !firstn_length, skipn_length. lia.
  Qed.
  Lemma selects_bounds size sp a n : 0 <= size -> (forall x y, sp = FromTo x y -> 0 <= x <= y) ->
    (forall x, sp = From_ x -> 0 <= x) -> (forall x, sp = Suffix x -> 0 <= x) ->
    selects size sp = Some (a, n) -> 0 <= a /\ 0 <= n /\ a + n <= size.
  Proof.
    intros Hs H1 H2 H3 E. destruct sp as [x y|x|x]; cbn [selects] in E.
    - specialize (H1 x y eq_refl). destruct (Z.ltb_spec x size); [|discriminate]. injection E as <- <-. lia.
    - specialize (H2 x eq_refl). destruct (Z.ltb_spec x size); [|discriminate]. injection E as <- <-. lia.
    - specialize (H3 x eq_refl). injection E as <- <-. lia.
  Qed.
  Lemma written_bounds sp s : written sp s -> (forall x y, sp = FromTo x y -> 0 <= x <= y) /\
    (forall x, sp = From_ x -> 0 <= x) /\ (forall x, sp = Suffix x -> 0 <= x).
  Proof.
    intros W. destruct W as [a b sa sb o1 o2 o3 o4 Na Nb| a sa o1 o2 o3 Na|n sn o1 o2 o3 Nn]; repeat split; intros; try discriminate.
    all: match goal with H : _ = _ |- _ => injection H as ? ?; subst end || match goal with H : _ = _ |- _ => injection H as ?; subst end.
    all: try (apply numeral_nonneg in Na); try (apply numeral_nonneg in Nb); try (apply numeral_nonneg in Nn); lia.
  Qed.

Section Content.
  Variable time_parse : bytes -> bytes -> option gtime.
  Variable fmt_time : gtime -> bytes.
  Variable mime_type : bytes -> bytes.
  Variables b1 b2 : bytes.
  Notation serve := (serve_content time_parse fmt_time mime_type b1 b2).

  (** no precondition fails (in the sense of C54) *)
  Definition proceeds (q : sreq) (p : sresp) (m : gtime) : Prop :=
    ~ step1_fails q p /\ ~ step2_fails time_parse q m /\ ~ step3_fails q p /\ ~ step4_fails time_parse q m.
  (** all seeks succeed *)
  Definition seekable (c : content) : Prop := (forall a, c_seek c a = true) /\ c_seek_end c = true.
  Definition size_of (c : content) : Z := Z.of_nat (length (c_data c)).
  (** the Range header is there and not disabled by If-Range *)
  Definition range_asked (q : sreq) (p : sresp) (m : gtime) (v : bytes) : Prop :=
    hdr q (B"Range") = v /\ ~ range_off time_parse q p m.

  Lemma slm_etag m p : resp_etag (set_last_modified fmt_time m p) = resp_etag p.
  Proof.
    unfold set_last_modified. destruct (is_zero_time m); [reflexivity|].
    change (resp_etag (hset (B"Last-Modified") (fmt_time m) p)) with (rhdr (hset (B"Last-Modified") (fmt_time m) p) (B"Etag")).
    rewrite rhdr_set. reflexivity.
  Qed.
  Lemma slm_other m p k : beq k (B"Last-Modified") = false -> rhdr (set_last_modified fmt_time m p) k = rhdr p k.
  Proof. intros H. unfold set_last_modified. destruct (is_zero_time m); [reflexivity|]. rewrite rhdr_set, H. reflexivity. Qed.
  Lemma slm_body m p : p_body (set_last_modified fmt_time m p) = p_body p.
  Proof. unfold set_last_modified. destruct (is_zero_time m); reflexivity. Qed.
  Lemma pre_go q p m v : proceeds q p m -> (range_asked q p m v \/ range_off time_parse q p m /\ v = []) ->
    check_preconditions time_parse q (set_last_modified fmt_time m p) m =
      Some (set_last_modified fmt_time m p, false, v).
  Proof.
    intros (N1 & N2 & N3 & N4) R.
    destruct (C54_decision_order time_parse q (set_last_modified fmt_time m p) m) as (_ & _ & _ & _ & H5 & H6).
    unfold step1_fails, step3_fails, range_off, if_range_holds in *.
    rewrite slm_etag in H5, H6.
    destruct R as [[Rv Ro]|[Ro ->]].
    - rewrite <- Rv. apply H6; try assumption. tauto.
    - apply H5; try assumption. tauto.
  Qed.
  (** the response after the content type is settled: nothing else changed *)
  Definition settled (p p1 : sresp) (q : sreq) (ct : bytes) : Prop :=
    p_body p1 = p_body p /\
    (forall k, k <> B"Content-Type" -> k <> B"Last-Modified" -> rhdr p1 k = rhdr p k) /\
    (hdr q (B"Content-Type") = [] -> rhdr p1 (B"Content-Type") = ct) /\
    (hdr q (B"Content-Type") <> [] -> ct = hdr q (B"Content-Type") /\ rhdr p1 (B"Content-Type") = rhdr p (B"Content-Type")).
  (** which content type the content has: the request's Content-Type header, else the one of
      the name's extension, else the sniffed one *)
  Definition chosen_type (q : sreq) (name : bytes) (c : content) (ct : bytes) : Prop :=
    (hdr q (B"Content-Type") <> [] /\ ct = hdr q (B"Content-Type")) \/
    (hdr q (B"Content-Type") = [] /\ mime_type (file_ext name) <> [] /\ ct = mime_type (file_ext name)) \/
    (hdr q (B"Content-Type") = [] /\ mime_type (file_ext name) = [] /\ detect_content_type (c_data c) = Ok ct).
  Lemma chosen_unique q name c x y : chosen_type q name c x -> chosen_type q name c y -> x = y.
  Proof. unfold chosen_type. intuition congruence. Qed.
  Lemma serve_go q p name m c v : proceeds q p m ->
    (range_asked q p m v \/ range_off time_parse q p m /\ v = []) -> seekable c ->
    exists p1 ct, settled p p1 q ct /\ chosen_type q name c ct /\
      (forall size, 0 <= size -> serve q p name m (Some size) c =
         match parse_range v size with
         | inr e => Some (error_reply (match e with
                                  | RNoOverlap => hset (B"Content-Range") (B"bytes */" ++ fmt_int size) p1
                                  | RInvalid => p1
                                  end) (rerr_text e) 416, SRange e)
         | inl rs => match (if size <? sum_ranges rs then [] else rs) with
                         | [] => Some (finish q p1 true 200 size (c_data c), SOk)
                         | [ra] => Some (finish q (hset (B"Content-Range") (content_range ra size) p1)
                                            true 206 (r_len ra) (skipn (Z.to_nat (r_start ra)) (c_data c)), SOk)
                         | rs =>
                             Some (finish q (hset (B"Content-Type") (B"multipart/byteranges; boundary=" ++ b2) p1)
                                     true 206 (ranges_mime_size b1 rs ct size) (pipe_bytes b2 true rs ct size c), SOk)
                         end
         end).
  Proof.
    intros G R [Sk Se]. pose proof (pre_go q p m v G R) as Pre.
    assert (Sm : forall ct, settled p (hset (B"Content-Type") ct (set_last_modified fmt_time m p)) q ct \/ hdr q (B"Content-Type") <> []).
    { intros ct. destruct (hdr q (B"Content-Type")) eqn:E; [left|right; discriminate].
      split; [cbn [hset p_body]; apply slm_body|]. split; [|split].
      - intros k K1 K2. rewrite rhdr_set, (proj2 (beq_neq _ _) K1). apply slm_other. apply beq_neq. exact K2.
      - intros _. rewrite rhdr_set, beq_refl. reflexivity.
      - intros X. congruence. }
    unfold serve_content. rewrite Pre. fold (hdr q (B"Content-Type")).
    destruct (is_empty (hdr q (B"Content-Type"))) eqn:E.
    - apply is_empty_true in E. destruct (is_empty (mime_type (file_ext name))) eqn:E2.
      + destruct (C57_total (firstn 512 (c_data c))) as (ct & Ct & _). rewrite Ct, (Sk 0).
        exists (hset (B"Content-Type") ct (set_last_modified fmt_time m p)), ct.
        split; [destruct (Sm ct); [assumption|contradiction]|].
        split. { right. right. apply is_empty_true in E2. split; [exact E|split; [exact E2|]]. rewrite <- Ct.
          apply C57_first_512. rewrite firstn_firstn. reflexivity. }
        intros size Hs. rewrite (proj2 (Z.ltb_ge size 0)) by lia.
        destruct (parse_range v size) as [rs|]; [|reflexivity]. destruct (size <? sum_ranges rs); [reflexivity|].
        destruct rs as [|ra [|rb rs]]; [reflexivity|rewrite Sk; reflexivity|reflexivity].
      + exists (hset (B"Content-Type") (mime_type (file_ext name)) (set_last_modified fmt_time m p)), (mime_type (file_ext name)).
        split; [destruct (Sm (mime_type (file_ext name))); [assumption|contradiction]|].
        split. { right. left. apply is_empty_false in E2. split; [exact E|split; [exact E2|reflexivity]]. }
        intros size Hs. rewrite (proj2 (Z.ltb_ge size 0)) by lia.
        destruct (parse_range v size) as [rs|]; [|reflexivity]. destruct (size <? sum_ranges rs); [reflexivity|].
        destruct rs as [|ra [|rb rs]]; [reflexivity|rewrite Sk; reflexivity|reflexivity].
    - apply is_empty_false in E. exists (set_last_modified fmt_time m p), (hdr q (B"Content-Type")). split.
      + split; [apply slm_body|]. split; [|split; [congruence|]].
        * intros k K1 K2. apply slm_other. apply beq_neq. exact K2.
        * intros _. split; [reflexivity|]. apply slm_other. reflexivity.
      + split; [left; split; [exact E|reflexivity]|]. intros size Hs. rewrite (proj2 (Z.ltb_ge size 0)) by lia.
        destruct (parse_range v size) as [rs|]; [|reflexivity]. destruct (size <? sum_ranges rs); [reflexivity|].
        destruct rs as [|ra [|rb rs]]; [reflexivity|rewrite Sk; reflexivity|reflexivity].
  Qed.

  (** what [finish] does *)
  Lemma finish_facts q p code n src :
    let r := finish q p true code n src in
    p_status r = code /\
    p_body r = (if beq (q_method q) (B"HEAD") then p_body p else p_body p ++ firstn (Z.to_nat n) src) /\
    rhdr r (B"Accept-Ranges") = B"bytes" /\
    (rhdr p (B"Content-Encoding") = [] -> rhdr r (B"Content-Length") = fmt_int n) /\
    (forall k, k <> B"Accept-Ranges" -> k <> B"Content-Length" -> rhdr r k = rhdr p k).
  Proof.
    unfold finish. fold (rhdr (hset (B"Accept-Ranges") (B"bytes") p) (B"Content-Encoding")).
    rewrite rhdr_set. change (beq (B"Content-Encoding") (B"Accept-Ranges")) with false. cbv iota.
    destruct (is_empty (rhdr p (B"Content-Encoding"))) eqn:E; destruct (beq (q_method q) (B"HEAD"));
      cbn [p_status p_body set_status append_body hset]; (split; [reflexivity|]); (split; [reflexivity|]);
      rewrite ?rhdr_body, ?rhdr_status, ?rhdr_set; (split; [reflexivity|]).
    all: split; [intros Ce; rewrite ?rhdr_body, ?rhdr_status, ?rhdr_set; try reflexivity;
                 apply is_empty_false in E; contradiction|].
    all: intros k K1 K2; rewrite ?rhdr_body, ?rhdr_status, ?rhdr_set, (proj2 (beq_neq _ _) K1), ?(proj2 (beq_neq _ _) K2); reflexivity.
  Qed.
  Lemma selected_bounds os t size : range_list os t -> 0 <= size ->
    Forall (fun r => 0 <= fst r /\ 0 <= snd r /\ fst r + snd r <= size) (selected size (specs os)).
  Proof.
    intros R Hs.
    assert (E1 : forall o s, element o s -> Forall (fun r => 0 <= fst r /\ 0 <= snd r /\ fst r + snd r <= size) (selected size (specs [o]))).
    { intros [sp|] s El; cbn [specs selected]; [|constructor]. cbn [element] in El.
      destruct (selects size sp) as [[a n]|] eqn:S0; [|constructor]. constructor; [|constructor]. cbn [fst snd].
      destruct (written_bounds _ _ El) as (W1 & W2 & W3). eapply selects_bounds; eassumption. }
    assert (App : forall o os', selected size (specs (o :: os')) = selected size (specs [o]) ++ selected size (specs os')).
    { intros [sp|] os'; cbn [specs selected]; [destruct (selects size sp)|]; reflexivity. }
    induction R as [o s El|o s os t El R IH]; [eapply E1; exact El|].
    rewrite App. apply Forall_app. split; [eapply E1; exact El|exact IH].
  Qed.
  Definition to_range (r : Z * Z) : hrange := HRange (fst r) (snd r).
  Lemma ranges_of rs l : map (fun r => (r_start r, r_len r)) rs = l -> rs = map to_range l.
  Proof.
    intros <-. rewrite map_map. rewrite <- (map_id rs) at 1. apply map_ext. intros [a n]. reflexivity.
  Qed.
  Definition total (l : list (Z * Z)) : Z := fold_right (fun r s => snd r + s) 0 l.
  Lemma total_nonneg l : Forall (fun r => 0 <= snd r) l -> 0 <= total l.
  Proof. unfold total. induction 1 as [|r l Hr _ IH]; simpl; lia. Qed.
  Lemma sum_total l : Forall (fun r => 0 <= snd r) l -> total l < two63 -> sum_ranges (map to_range l) = total l.
  Proof.
    intros H L. unfold sum_ranges, sum_ranges_w.
    assert (G : forall acc, 0 <= acc -> acc + total l < two63 ->
              fold_left (fun s r => wrap64 (s + r_len r)) (map to_range l) acc = acc + total l).
    { clear L. unfold total. induction H as [|r l Hr Hl IH]; intros acc Ha L; cbn [map fold_left fold_right] in *; [lia|].
      pose proof (total_nonneg l Hl) as T. unfold total in T. cbn [to_range r_len].
      assert (W : wrap64 (acc + snd r) = acc + snd r) by (apply wrap64_id; unfold int64, two63 in *; lia).
      rewrite W, IH by lia. lia. }
    rewrite G by lia. lia.
  Qed.
  Lemma content_range_ok a n size : 0 <= a -> 0 <= n -> a + n <= size -> size < two63 ->
    content_range (HRange a n) size = content_range_value a n size.
  Proof.
    intros. unfold content_range, content_range_value. cbn [r_start r_len].
    rewrite !wrap64_id by (rewrite ?wrap64_id; unfold int64, two63 in *; lia). reflexivity.
  Qed.

  (** ServeContent on a seekable content is serveContent with the true size: the theorems
      below are about both *)
  Lemma serve_content_seek_eq q p name m c : seekable c ->
    serve_content_seek time_parse fmt_time mime_type b1 b2 q p name m c = serve q p name m (Some (size_of c)) c.
  Proof. intros [Sk Se]. unfold serve_content_seek. rewrite Se, Sk. reflexivity. Qed.

  (** ** C50: a single range *)
  Theorem C50_single_range : forall q p name m c os t a n,
    proceeds q p m -> seekable c -> size_of c < two63 -> q_method q <> B"HEAD" ->
    range_asked q p m (B"bytes=" ++ t) -> range_list os t ->
    selected (size_of c) (specs os) = [(a, n)] ->
    exists r part, serve q p name m (Some (size_of c)) c = Some (r, SOk) /\
      p_status r = 206 /\
      bytes_at (c_data c) a n part /\ p_body r = p_body p ++ part /\
      rhdr r (B"Content-Range") = content_range_value a n (size_of c) /\
      (rhdr p (B"Content-Encoding") = [] -> rhdr r (B"Content-Length") = fmt_int n) /\
      rhdr r (B"Accept-Ranges") = B"bytes".
  Proof.
    intros q p name m c os t a n G Sk Hs Hm Ra Rl Sel.
    assert (Hs0 : 0 <= size_of c) by (unfold size_of; lia).
    destruct (serve_go q p name m c _ G (or_introl Ra) Sk) as (p1 & ct & St & _ & E). rewrite (E _ Hs0).
    destruct (C49_range_specs os t (size_of c) ltac:(lia) Rl) as [K _].
    destruct K as (rs & P & M). { left. rewrite Sel. discriminate. }
    rewrite P. rewrite Sel in M. apply ranges_of in M. subst rs. change (map to_range [(a, n)]) with [HRange a n].
    pose proof (selected_bounds _ _ (size_of c) Rl Hs0) as Bd. rewrite Sel in Bd. inversion Bd as [|? ? B0 _]; subst. cbn [fst snd] in B0.
    assert (Su : sum_ranges [HRange a n] = n).
    { change [HRange a n] with (map to_range [(a, n)]). rewrite sum_total; unfold total; cbn [fold_right snd]; [lia| |lia].
      constructor; [cbn [snd]; lia|constructor]. }
    rewrite Su, (proj2 (Z.ltb_ge (size_of c) n)) by lia.
    set (p2 := hset (B"Content-Range") _ p1). cbn [r_len r_start].
    destruct (finish_facts q p2 206 n (skipn (Z.to_nat a) (c_data c))) as (F1 & F2 & F3 & F4 & F5). cbv zeta in *.
    exists (finish q p2 true 206 n (skipn (Z.to_nat a) (c_data c))), (firstn (Z.to_nat n) (skipn (Z.to_nat a) (c_data c))).
    split; [reflexivity|]. split; [exact F1|]. split; [apply bytes_at_sub; [lia|lia|exact (proj2 (proj2 B0))]|].
    destruct St as (S1 & S2 & _).
    split; [rewrite F2, (proj2 (beq_neq _ _) Hm); unfold p2; cbn [hset p_body]; rewrite S1; reflexivity|].
    split; [|split; [|exact F3]].
    - rewrite F5 by discriminate. unfold p2. rewrite rhdr_set, beq_refl. apply content_range_ok; lia.
    - intros Ce. apply F4. unfold p2. rewrite rhdr_set. rewrite S2 by discriminate. exact Ce.
  Qed.

  (** ** C51: the whole content *)
  Theorem C51_whole_content : forall q p name m c,
    proceeds q p m -> seekable c -> size_of c < two63 -> q_method q <> B"HEAD" ->
    (* no Range header, or disabled by If-Range, or asking for too much *)
    hdr q (B"Range") = [] \/ range_off time_parse q p m \/
    (exists os t, hdr q (B"Range") = B"bytes=" ++ t /\ range_list os t /\
       size_of c < total (selected (size_of c) (specs os)) < two63) ->
    exists r, serve q p name m (Some (size_of c)) c = Some (r, SOk) /\
      p_status r = 200 /\ p_body r = p_body p ++ c_data c /\
      (rhdr p (B"Content-Encoding") = [] -> rhdr r (B"Content-Length") = fmt_int (size_of c)) /\
      rhdr r (B"Accept-Ranges") = B"bytes" /\
      rhdr r (B"Content-Range") = rhdr p (B"Content-Range").
  Proof.
    intros q p name m c G Sk Hs Hm R.
    assert (Hs0 : 0 <= size_of c) by (unfold size_of; lia).
    assert (D : range_off time_parse q p m \/ ~ range_off time_parse q p m).
    { pose proof (ir_iff time_parse q p m) as I. destruct (is_cfalse (check_if_range time_parse q p m));
        [left; apply I; reflexivity|right; intros X; apply I in X; discriminate]. }
    assert (H : exists v, (range_asked q p m v \/ range_off time_parse q p m /\ v = []) /\
       (v = [] \/ exists os t, v = B"bytes=" ++ t /\ range_list os t /\ size_of c < total (selected (size_of c) (specs os)) < two63)).
    { destruct D as [D|D]; [exists []; auto|]. exists (hdr q (B"Range")).
      split; [left; split; [reflexivity|exact D]|]. destruct R as [R|[R|R]]; [auto|contradiction|auto]. }
    destruct H as (v & Hv & Cv).
    destruct (serve_go q p name m c v G Hv Sk) as (p1 & ct & (S1 & S2 & _) & _ & E). rewrite (E _ Hs0).
    assert (F : exists rs, parse_range v (size_of c) = inl rs /\ (if size_of c <? sum_ranges rs then [] else rs) = []).
    { destruct Cv as [->|(os & t & -> & Rl & T)].
      - exists []. split; [reflexivity|]. destruct (_ <? _); reflexivity.
      - destruct (C49_range_specs os t (size_of c) ltac:(lia) Rl) as [K _].
        destruct K as (rs & P & M).
        { left. intros X. rewrite X in T. unfold total in T. cbn [fold_right] in T. lia. }
        exists rs. split; [exact P|]. apply ranges_of in M. subst rs.
        rewrite sum_total; [|eapply Forall_impl; [|exact (selected_bounds _ _ (size_of c) Rl Hs0)]; cbn beta; intros; lia|lia].
        rewrite (proj2 (Z.ltb_lt _ _)) by lia. reflexivity. }
    destruct F as (rs & -> & ->).
    destruct (finish_facts q p1 200 (size_of c) (c_data c)) as (F1 & F2 & F3 & F4 & F5). cbv zeta in *.
    eexists. split; [reflexivity|]. split; [exact F1|]. split; [|split; [|split; [exact F3|]]].
    - rewrite F2, (proj2 (beq_neq _ _) Hm), S1. unfold size_of. rewrite Nat2Z.id, firstn_all. reflexivity.
    - intros Ce. apply F4. rewrite S2 by discriminate. exact Ce.
    - rewrite F5 by discriminate. apply S2; discriminate.
  Qed.
  (** HEAD gives the status and the headers of GET and no content: for every response so
      far, size function result and seek behaviour *)
  Definition with_method (q : sreq) (mth : bytes) : sreq := SReq mth (q_uri q) (q_hdr q).
  Theorem C51_head : forall q p name m size c,
    exists r1 r2 e,
      serve (with_method q (B"HEAD")) p name m size c = Some (r1, e) /\
      serve (with_method q (B"GET")) p name m size c = Some (r2, e) /\
      p_status r1 = p_status r2 /\ p_hdr r1 = p_hdr r2 /\
      (e = SOk -> p_body r1 = p_body p).
  Proof.
    intros q p name m size c. unfold serve_content.
    set (p0 := set_last_modified fmt_time m p).
    assert (Eq : check_preconditions time_parse (with_method q (B"HEAD")) p0 m
                 = check_preconditions time_parse (with_method q (B"GET")) p0 m) by reflexivity.
    rewrite Eq. destruct (C56_preconditions_terminate time_parse (with_method q (B"GET")) p0 m) as ([[p1 done] rr] & Pre).
    rewrite Pre.
    assert (Hb : p_body p1 = p_body p).
    { rewrite <- (slm_body m p). fold p0. clear - Pre. unfold check_preconditions in Pre.
      repeat match type of Pre with
      | None = Some _ => discriminate
      | Some (_, _, _) = Some _ => injection Pre as <- _ _; unfold write_not_modified;
           repeat match goal with |- context [if ?b then _ else _] => destruct b end; reflexivity
      | context [match ?x with _ => _ end] => destruct x
      end. }
    destruct done.
    { exists p1, p1, SOk. repeat split; try reflexivity. intros _. exact Hb. }
    change (hpeek (q_hdr (with_method q (B"HEAD"))) (B"Content-Type")) with (hpeek (q_hdr q) (B"Content-Type")).
    change (hpeek (q_hdr (with_method q (B"GET"))) (B"Content-Type")) with (hpeek (q_hdr q) (B"Content-Type")).
    assert (Ty : exists y, (if is_empty (hpeek (q_hdr q) (B"Content-Type")) then
            if is_empty (mime_type (file_ext name)) then
              match detect_content_type (firstn 512 (c_data c)) with
              | Panic => None
              | Ok ct =>
                  if c_seek c 0 then Some (inl (ct, hset (B"Content-Type") ct p1))
                  else Some (inr (error_reply p1 (B"seeker can't seek") 500))
              end
            else Some (inl (mime_type (file_ext name), hset (B"Content-Type") (mime_type (file_ext name)) p1))
          else Some (inl (hpeek (q_hdr q) (B"Content-Type"), p1))) = Some y /\
          (forall ct p2, y = inl (ct, p2) -> p_body p2 = p_body p)).
    { destruct (C57_total (firstn 512 (c_data c))) as (ct & -> & _).
      repeat match goal with |- context [if ?b then _ else _] => destruct b end; eexists; (split; [reflexivity|]);
        intros ct' p2 X; try discriminate; injection X as <- <-; exact Hb. }
    destruct Ty as (y & -> & Hy). destruct y as [[ct p2]|p2].
    2:{ exists p2, p2, SSeek. repeat split; try reflexivity. discriminate. }
    specialize (Hy ct p2 eq_refl).
    assert (Fin : forall p3 rg code n src, p_body p3 = p_body p ->
       exists r1 r2 e, Some (finish (with_method q (B"HEAD")) p3 rg code n src, SOk) = Some (r1, e) /\
          Some (finish (with_method q (B"GET")) p3 rg code n src, SOk) = Some (r2, e) /\
          p_status r1 = p_status r2 /\ p_hdr r1 = p_hdr r2 /\ (e = SOk -> p_body r1 = p_body p)).
    { intros p3 rg code n src H3. do 3 eexists. split; [reflexivity|]. split; [reflexivity|].
      unfold finish. cbn [with_method q_method].
      change (beq (B"HEAD") (B"HEAD")) with true. change (beq (B"GET") (B"HEAD")) with false. cbv iota.
      repeat match goal with |- context [if ?b then _ else _] => destruct b end;
      cbn [append_body set_status hset p_status p_hdr p_body]; auto. }
    assert (Er : forall (r : sresp) e, e <> SOk ->
       exists r1 r2 e', Some (r, e) = Some (r1, e') /\ Some (r, e) = Some (r2, e') /\
         p_status r1 = p_status r2 /\ p_hdr r1 = p_hdr r2 /\ (e' = SOk -> p_body r1 = p_body p)).
    { intros r e He. exists r, r, e. repeat split; try reflexivity. intros; contradiction. }
    destruct size as [size|]; [|apply Er; discriminate].
    destruct (size <? 0); [apply Fin; exact Hy|].
    destruct (parse_range rr size) as [rs|e]; [|apply Er; discriminate].
    destruct (size <? sum_ranges rs); [apply Fin; exact Hy|].
    destruct rs as [|ra [|rb rs]]; [apply Fin; exact Hy| |apply Fin; exact Hy].
    destruct (c_seek c (r_start ra)); [apply Fin; exact Hy|apply Er; discriminate].
  Qed.

  (** ** C83: serveContent always returns *)
  Theorem C83_total : forall q p name m size c, exists r e, serve q p name m size c = Some (r, e).
  Proof.
    intros q p name m size c. unfold serve_content.
    destruct (C56_preconditions_terminate time_parse q (set_last_modified fmt_time m p) m) as ([[p1 done] rr] & ->).
    destruct (C57_total (firstn 512 (c_data c))) as (ct & -> & _).
    repeat match goal with
    | |- exists r e, Some (?x, ?y) = Some (r, e) => exists x, y; reflexivity
    | |- context [if ?b then _ else _] => destruct b
    | |- context [match ?x with _ => _ end] => destruct x
    end.
  Qed.

  (** ** C52: 416 *)
  Lemma error_reply_facts p text code :
    let r := error_reply p text code in
    p_status r = code /\ p_body r = p_body p ++ text /\
    (forall k, k <> B"Content-Type" -> k <> B"X-Content-Type-Options" -> rhdr r k = rhdr p k).
  Proof.
    unfold error_reply. cbv zeta. split; [reflexivity|]. split; [reflexivity|]. intros k K1 K2.
    rewrite rhdr_body, rhdr_status, !rhdr_set, (proj2 (beq_neq _ _) K1), (proj2 (beq_neq _ _) K2). reflexivity.
  Qed.
  (** specs that select nothing *)
  Theorem C52_no_overlap : forall q p name m c os t,
    proceeds q p m -> seekable c -> size_of c < two63 ->
    range_asked q p m (B"bytes=" ++ t) -> range_list os t ->
    specs os <> [] -> selected (size_of c) (specs os) = [] ->
    exists r e, serve q p name m (Some (size_of c)) c = Some (r, e) /\ e <> SOk /\
      p_status r = 416 /\ rhdr r (B"Content-Range") = B"bytes */" ++ fmt_int (size_of c) /\
      p_body r = p_body p ++ B"invalid range: failed to overlap".
  Proof.
    intros q p name m c os t G Sk Hs Ra Rl Ne Se.
    assert (Hs0 : 0 <= size_of c) by (unfold size_of; lia).
    destruct (serve_go q p name m c _ G (or_introl Ra) Sk) as (p1 & ct & (S1 & S2 & _) & _ & E). rewrite (E _ Hs0).
    destruct (C49_range_specs os t (size_of c) ltac:(lia) Rl) as [_ K]. rewrite (K (conj Se Ne)).
    set (p2 := hset _ _ p1). destruct (error_reply_facts p2 (rerr_text RNoOverlap) 416) as (F1 & F2 & F3). cbv zeta in *.
    eexists _, _. split; [reflexivity|]. split; [discriminate|]. split; [exact F1|].
    split; [rewrite F3 by discriminate; unfold p2; rewrite rhdr_set, beq_refl; reflexivity|].
    rewrite F2. unfold p2. cbn [hset p_body]. rewrite S1. reflexivity.
  Qed.
  (** a header that is not even a loosely spelled list (S_Range) *)
  Theorem C52_malformed : forall q p name m c v,
    proceeds q p m -> seekable c -> size_of c < two63 ->
    range_asked q p m v -> v <> [] ->
    (forall os t, v = B"bytes=" ++ t -> ~ loose_list (size_of c) os t) ->
    exists r e, serve q p name m (Some (size_of c)) c = Some (r, e) /\ e <> SOk /\
      p_status r = 416 /\ p_body r = p_body p ++ B"invalid range" /\
      rhdr r (B"Content-Range") = rhdr p (B"Content-Range").
  Proof.
    intros q p name m c v G Sk Hs Ra Ne Bad.
    assert (Hs0 : 0 <= size_of c) by (unfold size_of; lia).
    destruct (serve_go q p name m c _ G (or_introl Ra) Sk) as (p1 & ct & (S1 & S2 & _) & _ & E). rewrite (E _ Hs0).
    assert (P : parse_range v (size_of c) = inr RInvalid).
    { destruct (strip_prefix (B"bytes=") v) as [t|] eqn:Sp.
      - apply strip_prefix_inv in Sp. subst v. apply (C80_every_header t (size_of c) ltac:(lia)).
        intros os. exact (Bad os t eq_refl).
      - apply C49_other_units_rejected; [exact Ne|]. intros (t & ->). rewrite strip_bytes in Sp. discriminate. }
    rewrite P.
    destruct (error_reply_facts p1 (rerr_text RInvalid) 416) as (F1 & F2 & F3). cbv zeta in *.
    eexists _, _. split; [reflexivity|]. split; [discriminate|]. split; [exact F1|]. split.
    - rewrite F2, S1. reflexivity.
    - rewrite F3 by discriminate. apply S2; discriminate.
  Qed.

  (** ** C53: several ranges *)
  (** both specification relations determine their last argument *)
  Lemma app_same_length {A} (u v u' v' : list A) : length u = length u' -> u ++ v = u' ++ v' -> u = u' /\ v = v'.
  Proof.
    revert u'; induction u as [|x u IH]; intros [|y u'] L E; try discriminate; [auto|].
    cbn [app] in E. injection E as -> E. destruct (IH u' ltac:(injection L; auto) E) as [-> ->]. auto.
  Qed.
  Lemma bytes_at_det data a n x y : bytes_at data a n x -> bytes_at data a n y -> x = y.
  Proof.
    intros (u & v & -> & Lu & Lx) (u' & v' & E & Lu' & Ly).
    apply app_same_length in E as [_ E]; [|lia]. apply app_same_length in E as [E _]; [exact E|lia].
  Qed.
  Lemma multipart_det b ct data size rs : forall x, multipart b ct data size rs x ->
    forall y, multipart b ct data size rs y -> x = y.
  Proof.
    induction 1 as [|a n rs chunk rest Hc Hr IH]; intros y Hy; inversion Hy as [|a' n' rs' chunk' rest' Hc' Hr']; subst; [reflexivity|].
    rewrite (IH _ Hr'), (bytes_at_det _ _ _ _ _ Hc Hc'). reflexivity.
  Qed.
  Definition within (size : Z) (l : list (Z * Z)) : Prop :=
    Forall (fun r => 0 <= fst r /\ 0 <= snd r /\ fst r + snd r <= size) l.
  Lemma pipe_multipart ct c l : seekable c -> size_of c < two63 -> within (size_of c) l ->
    exists x, multipart b2 ct (c_data c) (size_of c) l x /\
      pipe_bytes b2 false (map to_range l) ct (size_of c) c = eol ++ x /\
      (l <> [] -> pipe_bytes b2 true (map to_range l) ct (size_of c) c = x).
  Proof.
    intros [Sk _] Hs W. induction W as [|[a n] l (H1 & H2 & H3) W IH].
    - exists (B"--" ++ b2 ++ B"--" ++ eol). split; [apply MP_end|]. split; [reflexivity|congruence].
    - cbn [fst snd] in *. destruct IH as (x & Mx & Px & _).
      set (chunk := firstn (Z.to_nat n) (skipn (Z.to_nat a) (c_data c))).
      assert (Bc : bytes_at (c_data c) a n chunk) by (apply bytes_at_sub; [lia|lia|exact H3]).
      exists (part_head b2 ct a n (size_of c) ++ chunk ++ eol ++ x). split; [apply MP_part; assumption|].
      assert (T : forall first, pipe_bytes b2 first (map to_range ((a, n) :: l)) ct (size_of c) c =
                (if first then [] else eol) ++ part_head b2 ct a n (size_of c) ++ chunk ++ eol ++ x).
      { intros first. change (map to_range ((a, n) :: l)) with (HRange a n :: map to_range l).
        cbn [pipe_bytes r_start r_len]. rewrite Sk, Px. unfold read_n. fold chunk.
        assert (Lc : Z.of_nat (length chunk) = n) by (destruct Bc as (u & v & _ & _ & L); exact L).
        rewrite Lc, Z.ltb_irrefl. unfold create_part, part_head. rewrite content_range_ok by lia.
        destruct first; cbn [app]; rewrite <- ?app_assoc; cbn [app]; rewrite <- ?app_assoc; reflexivity. }
      split; [apply (T false)|intros _; apply (T true)].
  Qed.
  (** counting: [mime_loop] adds up header bytes and range lengths separately *)
  Fixpoint heads_len (b : bytes) (first : bool) (l : list (Z * Z)) (ct : bytes) (size : Z) : Z :=
    match l with
    | [] => 0
    | r :: l' => Z.of_nat (length (create_part b first (to_range r) ct size)) + heads_len b false l' ct size
    end.
  Lemma heads_nonneg b l ct size : forall first, 0 <= heads_len b first l ct size.
  Proof. induction l as [|r l IH]; intros first; cbn [heads_len]; [lia|]. specialize (IH false). lia. Qed.
  Lemma mime_loop_ok b ct size l : Forall (fun r => 0 <= snd r) l -> forall first w enc, 0 <= w -> 0 <= enc ->
    w + heads_len b first l ct size < two63 -> enc + total l < two63 ->
    mime_loop b first (map to_range l) ct size w enc = (w + heads_len b first l ct size, enc + total l).
  Proof.
    induction 1 as [|r l Hr Hl IH]; intros first w enc Hw He L1 L2.
    - unfold total. cbn [map mime_loop heads_len fold_right]. f_equal; lia.
    - cbn [map mime_loop heads_len] in *. change (total (r :: l)) with (snd r + total l) in *.
      pose proof (heads_nonneg b l ct size false). pose proof (total_nonneg l Hl).
      unfold count_write. change (r_len (to_range r)) with (snd r).
      rewrite !wrap64_id by (unfold int64, two63 in *; lia).
      rewrite IH by lia. f_equal; lia.
  Qed.
  Lemma heads_len_boundary b b' ct size l : length b = length b' -> forall first,
    heads_len b first l ct size = heads_len b' first l ct size.
  Proof.
    intros L. induction l as [|r l IH]; intros first; cbn [heads_len]; [reflexivity|]. rewrite IH. f_equal.
    unfold create_part. destruct first; rewrite !app_length, L; reflexivity.
  Qed.
  Lemma multipart_len ct c l x first : seekable c -> size_of c < two63 -> within (size_of c) l ->
    pipe_bytes b2 first (map to_range l) ct (size_of c) c = x ->
    Z.of_nat (length x) = heads_len b2 first l ct (size_of c) + total l + Z.of_nat (length (close_mw b2)).
  Proof.
    intros [Sk _] Hs W <-. revert first. induction W as [|[a n] l (H1 & H2 & H3) W IH]; intros first.
    - cbn [map pipe_bytes heads_len]. unfold total; cbn [fold_right]. lia.
    - cbn [fst snd] in *. change (map to_range ((a, n) :: l)) with (HRange a n :: map to_range l).
      cbn [pipe_bytes r_start r_len heads_len]. rewrite Sk. unfold read_n.
      set (chunk := firstn (Z.to_nat n) (skipn (Z.to_nat a) (c_data c))).
      assert (Lc : Z.of_nat (length chunk) = n).
      { destruct (bytes_at_sub (c_data c) a n H1 H2 H3) as (u & v & _ & _ & L). exact L. }
      rewrite Lc, Z.ltb_irrefl. rewrite !app_length, !Nat2Z.inj_add, IH, Lc.
      change (total ((a, n) :: l)) with (n + total l). change (to_range (a, n)) with (HRange a n). lia.
  Qed.
  Theorem C53_multi_range : forall q p name m c os t ct,
    proceeds q p m -> seekable c -> size_of c < two63 -> q_method q <> B"HEAD" ->
    length b1 = length b2 ->             (* boundaries are random strings of a fixed length *)
    range_asked q p m (B"bytes=" ++ t) -> range_list os t ->
    chosen_type q name c ct ->
    (2 <= length (selected (size_of c) (specs os)))%nat ->
    total (selected (size_of c) (specs os)) <= size_of c ->
    exists body, multipart b2 ct (c_data c) (size_of c) (selected (size_of c) (specs os)) body /\
      (Z.of_nat (length body) < two63 ->
       exists r, serve q p name m (Some (size_of c)) c = Some (r, SOk) /\
         p_status r = 206 /\ p_body r = p_body p ++ body /\
         (rhdr p (B"Content-Encoding") = [] -> rhdr r (B"Content-Length") = fmt_int (Z.of_nat (length body))) /\
         rhdr r (B"Content-Type") = B"multipart/byteranges; boundary=" ++ b2).
  Proof.
    intros q p name m c os t ct G Sk Hs Hm Lb Ra Rl Ct Two Tot.
    assert (Hs0 : 0 <= size_of c) by (unfold size_of; lia).
    pose proof (selected_bounds _ _ (size_of c) Rl Hs0) as W.
    set (l := selected (size_of c) (specs os)) in *.
    destruct (pipe_multipart ct c l Sk Hs W) as (body & Mb & _ & Pb).
    assert (Nl : l <> []) by (intros X; rewrite X in Two; cbn [length] in Two; lia). specialize (Pb Nl).
    exists body. split; [exact Mb|]. intros Lbody.
    destruct (serve_go q p name m c _ G (or_introl Ra) Sk) as (p1 & ct' & (S1 & S2 & _) & Ct' & E). rewrite (E _ Hs0).
    pose proof (chosen_unique _ _ _ _ _ Ct' Ct) as ->.
    destruct (C49_range_specs os t (size_of c) ltac:(lia) Rl) as [K _].
    destruct K as (rs & P & M). { left. exact Nl. }
    fold l in M. rewrite P. apply ranges_of in M. subst rs.
    assert (Nn : Forall (fun r : Z * Z => 0 <= snd r) l) by (eapply Forall_impl; [|exact W]; cbn beta; intros; lia).
    rewrite sum_total; [|exact Nn|lia]. rewrite (proj2 (Z.ltb_ge _ _)) by lia.
    assert (Sz : ranges_mime_size b1 (map to_range l) ct (size_of c) = Z.of_nat (length body)).
    { unfold ranges_mime_size. pose proof (multipart_len ct c l body true Sk Hs W Pb) as Lm.
      pose proof (heads_nonneg b1 l ct (size_of c) true). pose proof (total_nonneg l Nn).
      rewrite <- (heads_len_boundary b1 b2 ct (size_of c) l Lb true) in Lm.
      assert (Lc : length (close_mw b1) = length (close_mw b2)) by (unfold close_mw; rewrite !app_length, Lb; reflexivity).
      rewrite mime_loop_ok by (try exact Nn; lia). unfold count_write. rewrite Lc.
      rewrite !wrap64_id by (rewrite ?wrap64_id; unfold int64, two63 in *; lia). lia. }
    assert (Lr : (2 <= length (map to_range l))%nat) by (rewrite map_length; exact Two).
    destruct (map to_range l) as [|r1 [|r2 rs]]; [cbn [length] in Lr; lia|cbn [length] in Lr; lia|].
    cbv zeta. rewrite Sz, Pb. set (p2 := hset (B"Content-Type") _ p1).
    destruct (finish_facts q p2 206 (Z.of_nat (length body)) body) as (F1 & F2 & F3 & F4 & F5). cbv zeta in *.
    eexists. split; [reflexivity|]. split; [exact F1|]. split; [|split].
    - rewrite F2, (proj2 (beq_neq _ _) Hm), Nat2Z.id, firstn_all. unfold p2. cbn [hset p_body]. rewrite S1. reflexivity.
    - intros Ce. apply F4. unfold p2. rewrite rhdr_set. rewrite S2 by discriminate. exact Ce.
    - rewrite F5 by discriminate. unfold p2. rewrite rhdr_set, beq_refl. reflexivity.
  Qed.
End Content.

Notation go tp q p m := (proceeds tp q p m).
(** ** C58: a Content-Type the caller has set *)
Definition C58_claim : Prop := forall time_parse fmt_time mime_type b1 b2 q p name m c r,
  rhdr p (B"Content-Type") <> [] ->
  serve_content_seek time_parse fmt_time mime_type b1 b2 q p name m c = Some (r, SOk) -> p_status r = 200 ->
  rhdr r (B"Content-Type") = rhdr p (B"Content-Type").
(** the request, not the response, is asked for a Content-Type *)
Theorem C58_content_type_refuted : ~ C58_claim.
Proof.
  intros H.
  specialize (H (fun _ _ => None) (fun _ => []) (fun _ => []) [] [] (SReq (B"GET") (B"/") [])
    (SResp 200 [(B"Content-Type", B"application/json")] []) (B"x") zero_time (Content (B"{}") (fun _ => true) true)).
  cbv beta in H. specialize (H _ ltac:(discriminate) ltac:(vm_compute; reflexivity) eq_refl).
  vm_compute in H. discriminate.
Qed.
(** Proved: the response's Content-Type is kept in a 200 or single-range answer if the request
    carries a Content-Type itself.  Missing: requests without one, which is the usual case. *)
Theorem C58_content_type_partial : forall time_parse fmt_time mime_type b1 b2 q p name m c r,
  hdr q (B"Content-Type") <> [] ->
  serve_content_seek time_parse fmt_time mime_type b1 b2 q p name m c = Some (r, SOk) ->
  p_status r = 200 ->
  rhdr r (B"Content-Type") = rhdr p (B"Content-Type").
Proof.
  intros tp ft mt b1 b2 q p name m c r Hq H Hst. unfold serve_content_seek, serve_content in H.
  destruct (check_preconditions tp q (set_last_modified ft m p) m) as [[[p1 done] rr]|] eqn:Pre; [|discriminate].
  assert (P1 : (done = true -> p_status p1 <> 200) /\ (done = false -> p1 = set_last_modified ft m p)).
  { clear - Pre. unfold check_preconditions in Pre.
      repeat match type of Pre with
      | None = Some _ => discriminate
      | Some (_, _, _) = Some _ => injection Pre as <- <- _; split; intros; try discriminate; try reflexivity
      | context [match ?x with _ => _ end] => destruct x
      end. }
  destruct done.
  { injection H as <-. exfalso. exact (proj1 P1 eq_refl Hst). }
  rewrite (proj2 P1 eq_refl) in H. fold (hdr q (B"Content-Type")) in H. rewrite (nonempty_is _ Hq) in H.
  assert (Fin : forall rg code n src, rhdr (finish q (set_last_modified ft m p) rg code n src) (B"Content-Type") = rhdr p (B"Content-Type")).
  { intros. rewrite <- (slm_other ft m p (B"Content-Type") eq_refl). unfold finish.
    repeat match goal with |- context [if ?b then _ else _] => destruct b end;
      rewrite ?rhdr_body, ?rhdr_status, ?rhdr_set; reflexivity. }
  destruct (if c_seek_end c && c_seek c 0 then _ else _) as [size|]; [|discriminate].
  destruct (size <? 0); [injection H as <-; apply Fin|].
  destruct (parse_range rr size) as [rs|]; [|discriminate].
  assert (F6 : forall q p rg n src, p_status (finish q p rg 206 n src) = 200 -> False).
  { intros q0 p0 rg n src. unfold finish. cbn.
    repeat match goal with |- context [if ?b then _ else _] => destruct b end; cbn; discriminate. }
  destruct (if size <? sum_ranges rs then [] else rs) as [|ra [|rb rs']].
  - injection H as <-. apply Fin.
  - destruct (c_seek c (r_start ra)); [|discriminate]. injection H as <-. exfalso. exact (F6 _ _ _ _ _ Hst).
  - injection H as <-. exfalso. exact (F6 _ _ _ _ _ Hst).
Qed.

(** ** C79: a 206 response carries content *)
Definition C79_claim : Prop := forall time_parse fmt_time mime_type b1 b2 q p name m c r,
  q_method q = B"GET" -> (forall a, c_seek c a = true) -> c_seek_end c = true ->
  serve_content_seek time_parse fmt_time mime_type b1 b2 q p name m c = Some (r, SOk) -> p_status r = 206 ->
  exists x part y a n, p_body r = x ++ part ++ y /\ part <> [] /\ bytes_at (c_data c) a n part.
Theorem C79_partial_content_refuted : ~ C79_claim.
Proof.
  intros H.
  specialize (H (fun _ _ => None) (fun _ => []) (fun _ => []) [] [] (SReq (B"GET") (B"/") [(B"Range", B"bytes=-0")])
    (SResp 200 [] []) (B"x") zero_time (Content (B"{}") (fun _ => true) true)).
  cbv beta in H. specialize (H _ eq_refl (fun _ => eq_refl) eq_refl ltac:(vm_compute; reflexivity) eq_refl).
  destruct H as (x & part & y & a & n & E & Np & _). cbn [p_body] in E.
  destruct x; [|discriminate]. destruct part; [congruence|discriminate].
Qed.
(** Proved: a single satisfiable range of a well-formed Range header other than a suffix of
    length zero yields at least one byte.  Missing: "-0" suffixes, and specs on empty contents
    (only a suffix can be satisfied there). *)
Theorem C79_partial_content_partial : forall time_parse fmt_time mime_type b1 b2 q p name m c os t a n,
  go time_parse q p m -> seekable c -> size_of c < two63 -> q_method q <> B"HEAD" ->
  range_asked time_parse q p m (B"bytes=" ++ t) -> range_list os t ->
  selected (size_of c) (specs os) = [(a, n)] ->
  ~ In (Suffix 0) (specs os) -> c_data c <> [] ->
  exists r part, serve_content time_parse fmt_time mime_type b1 b2 q p name m (Some (size_of c)) c = Some (r, SOk) /\
    p_status r = 206 /\ p_body r = p_body p ++ part /\ part <> [] /\ bytes_at (c_data c) a n part.
Proof.
  intros tp ft mt b1 b2 q p name m c os t a n G Sk Hs Hm Ra Rl Sel N0 Nd.
  destruct (C50_single_range tp ft mt b1 b2 q p name m c os t a n G Sk Hs Hm Ra Rl Sel) as (r & part & E & St & Ba & Bd & _).
  exists r, part. split; [exact E|]. split; [exact St|]. split; [exact Bd|]. split; [|exact Ba].
  assert (Hn : 0 < n).
  { assert (Sz : 0 < size_of c) by (unfold size_of; destruct (c_data c); [congruence|cbn [length]; lia]).
    assert (W : forall sp, In sp (specs os) -> exists s, written sp s).
    { clear - Rl. induction Rl as [o s El|o s os t El R IH]; intros sp I.
      - destruct o as [sp'|]; cbn [specs] in I; [|contradiction]. destruct I as [<-|[]]. exists s. exact El.
      - destruct o as [sp'|]; cbn [specs] in I; [|auto]. destruct I as [<-|I]; [exists s; exact El|auto]. }
    assert (X : exists sp, In sp (specs os) /\ selects (size_of c) sp = Some (a, n)).
    { clear - Sel. revert Sel. generalize (specs os) as l. induction l as [|sp l IH]; cbn [selected]; [discriminate|].
      destruct (selects (size_of c) sp) as [z|] eqn:S0.
      - intros E. injection E as -> _. exists sp. split; [left; reflexivity|exact S0].
      - intros E. destruct (IH E) as (sp' & I & S1). exists sp'. split; [right; exact I|exact S1]. }
    destruct X as (sp & I & S0). destruct (W sp I) as (s & Ws). destruct (written_bounds _ _ Ws) as (W1 & W2 & W3).
    destruct sp as [x y|x|x]; cbn [selects] in S0.
    - specialize (W1 x y eq_refl). destruct (Z.ltb_spec x (size_of c)); [|discriminate]. injection S0 as <- <-. lia.
    - specialize (W2 x eq_refl). destruct (Z.ltb_spec x (size_of c)); [|discriminate]. injection S0 as <- <-. lia.
    - specialize (W3 x eq_refl). assert (x <> 0) by (intros ->; contradiction). injection S0 as <- <-. lia. }
  intros ->. destruct Ba as (u & v & _ & _ & L). cbn [length] in L. lia.
Qed.

(** ** The hypotheses are met *)
Definition ex_c : content := Content (B"0123456789") (fun _ => true) true.
Definition ex_q (rng : bytes) : sreq := SReq (B"GET") (B"/f") [(B"Range", rng)].
Definition ex_p : sresp := SResp 200 [(B"Etag", B"""v1""")] [].
Lemma ex_proceeds tp rng m : go tp (ex_q rng) ex_p m.
Proof.
  unfold proceeds, step1_fails, step2_fails, step3_fails, step4_fails.
  split; [intros [X _]; apply X; reflexivity|]. split; [intros (_ & _ & X & _); apply X; reflexivity|].
  split; [intros [X _]; apply X; reflexivity|intros (_ & _ & _ & X & _); apply X; reflexivity].
Qed.
Lemma ex_asked tp rng m : range_asked tp (ex_q rng) ex_p m rng.
Proof. split; [reflexivity|]. intros (_ & X & _). apply X. reflexivity. Qed.
Lemma ex_seekable : seekable ex_c. Proof. split; reflexivity. Qed.
Lemma ex_num n s : s <> [] -> digits_val 0 s = Some n -> n < two63 -> numeral n s.
Proof. intros; split; [assumption|split; assumption]. Qed.
Example C50_example : forall tp ft mt,
  go tp (ex_q (B"bytes=7-20")) ex_p 5 /\ range_asked tp (ex_q (B"bytes=7-20")) ex_p 5 (B"bytes=" ++ B"7-20") /\
  range_list [Some (FromTo 7 20)] (B"7-20") /\ selected (size_of ex_c) (specs [Some (FromTo 7 20)]) = [(7, 3)] /\
  content_range_value 7 3 10 = B"bytes 7-9/10" /\
  match serve_content_seek tp ft mt [] [] (ex_q (B"bytes=7-20")) ex_p (B"f") 5 ex_c with
  | Some (r, SOk) => p_body r = B"789" | _ => False end.
Proof.
  intros tp ft mt. split; [apply ex_proceeds|]. split; [apply ex_asked|]. split.
  - apply RL1. apply (W_FromTo 7 20 (B"7") (B"20") [] [] [] []); try (apply ex_num; [discriminate|reflexivity|reflexivity]); try constructor; lia.
  - split; [reflexivity|]. split; [vm_compute; reflexivity|].
    unfold serve_content_seek, serve_content. cbn [ex_c c_seek_end c_seek c_data andb length].
    change (check_preconditions tp (ex_q (B"bytes=7-20")) (set_last_modified ft 5 ex_p) 5)
      with (Some (set_last_modified ft 5 ex_p, false, B"bytes=7-20")). cbv iota beta.
    change (hpeek (q_hdr (ex_q (B"bytes=7-20"))) (B"Content-Type")) with (@nil ascii). cbn [is_empty].
    destruct (is_empty (mt (file_ext (B"f")))); [|vm_compute; reflexivity].
    vm_compute. reflexivity.
Qed.
Example C53_example :
  range_list [Some (FromTo 1 2); Some (Suffix 1)] (B"1-2,-1") /\
  selected 10 (specs [Some (FromTo 1 2); Some (Suffix 1)]) = [(1, 2); (9, 1)] /\
  match serve_content_seek (fun _ _ => None) (fun _ => []) (fun _ => B"a/b") (B"xx") (B"yy")
          (ex_q (B"bytes=1-2,-1")) ex_p (B"f") 0 ex_c with
  | Some (r, SOk) =>
      p_body r = part_head (B"yy") (B"a/b") 1 2 10 ++ B"12" ++ eol ++
                 part_head (B"yy") (B"a/b") 9 1 10 ++ B"9" ++ eol ++ B"--yy--" ++ eol /\
      rhdr r (B"Content-Length") = fmt_int (Z.of_nat (length (p_body r)))
  | _ => False end.
Proof.
  split.
  - change (B"1-2,-1") with (B"1-2" ++ ","%char :: B"-1"). apply RLcons; [|apply RL1].
    + apply (W_FromTo 1 2 (B"1") (B"2") [] [] [] []); try (apply ex_num; [discriminate|reflexivity|reflexivity]); try constructor; lia.
    + apply (W_Suffix 1 (B"1") [] [] []); try (apply ex_num; [discriminate|reflexivity|reflexivity]); constructor.
  - split; [reflexivity|]. vm_compute. auto.
Qed.
Example C52_example :
  (match serve_content_seek (fun _ _ => None) (fun _ => []) (fun _ => []) [] [] (ex_q (B"bytes=10-")) ex_p (B"f") 0 ex_c with
   | Some (r, SRange RNoOverlap) => p_status r = 416 /\ rhdr r (B"Content-Range") = B"bytes */10" | _ => False end) /\
  range_list [Some (From_ 10)] (B"10-") /\ selected 10 [From_ 10] = [].
Proof.
  split; [vm_compute; auto|]. split; [|reflexivity]. apply RL1.
  apply (W_From 10 (B"10") [] [] []); try (apply ex_num; [discriminate|reflexivity|reflexivity]); constructor.
Qed.
Print Assumptions C50_single_range.
Print Assumptions C51_whole_content.
Print Assumptions C51_head.
Print Assumptions C52_no_overlap.
Print Assumptions C52_malformed.
Print Assumptions C53_multi_range.
Print Assumptions C58_content_type_refuted.
Print Assumptions C58_content_type_partial.
Print Assumptions C79_partial_content_refuted.
Print Assumptions C79_partial_content_partial.
Print Assumptions C83_total.
