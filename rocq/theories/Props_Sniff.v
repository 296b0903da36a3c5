(** C57, C81, C82: content sniffing. *)
From Verif Require Import Base GoStrings M_Text M_Sniff.
From Coq Require Import ZifyNat ZifyN.

Lemma index_ok s i : i < length s -> exists c, index s i = Ok c /\ nth_error s i = Some c.
Proof.
  intros H. unfold index. destruct (nth_error s i) as [c|] eqn:E; [eauto|].
  apply nth_error_None in E. lia.
Qed.
Lemma slice_ok s i j : i <= j -> j <= length s -> slice_ s i j = Ok (firstn (j - i) (skipn i s)).
Proof.
  intros H1 H2. unfold slice_. rewrite (proj2 (Nat.leb_le i j) H1), (proj2 (Nat.leb_le j _) H2). reflexivity.
Qed.
Lemma slice_tail s i : i <= length s -> slice_ s i (length s) = Ok (skipn i s).
Proof.
  intros H. rewrite slice_ok by lia. rewrite <- skipn_length, firstn_all. reflexivity.
Qed.
Lemma first_le data : first_non_ws data <= length data.
Proof. induction data as [|c d IH]; cbn; [lia|]. destruct (is_ws c); cbn; lia. Qed.

(** every match returns: nothing, or its own type *)
Definition sig_type (s : sig) : bytes :=
  match s with
  | SHtml _ => B"text/html; charset=utf-8"
  | SExact _ ct | SMasked _ _ _ ct => ct
  | SMp4 => B"video/mp4"
  | SQuick => B"video/quicktime"
  | SText => B"text/plain; charset=utf-8"
  end.
Lemma masked_ok data mask ct : forall pat i, i + length pat <= length data -> i + length pat <= length mask ->
  masked_loop data mask i pat ct = Ok [] \/ masked_loop data mask i pat ct = Ok ct.
Proof.
  induction pat as [|pb pat IH]; intros i H1 H2; cbn [masked_loop]; [right; reflexivity|]. cbn [length] in *.
  destruct (index_ok data i ltac:(lia)) as (d & -> & _). destruct (index_ok mask i ltac:(lia)) as (m & -> & _). cbn [bind].
  destruct (_ =? _)%N; [|left; reflexivity]. apply IH; lia.
Qed.
Lemma html_ok data : forall h i, i + length h <= length data -> exists b, html_loop data i h = Ok b.
Proof.
  induction h as [|b h IH]; intros i H; cbn [html_loop]; [eauto|]. cbn [length] in *.
  destruct (index_ok data i ltac:(lia)) as (d & -> & _). cbn [bind]. cbv zeta.
  destruct (_ =? _)%N; [apply IH; lia|eauto].
Qed.
Lemma brand_ok data brand ct box : length brand <= 4 -> box <= length data -> (exists k, box = 4 * k) ->
  forall fuel st, (exists k, st = 4 * k) -> box <= st + 4 * fuel ->
  brand_loop fuel data brand st box ct = Ok [] \/ brand_loop fuel data brand st box ct = Ok ct.
Proof.
  intros Hb Hl (kb & Kb). induction fuel as [|f IH]; intros st (ks & Ks) Hf; cbn [brand_loop];
    destruct (Nat.ltb_spec st box) as [L|L]; try (left; reflexivity); [lia|].
  assert (N : exists k, st + 4 = 4 * k) by (exists (S ks); lia).
  destruct (st =? 12); [apply IH; [exact N|lia]|].
  rewrite slice_ok by lia. cbn [bind]. destruct (beq _ brand); [right; reflexivity|]. apply IH; [exact N|lia].
Qed.
Lemma be32_ok s : 4 <= length s -> exists n, be32 s = Ok n.
Proof. destruct s as [|a [|b [|c [|d s]]]]; cbn [length]; intros H; try lia. eexists. reflexivity. Qed.
Lemma ftyp_ok brand ct data : length brand <= 4 ->
  match_ftyp brand ct data = Ok [] \/ match_ftyp brand ct data = Ok ct.
Proof.
  intros Hb. unfold match_ftyp. destruct (Nat.ltb_spec (length data) 12) as [L|L]; [left; reflexivity|].
  rewrite (slice_ok data 0 4) by lia. cbn [bind].
  destruct (be32_ok (firstn (4 - 0) (skipn 0 data))) as (n & ->).
  { rewrite firstn_length, skipn_length. lia. }
  cbn [bind]. destruct (N.ltb_spec (N.of_nat (length data)) n) as [K|K]; cbn [orb]; [left; reflexivity|].
  destruct (N.eqb_spec (n mod 4) 0) as [M|M]; cbn [negb]; [|left; reflexivity].
  rewrite (slice_ok data 4 8) by lia. cbn [bind]. destruct (negb _); [left; reflexivity|].
  assert (D : N.to_nat n = 4 * N.to_nat (n / 4)).
  { pose proof (N.div_mod n 4 ltac:(lia)). lia. }
  apply brand_ok; [exact Hb|lia|eexists; exact D|exists 2; reflexivity|lia].
Qed.
Lemma match_ok s data first : first <= length data ->
  match_sig s data first = Ok [] \/ match_sig s data first = Ok (sig_type s).
Proof.
  intros Hf. destruct s as [h|s ct|mask pat skip ct| | |]; cbn [match_sig sig_type].
  - unfold match_html. rewrite slice_tail by exact Hf. cbn [bind].
    destruct (Nat.ltb_spec (length (skipn first data)) (length h + 1)) as [L|L]; [left; reflexivity|].
    destruct (html_ok (skipn first data) h 0 ltac:(lia)) as ([|] & ->); cbn [bind negb]; [|left; reflexivity].
    destruct (index_ok (skipn first data) (length h) ltac:(lia)) as (c & -> & _). cbn [bind].
    destruct (is_tt c); [right|left]; reflexivity.
  - unfold match_exact. destruct (has_prefix data s); [right|left]; reflexivity.
  - unfold match_masked.
    match goal with |- bind ?x ?f = _ \/ _ => assert (E : exists d, x = Ok d) end.
    { destruct skip; [rewrite slice_tail by exact Hf|]; eexists; reflexivity. }
    destruct E as (d & E). rewrite E. cbn [bind]. clear E.
    destruct (Nat.eqb_spec (length pat) (length mask)) as [E|E]; cbn [negb]; [|left; reflexivity].
    destruct (Nat.ltb_spec (length d) (length pat)) as [L|L]; [left; reflexivity|]. apply masked_ok; lia.
  - apply ftyp_ok. cbn. lia.
  - apply ftyp_ok. cbn. lia.
  - unfold match_text. rewrite slice_tail by exact Hf. cbn [bind]. destruct (existsb _ _); [left|right]; reflexivity.
Qed.
Lemma try_ok data first : first <= length data -> forall l, Forall (fun s => sig_type s <> []) l ->
  (try_sigs l data first = Ok (B"application/octet-stream") /\ Forall (fun s => match_sig s data first = Ok []) l) \/
  exists l1 s l2, l = l1 ++ s :: l2 /\ Forall (fun s => match_sig s data first = Ok []) l1 /\
    match_sig s data first = Ok (sig_type s) /\ try_sigs l data first = Ok (sig_type s).
Proof.
  intros Hf. induction l as [|s l IH]; intros F; cbn [try_sigs]; [left; split; [reflexivity|constructor]|].
  inversion F as [|? ? Hs Hl]; subst. destruct (match_ok s data first Hf) as [E|E]; rewrite E; cbn [bind].
  - cbn [is_empty]. destruct (IH Hl) as [[H1 H2]|(l1 & x & l2 & -> & H1 & H2 & H3)].
    + left. split; [exact H1|constructor; assumption].
    + right. exists (s :: l1), x, l2. split; [reflexivity|split; [constructor; assumption|split; assumption]].
  - apply is_empty_false in Hs. rewrite Hs. right. exists [], s, l. split; [reflexivity|split; [constructor|split; [exact E|reflexivity]]].
Qed.
Lemma sigs_nonempty : Forall (fun s => sig_type s <> []) signatures.
Proof. repeat constructor; discriminate. Qed.
Lemma detect_eq data : detect_content_type data = try_sigs signatures (firstn 512 data) (first_non_ws (firstn 512 data)).
Proof.
  unfold detect_content_type. destruct (Nat.ltb_spec 512 (length data)) as [L|L].
  - rewrite slice_ok by lia. reflexivity.
  - cbn [bind]. rewrite firstn_all2 by exact L. reflexivity.
Qed.

(** ** C57 *)
Definition known_types : list bytes :=
  [B"application/octet-stream"; B"text/html; charset=utf-8"; B"text/xml; charset=utf-8"; B"application/pdf";
   B"application/postscript"; B"text/plain; charset=utf-16be"; B"text/plain; charset=utf-16le";
   B"text/plain; charset=utf-8"; B"image/x-icon"; B"image/bmp"; B"image/gif"; B"image/webp"; B"image/png";
   B"image/jpeg"; B"audio/aiff"; B"audio/mpeg"; B"application/ogg"; B"audio/midi"; B"video/avi"; B"audio/wave";
   B"video/mp4"; B"video/quicktime"; B"video/webm"; B"application/vnd.ms-fontobject"; B"font/ttf"; B"font/otf";
   B"font/collection"; B"font/woff"; B"font/woff2"; B"application/x-gzip"; B"application/zip";
   B"application/x-rar-compressed"; B"application/wasm"].
Theorem C57_total : forall data, exists ct, detect_content_type data = Ok ct /\ In ct known_types.
Proof.
  intros data. rewrite detect_eq.
  destruct (try_ok (firstn 512 data) _ (first_le _) signatures sigs_nonempty) as [[-> _]|(l1 & s & l2 & El & _ & _ & ->)].
  - eexists. split; [reflexivity|left; reflexivity].
  - exists (sig_type s). split; [reflexivity|].
    assert (I : In s signatures) by (rewrite El; apply in_or_app; right; left; reflexivity).
    assert (All : forallb (fun s => existsb (beq (sig_type s)) known_types) signatures = true) by (vm_compute; reflexivity).
    rewrite forallb_forall in All. specialize (All s I). apply existsb_exists in All as (x & Hx & E).
    apply beq_eq in E. rewrite E. exact Hx.
Qed.
Theorem C57_first_512 : forall d1 d2, firstn 512 d1 = firstn 512 d2 ->
  detect_content_type d1 = detect_content_type d2.
Proof. intros d1 d2 E. rewrite !detect_eq, E. reflexivity. Qed.
Example C57_example :
  detect_content_type (bs [0; 0; 1; 244]%N ++ B"ftyp" ++ B"xxxx" ++ B"0000" ++ B"mp4") = Ok (B"application/octet-stream") /\
  detect_content_type (bs [0; 0; 0; 20]%N ++ B"ftyp" ++ B"isom" ++ B"mp4 " ++ B"mp41") = Ok (B"video/mp4").
Proof. split; vm_compute; reflexivity. Qed.

(** ** C81: HTML is recognised exactly *)
Definition html_tags : list bytes :=
  [B"<!DOCTYPE HTML"; B"<HTML"; B"<HEAD"; B"<SCRIPT"; B"<IFRAME"; B"<H1"; B"<DIV"; B"<FONT"; B"<TABLE"; B"<A";
   B"<STYLE"; B"<TITLE"; B"<B"; B"<BODY"; B"<BR"; B"<P"; B"<!--"].
(** the same text up to the case of ASCII letters *)
Definition same_ci (x y : bytes) : Prop := map lower_ascii x = map lower_ascii y.
Definition html_space (c : ascii) : Prop := In c [ch 9; ch 10; ch 12; ch 13; " "%char].
Definition html_start (d : bytes) : Prop :=
  exists w tag t c rest, d = w ++ t ++ c :: rest /\ Forall html_space w /\
    In tag html_tags /\ same_ci t tag /\ (c = " "%char \/ c = ">"%char).

Lemma is_ws_iff c : is_ws c = true <-> html_space c.
Proof.
  unfold is_ws, html_space. rewrite !orb_true_iff, !N.eqb_eq.
  assert (E : c = ch (bv c)) by (unfold ch, bv; rewrite ascii_N_embedding; reflexivity).
  split.
  - intros H. rewrite E. destruct H as [[[[H|H]|H]|H]|H]; rewrite H; cbn; auto 6.
  - intros [<-|[<-|[<-|[<-|[<-|[]]]]]]; cbn; auto 6.
Qed.
Lemma is_tt_iff c : is_tt c = true <-> c = " "%char \/ c = ">"%char.
Proof.
  unfold is_tt. rewrite orb_true_iff, !N.eqb_eq.
  assert (E : c = ch (bv c)) by (unfold ch, bv; rewrite ascii_N_embedding; reflexivity).
  split; [intros [H|H]; rewrite E, H; [left|right]; reflexivity|intros [->| ->]; auto].
Qed.
Lemma ascii_all (P : ascii -> bool) : forallb P (map ascii_of_nat (seq 0 256)) = true -> forall c, P c = true.
Proof.
  intros H c. rewrite forallb_forall in H. apply H. apply in_map_iff. exists (nat_of_ascii c).
  split; [apply ascii_nat_embedding|]. apply in_seq. pose proof (nat_ascii_bounded c). lia.
Qed.
(** comparing with a tag byte: upper-case letters are compared case-insensitively, the
    other tag bytes (< ! - 1 and blank) exactly; none is a lower-case letter *)
Definition tag_byte (b : ascii) : bool := negb (is_lower b) && (bv b <? 64)%N || is_upper b.
Lemma masked_case b : tag_byte b = true -> forall d,
  (bv b =? (if is_upper b then N.land (bv d) 223 else bv d))%N = Ascii.eqb (lower_ascii d) (lower_ascii b).
Proof.
  intros Hb d.
  assert (G : forall b, (negb (tag_byte b) || forallb (fun d => Bool.eqb (bv b =? (if is_upper b then N.land (bv d) 223 else bv d))%N
        (Ascii.eqb (lower_ascii d) (lower_ascii b))) (map ascii_of_nat (seq 0 256)))%bool = true).
  { apply ascii_all. vm_compute. reflexivity. }
  specialize (G b). rewrite Hb in G. cbn [negb orb] in G.
  apply Bool.eqb_prop. exact (ascii_all _ G d).
Qed.
Lemma tags_bytes : Forall (Forall (fun b => tag_byte b = true)) html_tags.
Proof. repeat (constructor; [repeat (constructor; [reflexivity|]); constructor|]); constructor. Qed.
Lemma nth_error_skipn {A} (s : list A) i : nth_error s i = hd_error (skipn i s).
Proof. revert s; induction i as [|i IH]; intros [|x s]; cbn; auto. Qed.
Lemma skipn_S {A} (s : list A) i x : nth_error s i = Some x -> skipn i s = x :: skipn (S i) s.
Proof. revert s; induction i as [|i IH]; intros [|y s] H; cbn in *; try discriminate; [congruence|]. rewrite IH by exact H. reflexivity. Qed.
Lemma html_loop_iff data : forall h i, Forall (fun b => tag_byte b = true) h -> i + length h <= length data ->
  (html_loop data i h = Ok true <-> same_ci (firstn (length h) (skipn i data)) h).
Proof.
  unfold same_ci. induction h as [|b h IH]; intros i F H; cbn [html_loop length firstn map]; [split; reflexivity|].
  inversion F as [|? ? Hb Fh]; subst. cbn [length] in H.
  destruct (index_ok data i ltac:(lia)) as (d & -> & En). cbn [bind]. cbv zeta. rewrite (skipn_S _ _ _ En). cbn [firstn map].
  rewrite (masked_case b Hb d). destruct (Ascii.eqb_spec (lower_ascii d) (lower_ascii b)) as [E|E].
  - rewrite E, (IH (S i) Fh ltac:(lia)). cbn [map]. split; [intros ->; reflexivity|intros X; injection X; auto].
  - split; [discriminate|]. intros X. injection X as X _. contradiction.
Qed.
Lemma first_split d : exists w, d = w ++ skipn (first_non_ws d) d /\ Forall html_space w /\
  forall c, hd_error (skipn (first_non_ws d) d) = Some c -> ~ html_space c.
Proof.
  induction d as [|c d (w & E & F & H)]; cbn [first_non_ws].
  - exists []. split; [reflexivity|split; [constructor|discriminate]].
  - destruct (is_ws c) eqn:Ec; cbn [skipn].
    + exists (c :: w). split; [cbn; congruence|]. split; [constructor; [apply is_ws_iff; exact Ec|exact F]|exact H].
    + exists []. split; [reflexivity|split; [constructor|]]. intros x Hx. injection Hx as <-.
      intros X. apply is_ws_iff in X. congruence.
Qed.
Lemma space_split w s d : d = w ++ s -> Forall html_space w -> (forall c, hd_error s = Some c -> ~ html_space c) ->
  skipn (first_non_ws d) d = s.
Proof.
  intros -> F H. induction F as [|c w Hc _ IH]; cbn [first_non_ws app].
  - destruct s as [|c s]; [reflexivity|]. cbn [first_non_ws]. destruct (is_ws c) eqn:E; [|reflexivity].
    exfalso. apply (H c eq_refl). apply is_ws_iff. exact E.
  - rewrite (proj2 (is_ws_iff c) Hc). exact IH.
Qed.
Lemma match_html_iff h data : Forall (fun b => tag_byte b = true) h ->
  (match_html h data (first_non_ws data) = Ok (B"text/html; charset=utf-8") <->
   exists t c rest, skipn (first_non_ws data) data = t ++ c :: rest /\ same_ci t h /\ (c = " "%char \/ c = ">"%char)).
Proof.
  intros F. unfold match_html. rewrite slice_tail by apply first_le. cbn [bind].
  set (d := skipn (first_non_ws data) data).
  assert (Len : forall t : bytes, same_ci t h -> length t = length h).
  { intros t X. apply (f_equal (@length _)) in X. rewrite !map_length in X. exact X. }
  destruct (Nat.ltb_spec (length d) (length h + 1)) as [L|L].
  - split; [discriminate|]. intros (t & c & rest & E & S & _). exfalso.
    apply Len in S. rewrite E, app_length in L. cbn [length] in L. lia.
  - destruct (html_ok d h 0 ltac:(lia)) as (b & Eb). pose proof (html_loop_iff d h 0 F ltac:(lia)) as I.
    rewrite Eb in I |- *. cbn [bind]. cbn [skipn] in I.
    destruct b; cbn [negb].
    + destruct (index_ok d (length h) ltac:(lia)) as (c & -> & En). cbn [bind].
      pose proof (is_tt_iff c) as TT. destruct (is_tt c).
      * split; [intros _|reflexivity]. exists (firstn (length h) d), c, (skipn (S (length h)) d). split; [|split].
        -- rewrite <- (firstn_skipn (length h) d) at 1. rewrite (skipn_S _ _ _ En). reflexivity.
        -- apply I. reflexivity.
        -- apply TT. reflexivity.
      * split; [discriminate|]. intros (t & c' & rest & E & S & Hc). exfalso. apply Len in S.
        rewrite E, nth_error_app2, S, Nat.sub_diag in En by lia. injection En as ->. apply TT in Hc. discriminate.
    + split; [discriminate|]. intros (t & c' & rest & E & S & Hc). exfalso.
      assert (X : Ok false = Ok true); [|discriminate]. apply I. rewrite E. pose proof (Len _ S) as Lt. rewrite <- Lt.
      rewrite firstn_app, Nat.sub_diag, firstn_all. cbn [firstn]. rewrite app_nil_r. exact S.
Qed.
Theorem C81_html_exact : forall data,
  detect_content_type data = Ok (B"text/html; charset=utf-8") <-> html_start (firstn 512 data).
Proof.
  intros data. rewrite detect_eq. set (d := firstn 512 data).
  assert (Split : signatures = map SHtml html_tags ++ skipn 17 signatures) by (vm_compute; reflexivity).
  assert (Other : forallb (fun s => negb (beq (sig_type s) (B"text/html; charset=utf-8"))) (skipn 17 signatures) = true)
    by (vm_compute; reflexivity).
  rewrite forallb_forall in Other.
  pose proof (try_ok d _ (first_le _) signatures sigs_nonempty) as T. split.
  - intros E. destruct T as [[E2 _]|(l1 & s & l2 & El & _ & M & E2)]; [rewrite E in E2; discriminate|].
    rewrite E in E2. injection E2 as E2.
    assert (I : In s signatures) by (rewrite El; apply in_or_app; right; left; reflexivity).
    rewrite Split in I. apply in_app_or in I as [I|I].
    2:{ specialize (Other s I). rewrite <- E2, beq_refl in Other. discriminate. }
    apply in_map_iff in I as (tag & <- & It). cbn [match_sig sig_type] in M.
    pose proof tags_bytes as TB. rewrite Forall_forall in TB. specialize (TB tag It).
    apply (match_html_iff tag d TB) in M as (t & c & rest & Ed & S & Hc).
    destruct (first_split d) as (w & Ew & Fw & _).
    exists w, tag, t, c, rest. rewrite <- Ed. repeat (split; [assumption|]). exact Hc.
  - intros (w & tag & t & c & rest & Ed & Fw & It & S & Hc).
    pose proof tags_bytes as TB. rewrite Forall_forall in TB. specialize (TB tag It).
    assert (Hd : forall x, hd_error (t ++ c :: rest) = Some x -> ~ html_space x).
    { intros x Hx. assert (L : lower_ascii x = "<"%char).
      { assert (TL : forallb (fun tg => match tg with b :: _ => Ascii.eqb b "<" | [] => false end) html_tags = true) by reflexivity.
        rewrite forallb_forall in TL. specialize (TL tag It). destruct tag as [|b tag]; [discriminate|].
        apply Ascii.eqb_eq in TL. subst b. destruct t as [|y t]; [discriminate|]. injection Hx as ->. unfold same_ci in S.
        cbn [map] in S. injection S as S _. exact S. }
      intros [<-|[<-|[<-|[<-|[<-|[]]]]]]; discriminate. }
    pose proof (space_split w (t ++ c :: rest) d Ed Fw Hd) as Es.
    assert (M : match_html tag d (first_non_ws d) = Ok (B"text/html; charset=utf-8")).
    { apply (match_html_iff tag d TB). exists t, c, rest. repeat (split; [assumption|]). exact Hc. }
    assert (Isg : In (SHtml tag) signatures) by (rewrite Split; apply in_or_app; left; apply in_map; exact It).
    destruct T as [[_ F]|(l1 & s & l2 & El & F1 & M2 & E2)].
    + exfalso. rewrite Forall_forall in F. specialize (F _ Isg). cbn [match_sig] in F. rewrite M in F. discriminate.
    + rewrite E2. f_equal.
      assert (Len : (forall x, In x l1 -> x <> SHtml tag)).
      { intros x Hx ->. rewrite Forall_forall in F1. specialize (F1 _ Hx). cbn [match_sig] in F1. rewrite M in F1. discriminate. }
      (* s is at or before the position of the tag, among the HTML signatures *)
      assert (Pre : exists r, map SHtml html_tags = l1 ++ s :: r).
      { rewrite El in Split. pose proof (in_map SHtml _ _ It) as Im.
        revert Split Len Im. generalize (skipn 17 (l1 ++ s :: l2)) as tl. intros tl. generalize (map SHtml html_tags) as hs. clear. induction l1 as [|x l1 IH]; intros hs Split Len Im.
        - destruct hs as [|h hs]; [destruct Im|]. cbn in Split. injection Split as -> _. exists hs. reflexivity.
        - destruct hs as [|h hs]; [destruct Im|]. cbn in Split. injection Split as -> Split.
          destruct (IH hs Split) as (r & ->).
          + intros y Hy. apply Len. right. exact Hy.
          + destruct Im as [Im|Im]; [exfalso; apply (Len h); [left; reflexivity|exact Im]|exact Im].
          + exists r. reflexivity. }
      destruct Pre as (r & Er). assert (Is : In s (map SHtml html_tags)) by (rewrite Er; apply in_or_app; right; left; reflexivity).
      apply in_map_iff in Is as (tg & <- & _). reflexivity.
Qed.
Example C81_example : html_start (B" <!doctype HtMl>x") /\
  detect_content_type (B" <!doctype HtMl>x") = Ok (B"text/html; charset=utf-8").
Proof.
  split; [|vm_compute; reflexivity]. exists (B" "), (B"<!DOCTYPE HTML"), (B"<!doctype HtMl"), ">"%char, (B"x").
  split; [reflexivity|]. split; [constructor; [right; right; right; right; left; reflexivity|constructor]|].
  split; [left; reflexivity|]. split; [reflexivity|right; reflexivity].
Qed.

(** ** C82: what is called plain text *)
(** bytes that no text contains: control bytes other than TAB, LF, FF, CR and ESC *)
Definition binary_byte (c : ascii) : Prop :=
  (bv c < 32 /\ bv c <> 9 /\ bv c <> 10 /\ bv c <> 12 /\ bv c <> 13 /\ bv c <> 27)%N.
Lemma is_binary_iff c : is_binary c = true <-> binary_byte c.
Proof.
  unfold is_binary, binary_byte.
  rewrite !orb_true_iff, !andb_true_iff, !N.leb_le, N.eqb_eq. lia.
Qed.
Definition utf8_bom : bytes := bs [239; 187; 191]%N.
Lemma ws_not_binary c : html_space c -> ~ binary_byte c.
Proof. unfold binary_byte. intros [<-|[<-|[<-|[<-|[<-|[]]]]]]; cbn; lia. Qed.
Theorem C82_plain_text : forall data,
  (detect_content_type data = Ok (B"text/plain; charset=utf-8") ->
     (exists rest, data = utf8_bom ++ rest) \/ Forall (fun c => ~ binary_byte c) (firstn 512 data)) /\
  (detect_content_type data = Ok (B"application/octet-stream") ->
     Exists binary_byte (firstn 512 data)).
Proof.
  intros data. rewrite detect_eq. set (d := firstn 512 data).
  assert (Txt : match_sig SText d (first_non_ws d) = Ok (B"text/plain; charset=utf-8") -> Forall (fun c => ~ binary_byte c) d).
  { cbn [match_sig]. unfold match_text. rewrite slice_tail by apply first_le. cbn [bind].
    destruct (existsb is_binary (skipn (first_non_ws d) d)) eqn:Ex; [discriminate|]. intros _.
    destruct (first_split d) as (w & E & F & _). rewrite E. apply Forall_app. split.
    - eapply Forall_impl; [|exact F]. apply ws_not_binary.
    - apply Forall_forall. intros c Hc X. apply is_binary_iff in X.
      assert (existsb is_binary (skipn (first_non_ws d) d) = true) by (apply existsb_exists; eauto). congruence. }
  pose proof (try_ok d _ (first_le _) signatures sigs_nonempty) as T. split; intros E.
  - destruct T as [[E2 _]|(l1 & s & l2 & El & _ & M & E2)]; [rewrite E in E2; discriminate|].
    rewrite E in E2. injection E2 as E2.
    assert (I : In s signatures) by (rewrite El; apply in_or_app; right; left; reflexivity).
    assert (Two : s = SText \/ s = SMasked (bs [255; 255; 255; 0]%N) (bs [239; 187; 191; 0]%N) false (B"text/plain; charset=utf-8")).
    { assert (FF : Forall (fun s => sig_type s = B"text/plain; charset=utf-8" ->
          s = SText \/ s = SMasked (bs [255; 255; 255; 0]%N) (bs [239; 187; 191; 0]%N) false (B"text/plain; charset=utf-8")) signatures).
      { unfold signatures. repeat (apply Forall_cons; [first [intros X; discriminate X|intros _; right; reflexivity|intros _; left; reflexivity]|]).
        constructor. }
      rewrite Forall_forall in FF. apply (FF s I). symmetry. exact E2. }
    destruct Two as [->| ->]; [right; apply Txt; exact M|left].
    cbn [match_sig] in M. unfold match_masked in M. cbn [bind] in M. change (negb _) with false in M. cbv iota in M.
    destruct (Nat.ltb_spec (length d) (length (bs [239; 187; 191; 0]%N))) as [L|L]; [discriminate|].
    enough (R : exists r, d = utf8_bom ++ r).
    { destruct R as (r & Er). exists (r ++ skipn 512 data). rewrite app_assoc, <- Er. symmetry. apply firstn_skipn. }
    change (length (bs [239; 187; 191; 0]%N)) with 4 in L. revert L M. generalize d. clear. intros d L M.
    destruct d as [|a [|b [|c [|e d]]]]; cbn [length] in L; try lia.
    assert (M1 : forall x y, (N.land (bv x) (bv (ch 255)) =? bv y)%N = true -> x = y).
    { intros x y X. apply N.eqb_eq in X. change (bv (ch 255)) with (N.ones 8) in X. rewrite N.land_ones in X.
      assert (bv x < 256)%N by (unfold bv; apply N_ascii_bounded).
      rewrite N.mod_small in X by (change (2 ^ 8)%N with 256%N; assumption).
      unfold bv in X. apply (f_equal ascii_of_N) in X. rewrite !ascii_N_embedding in X. exact X. }
    cbn [bs map masked_loop index nth_error bind] in M.
    destruct (N.land (bv a) (bv (ch 255)) =? bv (ch 239))%N eqn:Ea; [|discriminate].
    destruct (N.land (bv b) (bv (ch 255)) =? bv (ch 187))%N eqn:Eb; [|discriminate].
    destruct (N.land (bv c) (bv (ch 255)) =? bv (ch 191))%N eqn:Ec; [|discriminate].
    apply M1 in Ea, Eb, Ec. subst. exists (e :: d). reflexivity.
  - assert (X : match_sig SText d (first_non_ws d) = Ok []).
    { destruct T as [[_ F]|(l1 & s & l2 & El & _ & M & E2)].
      - rewrite Forall_forall in F. apply F. unfold signatures. do 51 right. left. reflexivity.
      - exfalso. rewrite E in E2. injection E2 as E2.
        assert (I : In s signatures) by (rewrite El; apply in_or_app; right; left; reflexivity).
        assert (All : forallb (fun s => negb (beq (sig_type s) (B"application/octet-stream"))) signatures = true) by (vm_compute; reflexivity).
        rewrite forallb_forall in All. specialize (All s I). rewrite <- E2, beq_refl in All. discriminate. }
    cbn [match_sig] in X. unfold match_text in X. rewrite slice_tail in X by apply first_le. cbn [bind] in X.
    destruct (existsb is_binary (skipn (first_non_ws d) d)) eqn:Ex; [|discriminate].
    apply existsb_exists in Ex as (c & Hc & Bc). apply Exists_exists. exists c. split; [|apply is_binary_iff; exact Bc].
    rewrite <- (firstn_skipn (first_non_ws d) d). apply in_or_app. right. exact Hc.
Qed.
Example C82_example : detect_content_type (B"hello") = Ok (B"text/plain; charset=utf-8") /\
  detect_content_type (ch 1 :: B"hello") = Ok (B"application/octet-stream").
Proof. split; vm_compute; reflexivity. Qed.
Print Assumptions C57_total.
Print Assumptions C57_first_512.
Print Assumptions C81_html_exact.
Print Assumptions C82_plain_text.
