(** C113, C114: what Context.SetCookie makes a client keep. *)
From Verif Require Import Base GoStrings GoInt GoPath M_Ctx M_SetCookie S_Static S_Ctx S_SetCookie P_Range P_GoPath Props_Ctx.
From Verif Require P_Auth.

(** * C113 The cookie the client receives *)
(** The claim: for a name a cookie can have, a domain and a path that are written plainly, the
    client reads back the name, the value (unescaped), the path (or the root), the domain (or
    the request's host), the flags asked for, and the lifetime asked for: [age] seconds, or
    until the client is closed for 0, or deleted at once for a negative [age]. *)
Definition asked_lifetime (age : Z) (got : option Z) : Prop :=
  if (0 <? age)%Z then got = Some age
  else if (age =? 0)%Z then got = None
  else exists n, got = Some n /\ (n <= 0)%Z.
Definition has_flag (b : bool) : option bytes := if b then Some [] else None.
Definition C113_claim : Prop := forall host h r ss name value age path domain secure http_only,
  host_part host h -> unbracketed h r -> cookie_name name ->
  plain (if is_empty domain then r else domain) ->
  (path = [] \/ ordinary_path path /\ plain path) ->
  exists c rc, sent_cookie host ss name value age path domain secure http_only = Ok c /\
    client_reads (cookie_line c) = Some rc /\
    rc_name rc = name /\ query_unescape (rc_value rc) = Some value /\
    attr rc (B"path") = Some (if is_empty path then B"/" else path) /\
    attr rc (B"secure") = has_flag secure /\ attr rc (B"httponly") = has_flag http_only /\
    asked_lifetime age (lifetime rc).

(** ** how the header is read *)
Lemma strip_lit_cons c s : is_wsp c = true -> strip (c :: s) = strip s.
Proof. intros W. unfold strip. cbn [skip_wsp]. rewrite W. reflexivity. Qed.
Lemma skip_wsp_none s : (forall c, In c s -> is_wsp c = false) -> skip_wsp s = s.
Proof. destruct s as [|c s]; [reflexivity|]. intros H. cbn [skip_wsp]. rewrite (H c) by (left; reflexivity). reflexivity. Qed.
Lemma strip_none s : (forall c, In c s -> is_wsp c = false) -> strip s = s.
Proof.
  intros H. unfold strip. rewrite (skip_wsp_none s H), skip_wsp_none; [apply rev_involutive|].
  intros c I. apply H, in_rev, I.
Qed.
Definition written_as (a : bytes) : bytes := B"; " ++ a.
Lemma split_line hd attrs : ~ In ";"%char hd -> (forall a, In a attrs -> ~ In ";"%char a) ->
  split ";" (hd ++ concat (map written_as attrs)) = hd :: map (cons " "%char) attrs.
Proof.
  revert hd. induction attrs as [|a attrs IH]; intros hd H F.
  - cbn [map concat]. rewrite app_nil_r. exact (split_one ";"%char hd H).
  - cbn [map concat]. unfold written_as at 1.
    change ((B"; " ++ a) ++ concat (map written_as attrs))
      with (";"%char :: (" "%char :: a ++ concat (map written_as attrs))).
    change (split ";" (hd ++ ";"%char :: ((" "%char :: a) ++ concat (map written_as attrs)))
      = hd :: (" "%char :: a) :: map (cons " "%char) attrs).
    etransitivity; [exact (split_cons ";"%char hd _ H)|]. f_equal. apply IH.
    + intros [E|I]; [discriminate E|]. exact (F a (or_introl eq_refl) I).
    + intros b I. apply F. right. exact I.
Qed.
Definition lit (s : bytes) : Prop := forallb (fun c => negb (Ascii.eqb c ";" || Ascii.eqb c "=" || is_wsp c)) s = true.
Lemma lit_spec s : lit s -> ~ In ";"%char s /\ ~ In "="%char s /\ (forall c, In c s -> is_wsp c = false).
Proof.
  unfold lit. rewrite forallb_forall. intros H. split; [|split].
  - intros I. specialize (H _ I). discriminate H.
  - intros I. specialize (H _ I). discriminate H.
  - intros c I. specialize (H _ I). rewrite negb_true_iff, !orb_false_iff in H. apply H.
Qed.
Lemma attribute_pair k v : lit k -> strip v = v ->
  attribute (" "%char :: k ++ B"=" ++ v) = (map lower_ascii k, v).
Proof.
  intros L P. destruct (lit_spec k L) as (_ & Ne & Nw). unfold attribute.
  assert (E : cut "=" ((" "%char :: k) ++ "="%char :: v) = Some (" "%char :: k, v)).
  { apply cut_app. intros [X|X]; [discriminate X|exact (Ne X)]. }
  change (" "%char :: k ++ B"=" ++ v) with ((" "%char :: k) ++ "="%char :: v). rewrite E.
  rewrite strip_lit_cons by reflexivity. rewrite (strip_none k Nw), P. reflexivity.
Qed.
Lemma cut_none c s : ~ In c s -> cut c s = None.
Proof.
  intros H. destruct (cut c s) as [[u v]|] eqn:E; [|reflexivity].
  apply cut_inv in E as [-> _]. exfalso. apply H, in_or_app. right. left. reflexivity.
Qed.
Lemma attribute_flag k : lit k -> attribute (" "%char :: k) = (map lower_ascii k, []).
Proof.
  intros L. destruct (lit_spec k L) as (_ & Ne & Nw). unfold attribute.
  rewrite cut_none by (intros [X|X]; [discriminate X|exact (Ne X)]).
  rewrite strip_lit_cons by reflexivity. rewrite (strip_none k Nw). reflexivity.
Qed.

(** ** the header SetCookie writes *)
Definition texts (c : cookie) : list bytes :=
  (if (0 <? ck_max_age c)%Z then [B"max-age" ++ B"=" ++ fmt_nat (Z.to_N (ck_max_age c))] else [])
  ++ (if is_empty (ck_domain c) then [] else [B"domain" ++ B"=" ++ ck_domain c])
  ++ (if is_empty (ck_path c) then [] else [B"path" ++ B"=" ++ ck_path c])
  ++ (if ck_http_only c then [B"HttpOnly"] else [])
  ++ (if ck_secure c then [B"secure"] else [])
  ++ match ck_same_site c with
     | 1 => [B"SameSite"] | 2 => [B"SameSite" ++ B"=" ++ B"Lax"] | 3 => [B"SameSite" ++ B"=" ++ B"Strict"]
     | 4 => [B"SameSite" ++ B"=" ++ B"None"] | _ => []
     end.
Lemma line_texts c : ck_key c <> [] ->
  cookie_line c = (ck_key c ++ B"=" ++ ck_value c) ++ concat (map written_as (texts c)).
Proof.
  intros K. unfold cookie_line, texts. destruct (ck_key c) as [|k0 k]; [contradiction|]. cbn [is_empty].
  rewrite <- !app_assoc. do 2 f_equal. rewrite !map_app, !concat_app. repeat f_equal.
  - destruct (0 <? ck_max_age c)%Z; [|reflexivity]. cbn [map concat]. rewrite app_nil_r. reflexivity.
  - destruct (is_empty (ck_domain c)); [reflexivity|]. cbn [map concat]. rewrite app_nil_r. reflexivity.
  - destruct (is_empty (ck_path c)); [reflexivity|]. cbn [map concat]. rewrite app_nil_r. reflexivity.
  - destruct (ck_http_only c); reflexivity.
  - destruct (ck_secure c); reflexivity.
  - destruct (ck_same_site c) as [|[|[|[|[|n]]]]]; reflexivity.
Qed.
(** the attributes the client reads, by name *)
Definition sent_attrs (age : Z) (d p : bytes) (secure ho : bool) (ss : nat) : list (bytes * bytes) :=
  (if (0 <? age)%Z then [(B"max-age", fmt_nat (Z.to_N age))] else [])
  ++ (if is_empty d then [] else [(B"domain", d)]) ++ (if is_empty p then [] else [(B"path", p)])
  ++ (if ho then [(B"httponly", [])] else []) ++ (if secure then [(B"secure", [])] else [])
  ++ match ss with
     | 1 => [(B"samesite", [])] | 2 => [(B"samesite", B"Lax")] | 3 => [(B"samesite", B"Strict")]
     | 4 => [(B"samesite", B"None")] | _ => []
     end.
Lemma fmt_nat_octets n c : In c (fmt_nat n) -> c <> ";"%char /\ is_wsp c = false.
Proof.
  intros I. pose proof (digits_val_digits _ _ _ (fmt_nat_val n)) as D. unfold GoInt.all_digits in D.
  rewrite Forall_forall in D. specialize (D c I).
  pose proof (P_Auth.ascii_all (fun c => match digit_val c with Some _ => negb (Ascii.eqb c ";" || is_wsp c) | None => true end)
                        ltac:(vm_compute; reflexivity) c) as H.
  cbv beta in H. destruct (digit_val c); [|contradiction].
  rewrite negb_true_iff, orb_false_iff in H. destruct H as [H W]. split; [|exact W].
  intros ->. discriminate H.
Qed.
Lemma octet_ok c : cookie_octet c = true -> c <> ";"%char /\ is_wsp c = false.
Proof.
  intros O. pose proof (P_Auth.ascii_all (fun c => negb (cookie_octet c) || negb (Ascii.eqb c ";" || is_wsp c))
                        ltac:(vm_compute; reflexivity) c) as H.
  cbv beta in H. rewrite O in H. cbn [negb orb] in H. rewrite negb_true_iff, orb_false_iff in H.
  destruct H as [H W]. split; [|exact W]. intros ->. discriminate H.
Qed.
Lemma not_in_app {A} (x : A) u v : ~ In x u -> ~ In x v -> ~ In x (u ++ v).
Proof. intros U V I. apply in_app_or in I as [I|I]; [exact (U I)|exact (V I)]. Qed.
Ltac nosemi := intros X; vm_compute in X; repeat (destruct X as [X|X]; [discriminate X|]); exact X.
Lemma read_line c : cookie_name (ck_key c) -> forallb cookie_octet (ck_value c) = true ->
  plain (ck_domain c) -> plain (ck_path c) ->
  client_reads (cookie_line c) = Some (Received (ck_key c) (ck_value c)
    (sent_attrs (ck_max_age c) (ck_domain c) (ck_path c) (ck_secure c) (ck_http_only c) (ck_same_site c))).
Proof.
  intros (K & Ke & Ks & Kw) V (Ds & Dw) (Ps & Pw). rewrite forallb_forall in V.
  assert (Vs : forall x, In x (ck_value c) -> x <> ";"%char /\ is_wsp x = false) by (intros x I; apply octet_ok, V, I).
  unfold client_reads. rewrite (line_texts c K).
  rewrite split_line.
  - unfold name_value. change (ck_key c ++ B"=" ++ ck_value c) with (ck_key c ++ "="%char :: ck_value c).
    rewrite (cut_app "="%char (ck_key c) (ck_value c) Ke). rewrite Kw.
    rewrite (strip_none (ck_value c)) by (intros x I; apply Vs, I).
    destruct (ck_key c) as [|k0 k] eqn:Ek; [contradiction|]. cbn [is_empty]. f_equal. f_equal.
    unfold texts, sent_attrs. rewrite !map_app. repeat f_equal.
    + destruct (0 <? ck_max_age c)%Z; [|reflexivity]. cbn [map]. f_equal. apply attribute_pair; [reflexivity|].
      apply strip_none. intros x I. eapply fmt_nat_octets, I.
    + destruct (is_empty (ck_domain c)); [reflexivity|]. cbn [map]. f_equal. apply attribute_pair; [reflexivity|exact Dw].
    + destruct (is_empty (ck_path c)); [reflexivity|]. cbn [map]. f_equal. apply attribute_pair; [reflexivity|exact Pw].
    + destruct (ck_http_only c); reflexivity.
    + destruct (ck_secure c); reflexivity.
    + destruct (ck_same_site c) as [|[|[|[|[|n]]]]]; reflexivity.
  - apply not_in_app; [exact Ks|]. intros [X|X]; [discriminate X|]. exact (proj1 (Vs _ X) eq_refl).
  - intros a I. unfold texts in I. repeat (apply in_app_or in I as [I|I]).
    + destruct (0 <? ck_max_age c)%Z; [|destruct I]. destruct I as [<-|[]].
      apply not_in_app; [nosemi|]. apply not_in_app; [nosemi|]. intros X. exact (proj1 (fmt_nat_octets _ _ X) eq_refl).
    + destruct (is_empty (ck_domain c)); [destruct I|]. destruct I as [<-|[]].
      apply not_in_app; [nosemi|]. apply not_in_app; [nosemi|]. exact Ds.
    + destruct (is_empty (ck_path c)); [destruct I|]. destruct I as [<-|[]].
      apply not_in_app; [nosemi|]. apply not_in_app; [nosemi|]. exact Ps.
    + destruct (ck_http_only c); [|destruct I]. destruct I as [<-|[]]. nosemi.
    + destruct (ck_secure c); [|destruct I]. destruct I as [<-|[]]. nosemi.
    + destruct (ck_same_site c) as [|[|[|[|[|n]]]]]; try destruct I as [<-|[]]; try nosemi; destruct I.
Qed.

Lemma query_escape_back v : query_unescape (query_escape v) = Some v /\ forallb cookie_octet (query_escape v) = true.
Proof. exact (C78_cookie_value [] 0 [] v 0 [] (B"d") false false _ eq_refl). Qed.
Lemma split_host_ok host h r : host_part host h -> unbracketed h r -> split_host host = Ok r.
Proof.
  intros Hh Hr. unfold split_host. cbv zeta. rewrite (split_host_part host h Hh). exact (unbracket h r Hr).
Qed.
Lemma normalize_ordinary p : ordinary_path p -> normalize_path p = p.
Proof.
  intros (es & last & -> & G & N & Nd & Ne). exact (normalize_fix es last G N Nd Ne).
Qed.
(** what is sent, whatever is asked for *)
Lemma sent_is host h r ss name value age path domain secure ho :
  host_part host h -> unbracketed h r ->
  sent_cookie host ss name value age path domain secure ho =
  Ok (Cookie (if is_empty domain then r else domain) (normalize_path (if is_empty path then B"/" else path)) age name
             (query_escape value) (secure || (ss =? SameSiteNone)) ss ho).
Proof.
  intros Hh Hr. unfold sent_cookie. cbv zeta.
  destruct (is_empty domain); [rewrite (split_host_ok host h r Hh Hr)|]; reflexivity.
Qed.
Lemma attr_sent n v age d p secure ho ss k :
  attr (Received n v (sent_attrs age d p secure ho ss)) k =
  if beq k (B"max-age") then (if (0 <? age)%Z then Some (fmt_nat (Z.to_N age)) else None)
  else if beq k (B"domain") then (if is_empty d then None else Some d)
  else if beq k (B"path") then (if is_empty p then None else Some p)
  else if beq k (B"httponly") then has_flag ho
  else if beq k (B"secure") then has_flag secure
  else if beq k (B"samesite") then
    match ss with 1 => Some [] | 2 => Some (B"Lax") | 3 => Some (B"Strict") | 4 => Some (B"None") | _ => None end
  else None.
Proof.
  unfold attr, sent_attrs. cbn [rc_attrs].
  assert (F : forall l, (forall kv, In kv l -> beq (fst kv) k = false) ->
    find (fun kv : bytes * bytes => beq (fst kv) k) l = None).
  { induction l as [|kv l IH]; [reflexivity|]. intros H. cbn [find]. rewrite (H kv) by (left; reflexivity).
    apply IH. intros x I. apply H. right. exact I. }
  destruct (beq_spec k (B"max-age")) as [->|N1];
    [destruct (0 <? age)%Z, (is_empty d), (is_empty p), ho, secure, ss as [|[|[|[|[|?]]]]]; reflexivity|].
  destruct (beq_spec k (B"domain")) as [->|N2];
    [destruct (0 <? age)%Z, (is_empty d), (is_empty p), ho, secure, ss as [|[|[|[|[|?]]]]]; reflexivity|].
  destruct (beq_spec k (B"path")) as [->|N3];
    [destruct (0 <? age)%Z, (is_empty d), (is_empty p), ho, secure, ss as [|[|[|[|[|?]]]]]; reflexivity|].
  destruct (beq_spec k (B"httponly")) as [->|N4];
    [destruct (0 <? age)%Z, (is_empty d), (is_empty p), ho, secure, ss as [|[|[|[|[|?]]]]]; reflexivity|].
  destruct (beq_spec k (B"secure")) as [->|N5];
    [destruct (0 <? age)%Z, (is_empty d), (is_empty p), ho, secure, ss as [|[|[|[|[|?]]]]]; reflexivity|].
  destruct (beq_spec k (B"samesite")) as [->|N6];
    [destruct (0 <? age)%Z, (is_empty d), (is_empty p), ho, secure, ss as [|[|[|[|[|?]]]]]; reflexivity|].
  rewrite F; [reflexivity|]. intros kv I. apply in_rev in I. apply beq_neq.
  repeat (apply in_app_or in I as [I|I]);
    repeat match type of I with
    | In _ (if ?b then _ else _) => destruct b
    | In _ (match ss with _ => _ end) => destruct ss as [|[|[|[|[|?]]]]]
    end; try destruct I as [<-|[]]; try destruct I; cbn [fst]; congruence.
Qed.
Lemma lifetime_sent n v age d p secure ho ss :
  lifetime (Received n v (sent_attrs age d p secure ho ss)) = if (0 <? age)%Z then Some age else None.
Proof.
  unfold lifetime. rewrite attr_sent. rewrite beq_refl. destruct (0 <? age)%Z eqn:A; [|reflexivity].
  apply Z.ltb_lt in A. pose proof (fmt_nat_val (Z.to_N age)) as V. pose proof (fmt_nat_nonempty (Z.to_N age)) as Ne.
  rewrite Z2N.id in V by lia. destruct (fmt_nat (Z.to_N age)) as [|c l]; [contradiction|].
  assert (M : c <> "-"%char) by (intros ->; discriminate V).
  destruct (Ascii.eqb_spec c "-") as [E|_]; [contradiction|].
  destruct c as [[] [] [] [] [] [] [] []]; try exact V. contradiction M. reflexivity.
Qed.

(** ** A cookie cannot be deleted *)
(** Asking for a negative age sends, byte for byte, what asking for age 0 sends: the client
    keeps the cookie until it is closed. *)
Theorem C113_cannot_delete : forall host ss name value age path domain secure http_only, (age <= 0)%Z ->
  match sent_cookie host ss name value age path domain secure http_only,
        sent_cookie host ss name value 0 path domain secure http_only with
  | Ok c, Ok c0 => cookie_line c = cookie_line c0
  | _, _ => False
  end.
Proof.
  intros host ss name value age path domain secure ho A.
  destruct (C44_host_total host) as (h & r & Hh & Hr).
  rewrite !(sent_is host h r) by assumption. unfold cookie_line. cbn.
  destruct (Z.ltb_spec 0 age); [lia|]. reflexivity.
Qed.
Lemma ordinary_root : ordinary_path (B"/").
Proof.
  exists [], []. split; [reflexivity|]. split; [constructor|]. split; [intros []|]. split; [discriminate|].
  intros a x y b E. destruct a as [|a0 [|? ?]]; discriminate E.
Qed.
Theorem C113_received_refuted : ~ C113_claim.
Proof.
  intros H. destruct (H (B"h:80") (B"h") (B"h") 0 (B"sid") (B"v") (-1)%Z [] [] true true) as (c & rc & S1 & S2 & H').
  - left. exists (B"80"). split; [reflexivity|]. intros x I. cbn in I. destruct I as [<-|[<-|[]]]; cbn; tauto.
  - right. split; [reflexivity|]. intros (r' & E). discriminate E.
  - split; [discriminate|]. split; [nosemi|]. split; [nosemi|reflexivity].
  - split; [nosemi|reflexivity].
  - left. reflexivity.
  - vm_compute in S1. injection S1 as <-. vm_compute in S2. injection S2 as <-.
    destruct H' as (_ & _ & _ & _ & _ & (n & L & _)). vm_compute in L. discriminate L.
Qed.
(** ** What does hold *)
(** Missing: negative ages (see C113_cannot_delete), paths with escapes, "." or ".." (see
    C113_path_is_rewritten), and SameSite=None makes the cookie secure unasked.  Everything
    the client reads is stated: no other attribute is there. *)
Theorem C113_received_partial : forall host h r ss name value age path domain secure http_only,
  host_part host h -> unbracketed h r -> cookie_name name ->
  plain (if is_empty domain then r else domain) ->
  (path = [] \/ ordinary_path path /\ plain path) -> (0 <= age)%Z ->
  exists c rc, sent_cookie host ss name value age path domain secure http_only = Ok c /\
    client_reads (cookie_line c) = Some rc /\
    rc_name rc = name /\ query_unescape (rc_value rc) = Some value /\
    attr rc (B"path") = Some (if is_empty path then B"/" else path) /\
    attr rc (B"domain") = (let d := if is_empty domain then r else domain in if is_empty d then None else Some d) /\
    attr rc (B"secure") = has_flag (secure || (ss =? 4)) /\ attr rc (B"httponly") = has_flag http_only /\
    attr rc (B"samesite") = match ss with
                            | 1 => Some [] | 2 => Some (B"Lax") | 3 => Some (B"Strict") | 4 => Some (B"None")
                            | _ => None end /\
    asked_lifetime age (lifetime rc) /\
    (forall k, attr rc k <> None -> In k [B"max-age"; B"domain"; B"path"; B"secure"; B"httponly"; B"samesite"]).
Proof.
  intros host h r ss name value age path domain secure ho Hh Hr Kn Dp Pp A.
  destruct (query_escape_back value) as [Vb Vo].
  assert (Np : normalize_path (if is_empty path then B"/" else path) = (if is_empty path then B"/" else path) /\
               plain (if is_empty path then B"/" else path)).
  { destruct Pp as [->|[O Pl]].
    - split; [reflexivity|]. split; [nosemi|reflexivity].
    - destruct O as (es & last & E & R). pose proof (normalize_ordinary path (ex_intro _ es (ex_intro _ last (conj E R)))) as Nz.
      destruct path as [|p0 p]; [discriminate E|]. exact (conj Nz Pl). }
  destruct Np as [Nz Pl]. eexists. eexists. split; [exact (sent_is host h r ss name value age path domain secure ho Hh Hr)|].
  split; [apply read_line; cbn [ck_key ck_value ck_domain ck_path]; [exact Kn|exact Vo|exact Dp|rewrite Nz; exact Pl]|].
  cbn [ck_key ck_value ck_domain ck_path ck_max_age ck_secure ck_http_only ck_same_site rc_name rc_value].
  split; [reflexivity|]. split; [exact Vb|]. rewrite lifetime_sent, Nz.
  split; [|split; [|split; [|split; [|split; [|split]]]]].
  - rewrite attr_sent. cbv beta. change (beq (B"path") (B"max-age")) with false. change (beq (B"path") (B"domain")) with false.
    rewrite beq_refl. cbv iota. destruct path; reflexivity.
  - rewrite attr_sent. change (beq (B"domain") (B"max-age")) with false. rewrite beq_refl. cbv iota zeta. reflexivity.
  - rewrite attr_sent. reflexivity.
  - rewrite attr_sent. reflexivity.
  - rewrite attr_sent. reflexivity.
  - unfold asked_lifetime. destruct (Z.ltb_spec 0 age); [reflexivity|]. replace age with 0%Z by lia. reflexivity.
  - intros k Hk. rewrite attr_sent in Hk.
    destruct (beq_spec k (B"max-age")) as [E|_]; [rewrite E; cbn; tauto|].
    destruct (beq_spec k (B"domain")) as [E|_]; [rewrite E; cbn; tauto|].
    destruct (beq_spec k (B"path")) as [E|_]; [rewrite E; cbn; tauto|].
    destruct (beq_spec k (B"httponly")) as [E|_]; [rewrite E; cbn; tauto|].
    destruct (beq_spec k (B"secure")) as [E|_]; [rewrite E; cbn; tauto|].
    destruct (beq_spec k (B"samesite")) as [E|_]; [rewrite E; cbn; tauto|]. contradiction Hk. reflexivity.
Qed.
(** ** Paths *)
(** Any path at all: the client is told the normalised, decoded path as long as that is plain;
    a path written without ';' can still end the attribute and add others. *)
Theorem C113_path_is_rewritten :
  (forall host h r ss name value age path domain secure http_only,
    host_part host h -> unbracketed h r -> cookie_name name -> plain (if is_empty domain then r else domain) ->
    path <> [] -> plain (normalize_path path) ->
    exists c rc, sent_cookie host ss name value age path domain secure http_only = Ok c /\
      client_reads (cookie_line c) = Some rc /\ rc_name rc = name /\ attr rc (B"path") = Some (normalize_path path)) /\
  (exists path c rc, plain path /\ sent_cookie (B"good.org") 0 (B"n") (B"v") 0 path [] false false = Ok c /\
      client_reads (cookie_line c) = Some rc /\ attr rc (B"domain") = Some (B"evil.org")) /\
  (exists path c rc, plain path /\ sent_cookie (B"good.org") 0 (B"n") (B"v") 0 path [] false false = Ok c /\
      client_reads (cookie_line c) = Some rc /\ attr rc (B"path") <> Some path /\ ~ In "%"%char path).
Proof.
  split; [|split].
  - intros host h r ss name value age path domain secure ho Hh Hr Kn Dp Pn Pp.
    destruct (query_escape_back value) as [Vb Vo].
    destruct path as [|p0 p]; [contradiction|]. cbn [is_empty] in *.
    eexists. eexists. split; [exact (sent_is host h r ss name value age (p0 :: p) domain secure ho Hh Hr)|].
    split; [apply read_line; cbn [ck_key ck_value ck_domain ck_path is_empty]; [exact Kn|exact Vo|exact Dp|exact Pp]|].
    cbn [ck_key ck_value ck_domain ck_path ck_max_age ck_secure ck_http_only ck_same_site rc_name].
    split; [reflexivity|]. rewrite attr_sent. change (beq (B"path") (B"max-age")) with false. change (beq (B"path") (B"domain")) with false.
    rewrite beq_refl. cbv iota. cbn [is_empty].
    destruct (normalize_shape (p0 :: p)) as (es & last & _ & _ & _ & E). rewrite E. reflexivity.
  - exists (B"/a%3Bdomain=evil.org%3B"). eexists. eexists. split; [split; [nosemi|reflexivity]|].
    split; [vm_compute; reflexivity|]. split; vm_compute; reflexivity.
  - exists (B"/a//../b/."). eexists. eexists. split; [split; [nosemi|reflexivity]|].
    split; [vm_compute; reflexivity|]. split; [vm_compute; reflexivity|]. split; [vm_compute; discriminate|nosemi].
Qed.
Example C113_example : exists c rc,
  sent_cookie (B"[::1]:8080") SameSiteStrict (B"sid") (B"a b;") 3600 (B"/app/") [] false true = Ok c /\
  cookie_line c = B"sid=a+b%3B; max-age=3600; domain=::1; path=/app/; HttpOnly; SameSite=Strict" /\
  client_reads (cookie_line c) = Some rc /\ cookie_name (B"sid") /\ ordinary_path (B"/app/") /\ plain (B"/app/") /\
  lifetime rc = Some 3600%Z /\ attr rc (B"path") = Some (B"/app/").
Proof.
  eexists. eexists. split; [vm_compute; reflexivity|]. split; [vm_compute; reflexivity|]. split; [vm_compute; reflexivity|].
  split; [split; [discriminate|]; split; [nosemi|]; split; [nosemi|reflexivity]|].
  split.
  { exists [B"app"], []. split; [reflexivity|]. split.
    - constructor; [|constructor]. split; [discriminate|]. split; [discriminate|]. split; [discriminate|nosemi].
    - split; [intros []|]. split; [discriminate|]. intros a x y b E.
      assert (I : In "%"%char (B"/app/")) by (rewrite E; apply in_or_app; right; left; reflexivity).
      exfalso. revert I. nosemi. }
  split; [split; [nosemi|reflexivity]|]. split; vm_compute; reflexivity.
Qed.
Print Assumptions C113_cannot_delete.
Print Assumptions C113_received_refuted.
Print Assumptions C113_received_partial.
Print Assumptions C113_path_is_rewritten.

(** * C114 Several cookies in one response *)
(** The claim: every SetCookie call adds a Set-Cookie header of its own, so that the cookie of
    every call is sent (as a later cookie of the same name with another path or domain is
    another cookie). *)
Definition C114_claim : Prop := forall host pre n v a p d s h post j c,
  cookie_run host jar0 (pre ++ OpCookie n v a p d s h :: post) = Ok j ->
  (forall v' a' s' h', ~ In (OpCookie n v' a' p d s' h') post) ->
  sent_cookie host (in_force pre 0) n v a p d s h = Ok c ->
  In (cookie_line c) (set_cookie_headers j).
Theorem C114_every_call_refuted : ~ C114_claim.
Proof.
  intros H. epose proof (H (B"h") [] (B"n") (B"1") 0%Z (B"/a") [] false false
    [OpCookie (B"n") (B"2") 0%Z (B"/b") [] false false] _ _ eq_refl
    ltac:(intros ? ? ? ? [X|[]]; discriminate X) eq_refl) as I.
  vm_compute in I. destruct I as [X|[]]. discriminate X.
Qed.

Lemma run_app host os1 : forall j os2,
  cookie_run host j (os1 ++ os2) = match cookie_run host j os1 with Ok j' => cookie_run host j' os2 | Panic => Panic end.
Proof.
  induction os1 as [|o os1 IH]; intros j os2; [reflexivity|]. cbn [app cookie_run].
  destruct (cookie_step host j o); [apply IH|reflexivity].
Qed.
Lemma sent_total host ss n v a p d s h : exists c, sent_cookie host ss n v a p d s h = Ok c /\ ck_key c = n.
Proof.
  destruct (C44_host_total host) as (x & r & Hh & Hr). eexists. split; [exact (sent_is host x r ss n v a p d s h Hh Hr)|].
  reflexivity.
Qed.
Lemma run_total host os : forall j, exists j', cookie_run host j os = Ok j' /\ j_same_site j' = in_force os (j_same_site j).
Proof.
  induction os as [|o os IH]; intros j; [exists j; split; reflexivity|]. cbn [cookie_run in_force].
  destruct o as [m|n v a p d s h]; cbn [cookie_step].
  - destruct (IH (Jar m (j_cookies j))) as (j' & E & F). exists j'. split; assumption.
  - destruct (sent_total host (j_same_site j) n v a p d s h) as (c & -> & _).
    destruct (IH (Jar (j_same_site j) (put_cookie (ck_key c) (cookie_line c) (j_cookies j)))) as (j' & E & F).
    exists j'. split; assumption.
Qed.
Lemma put_fst k line l : map fst (put_cookie k line l) =
  if existsb (fun x => beq x k) (map fst l) then map fst l else map fst l ++ [k].
Proof.
  induction l as [|[k' v] l IH]; [reflexivity|]. cbn [put_cookie map fst existsb].
  destruct (beq k' k) eqn:E; [reflexivity|]. cbn [map fst]. rewrite IH. cbn [orb].
  destruct (existsb (fun x => beq x k) (map fst l)); reflexivity.
Qed.
Lemma put_nodup k line l : NoDup (map fst l) -> NoDup (map fst (put_cookie k line l)).
Proof.
  intros N. rewrite put_fst. destruct (existsb _ _) eqn:X; [exact N|].
  assert (Ni : ~ In k (map fst l)).
  { intros J. rewrite <- not_true_iff_false in X. apply X, existsb_exists. exists k. split; [exact J|apply beq_refl]. }
  clear X. induction N as [|x l' Hx N IH]; cbn [app]; [constructor; [intros []|constructor]|].
  constructor.
  - intros J. apply in_app_or in J as [J|[->|[]]]; [exact (Hx J)|]. apply Ni. left. reflexivity.
  - apply IH. intros J. apply Ni. right. exact J.
Qed.
Lemma put_in k line l k' v : NoDup (map fst l) ->
  (In (k', v) (put_cookie k line l) <-> (k' = k /\ v = line) \/ (k' <> k /\ In (k', v) l)).
Proof.
  induction l as [|[k1 v1] l IH]; cbn [put_cookie map fst]; intros Nd.
  - split; [intros [E|[]]; injection E as <- <-; left; split; reflexivity|].
    intros [[-> ->]|[_ []]]. left. reflexivity.
  - inversion Nd as [|? ? Ni Nd']; subst. destruct (beq_spec k1 k) as [->|N].
    + split.
      * intros [E|I]; [injection E as <- <-; left; split; reflexivity|].
        right. split; [|right; exact I]. intros ->. apply Ni. exact (in_map fst _ _ I).
      * intros [[-> ->]|[Nk [E|I]]]; [left; reflexivity|injection E as <- <-; contradiction|right; exact I].
    + split.
      * intros [E|I]; [injection E as <- <-; right; split; [exact N|left; reflexivity]|].
        apply (IH Nd') in I as [I|[Nk I]]; [left; exact I|right; split; [exact Nk|right; exact I]].
      * intros [[-> ->]|[Nk [E|I]]].
        -- right. apply (IH Nd'). left. split; reflexivity.
        -- left. exact E.
        -- right. apply (IH Nd'). right. split; assumption.
Qed.
(** the names, from any state *)
Lemma run_names host os : forall j j', cookie_run host j os = Ok j' ->
  forall seen, (forall k, In k seen <-> In k (map fst (j_cookies j))) ->
  map fst (j_cookies j') = map fst (j_cookies j) ++ first_uses seen os.
Proof.
  induction os as [|o os IH]; intros j j' R seen Se.
  - injection R as <-. cbn [first_uses]. rewrite app_nil_r. reflexivity.
  - cbn [cookie_run] in R. destruct o as [m|n v a p d s h]; cbn [cookie_step first_uses] in R |- *.
    + exact (IH _ _ R seen Se).
    + destruct (sent_total host (j_same_site j) n v a p d s h) as (c & Ec & Kc). rewrite Ec, Kc in R.
      assert (X : existsb (fun x => beq x n) (map fst (j_cookies j)) = existsb (fun k => beq k n) seen).
      { apply eq_true_iff_eq. rewrite !existsb_exists. split; intros (x & I & E); exists x; split; try exact E; apply Se, I. }
      pose proof (put_fst n (cookie_line c) (j_cookies j)) as P. rewrite X in P.
      destruct (existsb (fun k => beq k n) seen).
      * etransitivity; [exact (IH _ _ R seen ltac:(cbn [j_cookies]; rewrite P; exact Se))|]. cbn [j_cookies]. rewrite P. reflexivity.
      * etransitivity.
        { refine (IH _ _ R (n :: seen) _). cbn [j_cookies]. rewrite P. intros k. rewrite in_app_iff. cbn [In]. rewrite Se. tauto. }
        cbn [j_cookies]. rewrite P, <- app_assoc. reflexivity.
Qed.
Lemma first_uses_nodup os : forall seen, NoDup (first_uses seen os) /\ forall k, In k (first_uses seen os) -> ~ In k seen.
Proof.
  induction os as [|o os IH]; intros seen; [split; [constructor|intros k []]|].
  destruct o as [m|n v a p d s h]; cbn [first_uses]; [apply IH|].
  destruct (existsb (fun k => beq k n) seen) eqn:E; [apply IH|].
  destruct (IH (n :: seen)) as [Nd Ni]. split.
  - constructor; [|exact Nd]. intros I. exact (Ni _ I (or_introl eq_refl)).
  - intros k [<-|I].
    + intros J. rewrite <- not_true_iff_false in E. apply E, existsb_exists. exists n. split; [exact J|apply beq_refl].
    + intros J. exact (Ni k I (or_intror J)).
Qed.
Lemma run_nodup host os j' : cookie_run host jar0 os = Ok j' -> map fst (j_cookies j') = first_uses [] os /\ NoDup (map fst (j_cookies j')).
Proof.
  intros R. pose proof (run_names host os jar0 j' R [] ltac:(intros k; cbn; tauto)) as E. cbn in E.
  split; [exact E|]. rewrite E. apply first_uses_nodup.
Qed.
(** ** Exactly the last call of each name *)
(** For every sequence of SetSameSite and SetCookie calls there is no panic, the response has
    one Set-Cookie header for each name used, in the order of first uses, and the header of a
    name is the one of the last call with that name, under the SameSite mode in force at that
    call. *)
Theorem C114_headers_partial : forall host os, exists j line,
  cookie_run host jar0 os = Ok j /\ set_cookie_headers j = map line (first_uses [] os) /\
  (forall pre n v a p d s h post, os = pre ++ OpCookie n v a p d s h :: post ->
    (forall o, In o post -> ~ sets n o) ->
    In n (first_uses [] os) /\
    exists c, sent_cookie host (in_force pre 0) n v a p d s h = Ok c /\ line n = cookie_line c).
Proof.
  intros host os. destruct (run_total host os jar0) as (j & R & _). exists j.
  set (line := fun k => match aget k (j_cookies j) with Some l => l | None => [] end). exists line.
  split; [exact R|]. destruct (run_nodup host os j R) as [Ef Nd].
  assert (G : forall k v, In (k, v) (j_cookies j) -> line k = v).
  { unfold line. clear - Nd. induction (j_cookies j) as [|[k1 v1] l IH]; [intros k v []|].
    cbn [map fst] in Nd. inversion Nd as [|? ? Ni Nd']; subst. intros k v [E|I].
    - injection E as -> ->. cbn [aget]. rewrite beq_refl. reflexivity.
    - cbn [aget]. destruct (beq_spec k1 k) as [->|Nk]; [contradiction Ni; exact (in_map fst _ _ I)|].
      destruct (beq_spec k k1); [congruence|]. apply (IH Nd'). exact I. }
  split.
  - rewrite <- Ef. unfold set_cookie_headers. rewrite map_map. apply map_ext_in. intros [k v] I. cbn. symmetry. exact (G k v I).
  - intros pre n v a p d s h post E Np.
    rewrite E, run_app in R. destruct (run_total host pre jar0) as (j1 & R1 & S1). rewrite R1 in R.
    cbn [cookie_run cookie_step] in R. cbn [j_same_site jar0] in S1. rewrite S1 in R. change SameSiteDisabled with 0 in R.
    destruct (sent_total host (in_force pre 0) n v a p d s h) as (c & Ec & Kc). rewrite Ec in R. rewrite Kc in R.
    assert (I : In (n, cookie_line c) (j_cookies j)).
    { destruct (run_nodup host pre j1 R1) as [_ Nd1].
      assert (K : forall j2, NoDup (map fst (j_cookies j2)) -> In (n, cookie_line c) (j_cookies j2) ->
        cookie_run host j2 post = Ok j -> In (n, cookie_line c) (j_cookies j)).
      { clear R E. induction post as [|o post IH]; intros j2 N2 I2 R2; [injection R2 as <-; exact I2|].
        cbn [cookie_run] in R2. destruct o as [m|n' v' a' p' d' s' h']; cbn [cookie_step] in R2.
        - eapply IH; [intros o I; apply Np; right; exact I| | |exact R2]; [exact N2|exact I2].
        - destruct (sent_total host (j_same_site j2) n' v' a' p' d' s' h') as (c' & Ec' & Kc'). rewrite Ec', Kc' in R2.
          eapply IH; [intros o I; apply Np; right; exact I| | |exact R2].
          + cbn [j_cookies]. apply put_nodup. exact N2.
          + cbn [j_cookies]. apply put_in; [exact N2|]. right. split; [|exact I2].
            intros ->. apply (Np (OpCookie n' v' a' p' d' s' h') (or_introl eq_refl)). reflexivity. }
      eapply K; [| |exact R]; cbn [j_cookies].
      - apply put_nodup. exact Nd1.
      - apply put_in; [exact Nd1|]. left. split; reflexivity. }
    split; [rewrite <- Ef; exact (in_map fst _ _ I)|]. exists c. split; [exact Ec|]. exact (G _ _ I).
Qed.
(** every name used has such a last call, so the header list is determined *)
Theorem C114_every_name_has_a_last_call : forall os n, In n (first_uses [] os) ->
  exists pre v a p d s h post, os = pre ++ OpCookie n v a p d s h :: post /\ forall o, In o post -> ~ sets n o.
Proof.
  intros os n I. assert (U : exists o, In o os /\ sets n o).
  { revert I. generalize (@nil bytes). induction os as [|o os IH]; intros seen; [intros []|].
    assert (IH' : forall sn, In n (first_uses sn os) -> exists o0, In o0 (o :: os) /\ sets n o0).
    { intros sn J. destruct (IH sn J) as (x & Ix & Sx). exists x. split; [right; exact Ix|exact Sx]. }
    destruct o as [m|n' v a p d s h]; cbn [first_uses]; [apply IH'|].
    destruct (existsb (fun k => beq k n') seen); [apply IH'|]. intros [->|J]; [|exact (IH' _ J)].
    exists (OpCookie n v a p d s h). split; [left; reflexivity|reflexivity]. }
  clear I. induction os as [|o os IH]; [destruct U as (x & [] & _)|].
  assert (D : (exists x, In x os /\ sets n x) \/ forall x, In x os -> ~ sets n x).
  { clear. induction os as [|x os IH]; [right; intros x []|].
    assert (Dx : sets n x \/ ~ sets n x).
    { destruct x as [m|n' v a p d s h]; cbn; [right; intros []|]. destruct (beq_spec n' n); [left|right]; assumption. }
    destruct Dx as [Sx|Nx]; [left; exists x; split; [left; reflexivity|exact Sx]|].
    destruct IH as [(y & Iy & Sy)|N]; [left; exists y; split; [right; exact Iy|exact Sy]|].
    right. intros y [<-|Iy]; [exact Nx|exact (N y Iy)]. }
  destruct D as [Y|N].
  - destruct (IH Y) as (pre & v & a & p & d & s & h & post & -> & Np).
    exists (o :: pre), v, a, p, d, s, h, post. split; [reflexivity|exact Np].
  - destruct U as (x & [->|Ix] & Sx); [|contradiction (N x Ix)].
    destruct x as [m|n' v a p d s h]; [destruct Sx|]. cbn in Sx. subst n'.
    exists [], v, a, p, d, s, h, os. split; [reflexivity|exact N].
Qed.
(** the first uses are the names used, each once *)
Theorem C114_names : forall os, NoDup (first_uses [] os) /\
  forall n, In n (first_uses [] os) <-> exists o, In o os /\ sets n o.
Proof.
  intros os. split; [apply first_uses_nodup|]. intros n. split.
  - intros I. destruct (C114_every_name_has_a_last_call os n I) as (pre & v & a & p & d & s & h & post & -> & _).
    exists (OpCookie n v a p d s h). split; [|reflexivity]. apply in_or_app. right. left. reflexivity.
  - assert (G : forall seen, (exists o, In o os /\ sets n o) -> In n seen \/ In n (first_uses seen os)).
    { induction os as [|o os IH]; intros seen (x & I & Sx); [destruct I|].
      destruct I as [->|I].
      - destruct x as [m|n' v a p d s h]; [destruct Sx|]. cbn in Sx. subst n'. cbn [first_uses].
        destruct (existsb (fun k => beq k n) seen) eqn:E; [|right; left; reflexivity].
        apply existsb_exists in E as (k & Ik & Ek). apply beq_eq in Ek as ->. left. exact Ik.
      - destruct o as [m|n' v a p d s h]; cbn [first_uses].
        + apply IH. exists x. split; assumption.
        + destruct (existsb (fun k => beq k n') seen); [apply IH; exists x; split; assumption|].
          destruct (IH (n' :: seen) (ex_intro _ x (conj I Sx))) as [[->|J]|J].
          * right. left. reflexivity.
          * left. exact J.
          * right. right. exact J. }
    intros X. destruct (G [] X) as [[]|J]. exact J.
Qed.
Example C114_example : exists j,
  cookie_run (B"h") jar0 [OpCookie (B"a") (B"1") 5%Z [] [] false false; OpSameSite SameSiteNone;
    OpCookie (B"b") (B"2") 0%Z [] [] false true; OpCookie (B"a") (B"3") 0%Z [] [] true false] = Ok j /\
  set_cookie_headers j = [B"a=3; domain=h; path=/; secure; SameSite=None"; B"b=2; domain=h; path=/; HttpOnly; secure; SameSite=None"].
Proof. eexists. split; vm_compute; reflexivity. Qed.
Print Assumptions C114_every_call_refuted.
Print Assumptions C114_headers_partial.
Print Assumptions C114_every_name_has_a_last_call.
Print Assumptions C114_names.
