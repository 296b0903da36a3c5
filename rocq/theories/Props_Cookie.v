(** C89, C90: reading cookies. *)
From Verif Require Import Base GoStrings GoPath M_Ctx S_Ctx M_Cookie Props_Ctx Props_Sniff.
From Coq Require Import ZifyNat ZifyN.

(** ** Specification: the Cookie header a client sends (RFC 6265, 4.2.1) *)
Definition octet (c : ascii) : Prop :=
  (bv c = 33 \/ 35 <= bv c <= 43 \/ 45 <= bv c <= 58 \/ 60 <= bv c <= 91 \/ 93 <= bv c <= 126)%N.
Definition cookie_text (n v : bytes) : bytes := n ++ "="%char :: v.
Definition wf_cookie (nv : bytes * bytes) : Prop :=
  fst nv <> [] /\ Forall octet (fst nv) /\ ~ In "="%char (fst nv) /\ Forall octet (snd nv).
Fixpoint cookie_header (l : list (bytes * bytes)) : bytes :=
  match l with
  | [] => []
  | [(n, v)] => cookie_text n v
  | (n, v) :: l' => cookie_text n v ++ B"; " ++ cookie_header l'
  end.
(** the first cookie of that name *)
Fixpoint sent (l : list (bytes * bytes)) (name : bytes) : option bytes :=
  match l with
  | [] => None
  | (n, v) :: l' => if beq n name then Some v else sent l' name
  end.

(** ** the scanner *)
Lemma cut_app c a b : ~ In c a -> cut c (a ++ c :: b) = Some (a, b).
Proof.
  induction a as [|x a IH]; intros H; cbn [app cut].
  - rewrite Ascii.eqb_refl. reflexivity.
  - destruct (Ascii.eqb_spec x c) as [->|_]; [exfalso; apply H; left; reflexivity|].
    rewrite IH by (intros X; apply H; right; exact X). reflexivity.
Qed.
Lemma cut_none c a : ~ In c a -> cut c a = None.
Proof.
  induction a as [|x a IH]; intros H; cbn [cut]; [reflexivity|].
  destruct (Ascii.eqb_spec x c) as [->|_]; [exfalso; apply H; left; reflexivity|].
  rewrite IH by (intros X; apply H; right; exact X). reflexivity.
Qed.
Lemma cut_some c s a b : cut c s = Some (a, b) -> s = a ++ c :: b /\ ~ In c a.
Proof.
  revert a b; induction s as [|x s IH]; intros a b; cbn [cut]; [discriminate|].
  destruct (Ascii.eqb_spec x c) as [->|N].
  - intros E. injection E as <- <-. split; [reflexivity|intros []].
  - destruct (cut c s) as [[u v]|]; [|discriminate]. intros E. injection E as <- <-.
    destruct (IH u v eq_refl) as [-> H]. split; [reflexivity|]. intros [X|X]; [congruence|contradiction].
Qed.
Lemma cut_none_in c s : cut c s = None -> ~ In c s.
Proof.
  induction s as [|x s IH]; cbn [cut]; [intros _ []|]. destruct (Ascii.eqb_spec x c) as [->|N]; [discriminate|].
  destruct (cut c s) as [[u v]|]; [discriminate|]. intros _ [X|X]; [congruence|exact (IH eq_refl X)].
Qed.
Definition no_blank (s : bytes) : Prop := ~ In " "%char s /\ ~ In dquote s.
Lemma octets_clean s : Forall octet s -> no_blank s /\ ~ In ";"%char s.
Proof.
  intros H. rewrite Forall_forall in H. unfold octet in H.
  split; [split|]; intros X; specialize (H _ X).
  - change (bv " "%char) with 32%N in H. lia.
  - change (bv dquote) with 34%N in H. lia.
  - change (bv ";"%char) with 59%N in H. lia.
Qed.
Lemma drop_no c s : ~ In c s -> drop_while (Ascii.eqb c) s = s.
Proof.
  destruct s as [|x s]; [reflexivity|]. intros H. cbn [drop_while].
  destruct (Ascii.eqb_spec c x) as [->|_]; [exfalso; apply H; left; reflexivity|reflexivity].
Qed.
Lemma trim_no s : ~ In " "%char s -> trim " " s = s /\ trim " " (" "%char :: s) = s.
Proof.
  intros H. unfold trim, trim_right, trim_left. cbn [drop_while]. change (Ascii.eqb " " " ") with true. cbv iota.
  assert (R : ~ In " "%char (rev s)) by (intros X; apply H; apply in_rev; exact X).
  rewrite (drop_no _ s H), (drop_no _ _ R), rev_involutive. auto.
Qed.
Lemma unquote_no s : ~ In dquote s -> unquote s = s.
Proof.
  intros H. destruct s as [|c [|d s]]; [reflexivity|reflexivity|]. unfold unquote.
  destruct (rev (c :: d :: s)) as [|e r]; [reflexivity|].
  destruct (Ascii.eqb_spec c dquote) as [->|_]; [exfalso; apply H; left; reflexivity|reflexivity].
Qed.
Lemma next_pair n v lead rest : wf_cookie (n, v) -> lead = [] \/ lead = B" " ->
  (rest = [] -> cookie_next (lead ++ cookie_text n v) = Some (n, v, [])) /\
  cookie_next (lead ++ cookie_text n v ++ ";"%char :: rest) = Some (n, v, rest).
Proof.
  intros (Hn & On & Ne & Ov) Hl. cbn [fst snd] in *.
  destruct (octets_clean n On) as [[Bn Qn] Sn]. destruct (octets_clean v Ov) as [[Bv Qv] Sv].
  assert (Seg : ~ In ";"%char (lead ++ cookie_text n v)).
  { intros X. apply in_app_or in X as [X|X]; [destruct Hl as [->| ->]; [destruct X|destruct X as [X|[]]; discriminate]|].
    unfold cookie_text in X. apply in_app_or in X as [X|[X|X]]; [contradiction|discriminate|contradiction]. }
  assert (Eq : ~ In "="%char (lead ++ n)).
  { intros X. apply in_app_or in X as [X|X]; [destruct Hl as [->| ->]; [destruct X|destruct X as [X|[]]; discriminate]|contradiction]. }
  assert (Dn : decode_cookie_arg (lead ++ n) false = n).
  { unfold decode_cookie_arg. cbv zeta iota. destruct (trim_no n Bn) as [T1 T2]. destruct Hl as [->| ->]; [exact T1|exact T2]. }
  assert (Dv : decode_cookie_arg v true = v).
  { unfold decode_cookie_arg. cbv zeta iota. rewrite (proj1 (trim_no v Bv)). apply unquote_no. exact Qv. }
  assert (Cs : cut "=" (lead ++ cookie_text n v) = Some (lead ++ n, v)).
  { unfold cookie_text. rewrite app_assoc. apply cut_app. exact Eq. }
  assert (Ne1 : forall t, is_empty (lead ++ cookie_text n v ++ t) = false).
  { intros t. destruct Hl as [->| ->]; [|reflexivity]. destruct n; [congruence|reflexivity]. }
  split.
  - intros _. unfold cookie_next. specialize (Ne1 []). rewrite app_nil_r in Ne1. rewrite Ne1, (cut_none _ _ Seg), Cs, Dn, Dv. reflexivity.
  - unfold cookie_next. rewrite Ne1. rewrite app_assoc, (cut_app ";" (lead ++ cookie_text n v) rest Seg), Cs, Dn, Dv. reflexivity.
Qed.
Lemma header_cons n v l : l <> [] -> cookie_header ((n, v) :: l) = cookie_text n v ++ ";"%char :: B" " ++ cookie_header l.
Proof. destruct l; [congruence|reflexivity]. Qed.
Lemma parse_header l : Forall wf_cookie l -> forall lead fuel, lead = [] \/ lead = B" " ->
  length (lead ++ cookie_header l) <= fuel -> l <> [] -> request_cookies fuel (lead ++ cookie_header l) = l.
Proof.
  induction 1 as [|[n v] l W F IH]; intros lead fuel Hl Hf Nl; [congruence|]. 
  assert (Nn : is_empty n = false) by (apply is_empty_false; exact (proj1 W)).
  assert (Pos : fuel <> 0).
  { intros ->. rewrite app_length in Hf. destruct W as (Hn & _). cbn [fst] in Hn.
    destruct n as [|c n]; [congruence|]. destruct l; cbn in Hf; lia. }
  destruct fuel as [|f]; [congruence|]. cbn [request_cookies].
  destruct l as [|y l].
  - cbn [cookie_header]. destruct (next_pair n v lead [] W Hl) as [E _]. rewrite (E eq_refl), Nn. cbn [andb].
    f_equal. destruct f; reflexivity.
  - rewrite header_cons in * by discriminate.
    destruct (next_pair n v lead (B" " ++ cookie_header (y :: l)) W Hl) as [_ E]. rewrite E, Nn. cbn [andb]. f_equal.
    apply IH; [right; reflexivity| |discriminate]. rewrite !app_length in *. cbn [length] in *. rewrite !app_length in *.
    assert (1 <= length n) by (destruct n; [discriminate|cbn; lia]). cbn [length] in *. lia.
Qed.
Lemma find_sent l name : match find (fun kv => beq (fst kv) name) l with Some (_, v) => Some v | None => None end = sent l name.
Proof. induction l as [|[n v] l IH]; cbn [find sent fst]; [reflexivity|]. destruct (beq n name); [reflexivity|exact IH]. Qed.
Lemma header_cookie_sent l name : Forall wf_cookie l ->
  header_cookie (cookie_header l) name = match sent l name with Some v => v | None => [] end.
Proof.
  intros F. unfold header_cookie. destruct l as [|y l]; [reflexivity|].
  pose proof (parse_header _ F [] (length (cookie_header (y :: l))) (or_introl eq_refl) (le_n _) ltac:(discriminate)) as P.
  cbn [app] in P. rewrite P. rewrite <- find_sent. destruct (find _ _) as [[? ?]|]; reflexivity.
Qed.

(** ** C89: Cookie gives what the client sent *)
Definition C89_claim : Prop := forall l name v, Forall wf_cookie l -> sent l name = Some v -> v <> [] ->
  exists key, ctx_cookie (cookie_header l) name = CkCookie key v.
(** the value is parsed as a cookie again: what precedes an equals sign is lost *)
Theorem C89_sent_value_refuted : ~ C89_claim.
Proof.
  intros H. destruct (H [(B"t", B"Zm9v=")] (B"t") (B"Zm9v=")) as (key & E).
  - constructor; [|constructor]. split; [discriminate|]. split; [|split].
    + repeat constructor; unfold octet; vm_compute; intuition discriminate.
    + cbn. intuition discriminate.
    + repeat (constructor; [unfold octet; vm_compute; intuition discriminate|]). constructor.
  - reflexivity.
  - discriminate.
  - vm_compute in E. discriminate.
Qed.
(** Proved: the first cookie of that name, for values without an equals sign; the exact answer
    for the others; the error exactly when there is none or it is empty. *)
Theorem C89_sent_value_partial : forall l name, Forall wf_cookie l ->
  (sent l name = None \/ sent l name = Some [] <-> ctx_cookie (cookie_header l) name = CkNotFound) /\
  (forall v, sent l name = Some v -> v <> [] -> ~ In "="%char v -> ctx_cookie (cookie_header l) name = CkCookie [] v) /\
  (forall a b, sent l name = Some (a ++ "="%char :: b) -> ~ In "="%char a -> ctx_cookie (cookie_header l) name = CkCookie a b).
Proof.
  intros l name F. unfold ctx_cookie. rewrite (header_cookie_sent l name F).
  assert (Ov : forall v, sent l name = Some v -> Forall octet v).
  { intros v. induction F as [|[n w] l (_ & _ & _ & O) _ IH]; cbn [sent]; [discriminate|].
    destruct (beq n name); [intros E; injection E as <-; exact O|exact IH]. }
  destruct (sent l name) as [v|].
  2:{ split; [split; auto|]. split; [discriminate|discriminate]. }
  specialize (Ov v eq_refl). destruct (octets_clean v Ov) as [[Bv Qv] Sv].
  assert (Dec : forall x q, ~ In " "%char x -> ~ In dquote x -> decode_cookie_arg x q = x).
  { intros x q H1 H2. unfold decode_cookie_arg. cbv zeta. rewrite (proj1 (trim_no x H1)). destruct q; [apply unquote_no; exact H2|reflexivity]. }
  destruct v as [|c v].
  { split; [split; auto|]. split; [intros v E; injection E as <-; congruence|]. intros a b E. destruct a; discriminate. }
  cbn [is_empty]. unfold cookie_next. cbn [is_empty]. rewrite (cut_none _ _ Sv).
  split; [|split].
  - split; [intros [E|E]; discriminate|]. destruct (cut "=" (c :: v)) as [[k w]|]; discriminate.
  - intros v' E _ Ne. injection E as <-. rewrite (cut_none _ _ Ne), Dec; [reflexivity|exact Bv|exact Qv].
  - intros a b E Na. injection E as E. rewrite E in *. rewrite (cut_app _ _ _ Na). rewrite !Dec; [reflexivity| | | |].
    all: intros X; first [apply Bv; apply in_or_app; first [left; exact X|right; right; exact X]
                         |apply Qv; apply in_or_app; first [left; exact X|right; right; exact X]].
Qed.
(** whatever the header, no attributes are ever read out of the value *)
Lemma trim_incl c x s : In x (trim c s) -> In x s.
Proof.
  assert (D : forall s, In x (drop_while (Ascii.eqb c) s) -> In x s).
  { clear s. induction s as [|y s IH]; cbn [drop_while]; [auto|]. destruct (Ascii.eqb c y); [right; auto|auto]. }
  unfold trim, trim_right, trim_left. intros H. apply in_rev in H. apply D in H. apply in_rev in H. apply D in H. exact H.
Qed.
Lemma unquote_incl x s : In x (unquote s) -> In x s.
Proof.
  unfold unquote. destruct s as [|c [|d s]]; auto. destruct (rev (c :: d :: s)) as [|e r]; auto.
  destruct (_ && _); [|auto]. intros H. right. cbn [tl] in H. rewrite <- (firstn_skipn (length (c :: d :: s) - 2) (d :: s)).
  apply in_or_app. left. exact H.
Qed.
Lemma decode_incl x s q : In x (decode_cookie_arg s q) -> In x s.
Proof. unfold decode_cookie_arg. cbv zeta. destruct q; intros H; [apply unquote_incl in H|]; apply trim_incl in H; exact H. Qed.
Lemma cookies_no_semicolon : forall fuel b, Forall (fun kv => ~ In ";"%char (snd kv)) (request_cookies fuel b).
Proof.
  induction fuel as [|f IH]; intros b; cbn [request_cookies]; [constructor|].
  unfold cookie_next. destruct (is_empty b); [constructor|].
  destruct (match cut ";" b with Some x => x | None => (b, []) end) as [seg rest] eqn:E.
  assert (Ns : ~ In ";"%char seg).
  { destruct (cut ";" b) as [[u v]|] eqn:C; injection E as <- <-; [apply cut_some in C; apply C|apply cut_none_in; exact C]. }
  destruct (cut "=" seg) as [[k v]|] eqn:C; destruct (_ && _); try apply IH; constructor; try apply IH; cbn [snd]; intros X; apply decode_incl in X.
  - apply cut_some in C as [-> _]. apply Ns, in_or_app. right. right. exact X.
  - contradiction.
Qed.
Theorem C89_no_attributes : forall header name, ctx_cookie header name <> CkAttributes.
Proof.
  intros header name. unfold ctx_cookie.
  assert (H : ~ In ";"%char (header_cookie header name)).
  { unfold header_cookie. pose proof (cookies_no_semicolon (length header) header) as F. rewrite Forall_forall in F.
    destruct (find _ _) as [[k v]|] eqn:E; [|intros []]. apply find_some in E as [I _]. exact (F _ I). }
  destruct (is_empty (header_cookie header name)) eqn:Em; [discriminate|]. unfold cookie_next. rewrite Em, (cut_none _ _ H).
  destruct (cut "=" _) as [[k v]|]; discriminate.
Qed.
(** Cookies.Get: the first cookie of that name, or the empty cookie *)
Theorem C89_cookies_get : forall (C : Type) (cs : list (bytes * C)) name,
  (cookies_get cs name = None <-> ~ In name (map fst cs)) /\
  (forall c, cookies_get cs name = Some c <->
     exists l1 l2, cs = l1 ++ (name, c) :: l2 /\ ~ In name (map fst l1)).
Proof.
  intros C cs name. unfold cookies_get. induction cs as [|[n x] cs [IH1 IH2]]; cbn [find map fst].
  - split; [split; [intros _ []|reflexivity]|]. intros c. split; [discriminate|]. intros (l1 & l2 & E & _). destruct l1; discriminate.
  - destruct (beq_spec n name) as [->|N]; split.
    + split; [discriminate|]. intros H. exfalso. apply H. left. reflexivity.
    + intros c. split.
      * intros E. injection E as <-. exists [], cs. split; [reflexivity|intros []].
      * intros (l1 & l2 & E & H). destruct l1 as [|y l1]; [injection E as <- _; reflexivity|]. injection E as <- _.
        exfalso. apply H. left. reflexivity.
    + rewrite IH1. cbn [In]. intuition congruence.
    + intros c. rewrite IH2. split; intros (l1 & l2 & E & H).
      * exists ((n, x) :: l1), l2. rewrite E. split; [reflexivity|]. cbn [map fst In]; tauto.
      * destruct l1 as [|y l1]; [exfalso; apply N; injection E; intros; subst; reflexivity|]. injection E as <- E. exists l1, l2. split; [exact E|].
        intros X. apply H. right. exact X.
Qed.

(** ** C90: reading back a cookie that was set.  The client sends what SetCookie put in the
    response, with other cookies or without *)
Definition sent_back (l : list (bytes * bytes)) (ck : cookie) : Prop :=
  Forall wf_cookie l /\ sent l (ck_key ck) = Some (ck_value ck).
Definition C90_claim : Prop := forall host ss name value age path domain secure http_only ck l,
  set_cookie host ss name value age path domain secure http_only = Ok ck -> sent_back l ck -> value <> [] ->
  exists key, ctx_cookie (cookie_header l) name = CkCookie key value.
Lemma escape_octets v : Forall octet (query_escape v) /\ ~ In "="%char (query_escape v).
Proof.
  assert (G : forall c, let e := query_escape [c] in
    forallb (fun x => negb (Ascii.eqb x "=") && ((bv x =? 33) || (35 <=? bv x) && (bv x <=? 43) || (45 <=? bv x) && (bv x <=? 58)
      || (60 <=? bv x) && (bv x <=? 91) || (93 <=? bv x) && (bv x <=? 126))%N) e = true).
  { intros c. apply (Props_Sniff.ascii_all (fun c => forallb (fun x => negb (Ascii.eqb x "=") && ((bv x =? 33) || (35 <=? bv x) && (bv x <=? 43) || (45 <=? bv x) && (bv x <=? 58)
      || (60 <=? bv x) && (bv x <=? 91) || (93 <=? bv x) && (bv x <=? 126))%N) (query_escape [c]))). vm_compute. reflexivity. }
  assert (H : Forall (fun x => octet x /\ x <> "="%char) (query_escape v)).
  { induction v as [|c v IH]; [constructor|]. change (query_escape (c :: v)) with (query_escape [c] ++ query_escape v) ||
      (replace (query_escape (c :: v)) with (query_escape [c] ++ query_escape v) by (unfold query_escape; cbn [flat_map]; rewrite app_nil_r; reflexivity)).
    apply Forall_app. split; [|exact IH]. specialize (G c). cbv zeta in G. rewrite forallb_forall in G. apply Forall_forall. intros x Hx.
    specialize (G x Hx). apply andb_prop in G as [G1 G2]. split.
    - unfold octet. rewrite !orb_true_iff, !andb_true_iff, !N.leb_le, N.eqb_eq in G2. lia.
    - apply negb_true_iff, Ascii.eqb_neq in G1. exact G1. }
  split; [eapply Forall_impl; [|exact H]; intros ? [? _]; assumption|]. rewrite Forall_forall in H. intros X. destruct (H _ X) as [_ Y]. congruence.
Qed.
Lemma wf_simple n v : forallb (fun x => query_safe x) n = true -> n <> [] -> forallb (fun x => query_safe x || Ascii.eqb x "+") v = true -> wf_cookie (n, v).
Proof.
  assert (G : forall c, negb (query_safe c || Ascii.eqb c "+") || ((bv c =? 33) || (35 <=? bv c) && (bv c <=? 43) || (45 <=? bv c) && (bv c <=? 58)
      || (60 <=? bv c) && (bv c <=? 91) || (93 <=? bv c) && (bv c <=? 126))%N = true) by (apply Props_Sniff.ascii_all; vm_compute; reflexivity).
  assert (O : forall c, query_safe c || Ascii.eqb c "+" = true -> octet c).
  { intros c H. specialize (G c). rewrite H in G. cbn [negb orb] in G. unfold octet.
    rewrite !orb_true_iff, !andb_true_iff, !N.leb_le, N.eqb_eq in G. lia. }
  intros Hn Nn Hv. rewrite forallb_forall in Hn, Hv. split; [exact Nn|]. split; [|split].
  - apply Forall_forall. intros x Hx. apply O. rewrite (Hn x Hx). reflexivity.
  - intros X. specialize (Hn _ X). discriminate.
  - apply Forall_forall. intros x Hx. apply O, Hv. exact Hx.
Qed.
(** the value stays escaped *)
Theorem C90_read_back_refuted : ~ C90_claim.
Proof.
  intros H. destruct (H (B"h") 0 (B"n") (B"a b") 0%Z [] [] false false _ [(B"n", B"a+b")] ltac:(reflexivity)) as (key & E).
  - split; [constructor; [|constructor]; apply wf_simple; [reflexivity|discriminate|reflexivity]|reflexivity].
  - discriminate.
  - vm_compute in E. discriminate.
Qed.
(** letters, digits and - _ . ~ *)
Definition unreserved (c : ascii) : Prop :=
  In c (B"abcdefghijklmnopqrstuvwxyzABCDEFGHIJKLMNOPQRSTUVWXYZ0123456789-_.~").
Lemma unreserved_safe c : unreserved c -> query_safe c = true.
Proof.
  intros H. assert (A : forallb query_safe (B"abcdefghijklmnopqrstuvwxyzABCDEFGHIJKLMNOPQRSTUVWXYZ0123456789-_.~") = true) by (vm_compute; reflexivity).
  rewrite forallb_forall in A. exact (A c H).
Qed.
(** Proved: the value read is the query-escaped one, which is the value itself if it has only
    letters, digits and - _ . ~ ; an empty value is not found. *)
Theorem C90_read_back_partial : forall host ss name value age path domain secure http_only ck l,
  set_cookie host ss name value age path domain secure http_only = Ok ck -> sent_back l ck ->
  (value = [] -> ctx_cookie (cookie_header l) name = CkNotFound) /\
  (value <> [] -> exists v, ctx_cookie (cookie_header l) name = CkCookie [] v /\ query_unescape v = Some value /\
     (Forall unreserved value -> v = value)).
Proof.
  intros host ss name value age path domain secure ho ck l Hs [F S].
  pose proof (C78_cookie_value _ _ _ _ _ _ _ _ _ _ Hs) as [U _].
  unfold set_cookie in Hs. destruct (if is_empty domain then split_host host else Ok domain) as [d|]; [|discriminate].
  injection Hs as <-. cbn [ck_value ck_key] in *.
  destruct (C89_sent_value_partial l name F) as (P1 & P2 & _). split.
  - intros ->. apply P1. right. exact S.
  - intros Nv. exists (query_escape value). split; [|split; [exact U|]].
    + apply P2; [exact S| |apply escape_octets]. intros X. rewrite X in U. cbn in U. injection U as U. congruence.
    + intros Q. unfold query_escape. clear - Q. induction value as [|c value IH]; [reflexivity|]. cbn [flat_map].
      inversion Q as [|? ? Q1 Q2]; subst. rewrite (unreserved_safe _ Q1). cbn [app]. f_equal. apply IH. exact Q2.
Qed.
Example C90_example : exists ck, set_cookie (B"h") 0 (B"sid") (B"a-1") 0%Z [] [] false false = Ok ck /\
  sent_back [(B"x", B"1+2"); (B"sid", B"a-1"); (B"sid", B"old")] ck /\
  cookie_header [(B"x", B"1+2"); (B"sid", B"a-1"); (B"sid", B"old")] = B"x=1+2; sid=a-1; sid=old" /\
  ctx_cookie (B"x=1+2; sid=a-1; sid=old") (B"sid") = CkCookie [] (B"a-1").
Proof.
  eexists. split; [reflexivity|]. split; [split|split; vm_compute; reflexivity].
  - repeat (constructor; [apply wf_simple; [reflexivity|discriminate|reflexivity]|]). constructor.
  - reflexivity.
Qed.
Print Assumptions C89_sent_value_refuted.
Print Assumptions C89_sent_value_partial.
Print Assumptions C89_no_attributes.
Print Assumptions C89_cookies_get.
Print Assumptions C90_read_back_refuted.
Print Assumptions C90_read_back_partial.
