(** C54-C56: conditional requests. *)
From Verif Require Import Base GoStrings GoInt M_Range S_Range P_Range M_Cond S_Cond P_Cond.
From Coq Require Import ZifyNat ZifyN.

(** ** C56 *)
(** each pass through the loop consumes a byte: as many passes as bytes suffice, whatever
    the comparison, and more do not change the answer *)
Theorem C56_terminates : forall same s, exists b, forall fuel, length s <= fuel ->
  etag_loop fuel same s = Some b.
Proof.
  intros same s. destruct (etag_loop_ok same (length s) s (le_n _)) as (b & _ & Hb). exists b.
  intros fuel Hf. destruct (etag_loop_ok same fuel s Hf) as (b' & E & Hb'). rewrite E. f_equal.
  destruct b, b'; intuition congruence.
Qed.
Theorem C56_preconditions_terminate : forall tp q p m, exists r, check_preconditions tp q p m = Some r.
Proof.
  intros tp q p m. unfold check_preconditions, check_if_match, check_if_none_match.
  set (im := hpeek (q_hdr q) (B"If-Match")). set (inm := hpeek (q_hdr q) (B"If-None-Match")).
  destruct (C56_terminates (fun e => etag_strong e (hpeek (p_hdr p) (B"Etag"))) im) as (b & Eb).
  destruct (C56_terminates (fun e => etag_weak e (hpeek (p_hdr p) (B"Etag"))) inm) as (b' & Eb').
  rewrite (Eb _ (le_n _)), (Eb' _ (le_n _)).
  destruct (is_empty im); [|destruct b]; cbv iota;
    try (match goal with |- context [is_cfalse ?c] => destruct (is_cfalse c) end; [eauto|]);
    cbn [is_cfalse]; try (destruct (is_empty inm); [|destruct b']); eauto;
    repeat match goal with |- context [if ?c then _ else _] => destruct c end; eauto.
Qed.

(** ** C55 *)
Definition if_match (q : sreq) := hpeek (q_hdr q) (B"If-Match").
Definition if_none_match (q : sreq) := hpeek (q_hdr q) (B"If-None-Match").
Definition resp_etag (p : sresp) := hpeek (p_hdr p) (B"Etag").
Lemma hit_strong v s : hit (fun e => etag_strong e v) s <-> if_match_ok s v.
Proof.
  unfold hit, if_match_ok. split; (intros [H|(e & L & E)]; [left; exact H|right; exists e; split; [exact L|]]; apply strong_iff; exact E).
Qed.
Lemma hit_weak v s : hit (fun e => etag_weak e v) s <-> none_match_hit s v.
Proof.
  unfold hit, none_match_hit. split; (intros [H|(e & L & E)]; [left; exact H|right; exists e; split; [exact L|]]; apply weak_iff; exact E).
Qed.
(** for every header value, well-formed or not *)
Theorem C55_if_match : forall q p,
  (if_match q = [] -> check_if_match q p = Some CNone) /\
  (if_match q <> [] -> if_match_ok (if_match q) (resp_etag p) -> check_if_match q p = Some CTrue) /\
  (if_match q <> [] -> ~ if_match_ok (if_match q) (resp_etag p) -> check_if_match q p = Some CFalse).
Proof.
  intros q p. unfold check_if_match. fold (if_match q). fold (resp_etag p).
  destruct (etag_loop_ok (fun e => etag_strong e (resp_etag p)) (length (if_match q)) (if_match q) (le_n _)) as (b & E & Hb).
  rewrite hit_strong in Hb. rewrite E. repeat split; intros H; [rewrite H; reflexivity| |]; intros K;
    rewrite (nonempty_is _ H); destruct b; intuition congruence.
Qed.
Theorem C55_if_none_match : forall q p,
  (if_none_match q = [] -> check_if_none_match q p = Some CNone) /\
  (if_none_match q <> [] -> none_match_hit (if_none_match q) (resp_etag p) -> check_if_none_match q p = Some CFalse) /\
  (if_none_match q <> [] -> ~ none_match_hit (if_none_match q) (resp_etag p) -> check_if_none_match q p = Some CTrue).
Proof.
  intros q p. unfold check_if_none_match. fold (if_none_match q). fold (resp_etag p).
  destruct (etag_loop_ok (fun e => etag_weak e (resp_etag p)) (length (if_none_match q)) (if_none_match q) (le_n _)) as (b & E & Hb).
  rewrite hit_weak in Hb. rewrite E. repeat split; intros H; [rewrite H; reflexivity| |]; intros K;
    rewrite (nonempty_is _ H); destruct b; intuition congruence.
Qed.
(** what is listed in a comma-separated list of tags: exactly its elements *)
Lemma listed_element es s t x : etag_element es s ->
  (listed (s ++ t) x <-> (exists e, In e es /\ x = Tag e) \/ listed t x).
Proof.
  intros E. destruct E as [o Oo|o1 e o2 O1 O2 V].
  - split; [intros L; right; exact (listed_ows_inv _ _ _ Oo L)|]. intros [(e & [] & _)|L].
    apply listed_ows; assumption.
  - rewrite <- !app_assoc. split.
    + intros L. apply (listed_ows_inv _ _ _ O1) in L. apply (listed_render _ _ _ V) in L.
      destruct L as [->|L]; [left; exists e; split; [left; reflexivity|reflexivity]|right].
      exact (listed_ows_inv _ _ _ O2 L).
    + intros [(e' & [<-|[]] & ->)|L]; apply (listed_ows _ _ _ O1).
      * apply L_here; exact V.
      * apply L_after; [exact V|]. apply listed_ows; assumption.
Qed.
Lemma listed_list es s x : etag_list es s -> (listed s x <-> exists e, In e es /\ x = Tag e).
Proof.
  induction 1 as [es s E|es s es' t E R IH].
  - rewrite <- (app_nil_r s), (listed_element es s [] x E). split; [intros [H|H]; [exact H|exfalso; exact (listed_nil _ H)]|auto].
  - rewrite (listed_element es s _ x E). split.
    + intros [(e & I & ->)|L]; [exists e; split; [apply in_or_app; left; exact I|reflexivity]|].
      apply (listed_skip ","%char t x (or_intror eq_refl)) in L. apply IH in L as (e & I & ->).
      exists e. split; [apply in_or_app; right; exact I|reflexivity].
    + intros (e & I & ->). apply in_app_or in I as [I|I]; [left; exists e; split; [exact I|reflexivity]|right].
      apply L_comma. apply IH. exists e. split; [exact I|reflexivity].
Qed.
Theorem C55_etag_lists : forall q p es,
  (etag_list es (if_match q) -> if_match q <> [] ->
     (check_if_match q p = Some CTrue <-> exists e, In e es /\ e_weak e = false /\ resp_etag p = render e) /\
     (check_if_match q p = Some CTrue \/ check_if_match q p = Some CFalse)) /\
  (etag_list es (if_none_match q) -> if_none_match q <> [] ->
     (check_if_none_match q p = Some CFalse <->
        exists e, In e es /\ (resp_etag p = quoted (e_opaque e) \/ resp_etag p = B"W/" ++ quoted (e_opaque e))) /\
     (check_if_none_match q p = Some CTrue \/ check_if_none_match q p = Some CFalse)).
Proof.
  intros q p es. split; intros L N.
  - destruct (C55_if_match q p) as (_ & H1 & H2).
    assert (K : if_match_ok (if_match q) (resp_etag p) <-> exists e, In e es /\ e_weak e = false /\ resp_etag p = render e).
    { unfold if_match_ok. split.
      - intros [X|(e & X & W & E)]; apply (listed_list _ _ _ L) in X as (e' & I & Ee); [discriminate|].
        injection Ee as ->. exists e'. split; [exact I|]. split; [exact W|]. rewrite E. unfold render. rewrite W. reflexivity.
      - intros (e & I & W & E). right. exists e. split; [apply (listed_list _ _ _ L); exists e; split; [exact I|reflexivity]|].
        split; [exact W|]. rewrite E. unfold render. rewrite W. reflexivity. }
    assert (D : if_match_ok (if_match q) (resp_etag p) \/ ~ if_match_ok (if_match q) (resp_etag p)).
    { rewrite <- hit_strong.
      destruct (etag_loop_ok (fun e => etag_strong e (resp_etag p)) (length (if_match q)) (if_match q) (le_n _)) as ([|] & _ & Hb);
      [left; apply Hb; reflexivity|right; intros X; apply Hb in X; discriminate]. }
    rewrite <- K. destruct D as [D|D].
    + rewrite (H1 N D). split; [split; auto|left; reflexivity].
    + rewrite (H2 N D). split; [split; [discriminate|intros X; contradiction]|right; reflexivity].
  - destruct (C55_if_none_match q p) as (_ & H1 & H2).
    assert (K : none_match_hit (if_none_match q) (resp_etag p) <-> exists e, In e es /\ (resp_etag p = quoted (e_opaque e) \/ resp_etag p = B"W/" ++ quoted (e_opaque e))).
    { unfold none_match_hit. split.
      - intros [X|(e & X & W)]; apply (listed_list _ _ _ L) in X as (e' & I & Ee); [discriminate|].
        injection Ee as ->. exists e'. split; [exact I|exact W].
      - intros (e & I & W). right. exists e. split; [apply (listed_list _ _ _ L); exists e; split; [exact I|reflexivity]|exact W]. }
    assert (D : none_match_hit (if_none_match q) (resp_etag p) \/ ~ none_match_hit (if_none_match q) (resp_etag p)).
    { rewrite <- hit_weak.
      destruct (etag_loop_ok (fun e => etag_weak e (resp_etag p)) (length (if_none_match q)) (if_none_match q) (le_n _)) as ([|] & _ & Hb);
      [left; apply Hb; reflexivity|right; intros X; apply Hb in X; discriminate]. }
    rewrite <- K. destruct D as [D|D].
    + rewrite (H1 N D). split; [split; auto|right; reflexivity].
    + rewrite (H2 N D). split; [split; [discriminate|intros X; contradiction]|left; reflexivity].
Qed.
(** a lone star, with blanks around, always matches *)
Theorem C55_star : forall q p o1 o2, ows o1 -> ows o2 ->
  (if_match q = o1 ++ "*"%char :: o2 -> check_if_match q p = Some CTrue) /\
  (if_none_match q = o1 ++ "*"%char :: o2 -> check_if_none_match q p = Some CFalse).
Proof.
  intros q p o1 o2 O1 O2.
  assert (N : forall s : bytes, s = o1 ++ "*"%char :: o2 -> s <> []) by (intros s -> X; destruct o1; discriminate).
  split; intros E.
  - apply (C55_if_match q p); [apply N; exact E|]. left. rewrite E. apply listed_ows; [exact O1|constructor 3].
  - apply (C55_if_none_match q p); [apply N; exact E|]. left. rewrite E. apply listed_ows; [exact O1|constructor 3].
Qed.
Example C55_example :
  let q := SReq (B"GET") (B"/f") [(B"If-Match", B" W/""a"", ""b,c""")] in
  etag_list [ETag true (B"a"); ETag false (B"b,c")] (if_match q) /\
  check_if_match q (SResp 200 [(B"Etag", B"""b,c""")] []) = Some CTrue /\
  check_if_match q (SResp 200 [(B"Etag", B"W/""a""")] []) = Some CFalse.
Proof.
  cbv zeta. split; [|split; vm_compute; reflexivity].
  change (if_match _) with ((B" " ++ render (ETag true (B"a")) ++ []) ++ ","%char :: (B" " ++ render (ETag false (B"b,c")) ++ [])).
  assert (Bl : ows (B" ")) by (constructor; [left; reflexivity|constructor]).
  change [ETag true (B"a"); ETag false (B"b,c")] with ([ETag true (B"a")] ++ [ETag false (B"b,c")]).
  assert (Va : forall o, forallb etag_byte o = true -> Forall etagc o).
  { intros o H. rewrite forallb_forall in H. apply Forall_forall. intros x Hx. apply etag_byte_iff, H, Hx. }
  apply ELcons; [|apply EL1].
  - apply (EE1 (B" ") (ETag true (B"a")) []); [exact Bl|constructor|apply Va; reflexivity].
  - apply (EE1 (B" ") (ETag false (B"b,c")) []); [exact Bl|constructor|apply Va; reflexivity].
Qed.

(** ** C54 *)
Section C54.
  Local Open Scope Z_scope.
  Variable time_parse : bytes -> bytes -> option gtime.
  Notation date := (http_date time_parse time_formats).
  Lemma date_iff text t : parse_time time_parse text = Some t <-> date text t.
  Proof.
    unfold parse_time, http_date. generalize time_formats as ls. induction ls as [|l ls IH]; cbn [parse_time_in].
    - split; [discriminate|]. intros (a & f & b & E & _). destruct a; discriminate.
    - destruct (time_parse l text) as [t'|] eqn:P.
      + split.
        * intros X; injection X as ->. exists [], l, ls. split; [reflexivity|split; [exact P|constructor]].
        * intros (a & f & b & E & Pf & F). destruct a as [|g a]; [injection E as -> _; congruence|].
          injection E as <- _. inversion F; subst. congruence.
      + rewrite IH. split.
        * intros (a & f & b & -> & Pf & F). exists (l :: a), f, b. split; [reflexivity|split; [exact Pf|constructor; assumption]].
        * intros (a & f & b & E & Pf & F). destruct a as [|g a]; [injection E as -> _; congruence|].
          injection E as <- ->. inversion F; subst. exists a, f, b. auto.
  Qed.
  Lemma date_none text : parse_time time_parse text = None <-> ~ exists t, date text t.
  Proof.
    destruct (parse_time time_parse text) as [t|] eqn:E.
    - split; [discriminate|]. intros H. exfalso. apply H. exists t. apply date_iff. exact E.
    - split; [|reflexivity]. intros _ (t & D). apply date_iff in D. congruence.
  Qed.
  Lemma known_iff m : is_zero_time m = false <-> known m.
  Proof.
    unfold is_zero_time, known, zero_time, year1. rewrite orb_false_iff, !Z.eqb_neq. reflexivity.
  Qed.
  Lemma second_iff m s : in_second m s <-> unix m = s.
  Proof.
    unfold in_second, unix. pose proof (Z.div_mod m 1000000000 ltac:(lia)) as D.
    pose proof (Z.mod_pos_bound m 1000000000 ltac:(lia)). split; intros H'; [|lia].
    symmetry. apply (Z.div_unique m 1000000000 s (m - s * 1000000000)); lia.
  Qed.
  Lemma modified_iff m t : (truncate_sec m <? t) || (truncate_sec m =? t) = false <-> modified_after m t.
  Proof.
    unfold modified_after, truncate_sec. rewrite orb_false_iff, Z.ltb_ge, Z.eqb_neq. split.
    - intros [H1 H2]. exists (unix m). split; [apply second_iff; reflexivity|lia].
    - intros (s & Hs & Ht). apply second_iff in Hs. subst s. lia.
  Qed.

  Definition hdr (q : sreq) (k : bytes) : bytes := hpeek (q_hdr q) k.
  Definition is_get_head (q : sreq) : Prop := q_method q = B"GET" \/ q_method q = B"HEAD".

  (** RFC 7232 section 6, step by step, in terms of header values, the response ETag and
      the modification time *)
  Definition step1_fails (q : sreq) (p : sresp) : Prop :=      (* If-Match *)
    hdr q (B"If-Match") <> [] /\ ~ if_match_ok (hdr q (B"If-Match")) (resp_etag p).
  Definition step2_fails (q : sreq) (m : gtime) : Prop :=      (* If-Unmodified-Since, if no If-Match *)
    hdr q (B"If-Match") = [] /\ known m /\ hdr q (B"If-Unmodified-Since") <> [] /\
    exists t, date (hdr q (B"If-Unmodified-Since")) t /\ modified_after m t.
  Definition step3_fails (q : sreq) (p : sresp) : Prop :=      (* If-None-Match *)
    hdr q (B"If-None-Match") <> [] /\ none_match_hit (hdr q (B"If-None-Match")) (resp_etag p).
  Definition step4_fails (q : sreq) (m : gtime) : Prop :=      (* If-Modified-Since, if no If-None-Match *)
    hdr q (B"If-None-Match") = [] /\ is_get_head q /\ known m /\ hdr q (B"If-Modified-Since") <> [] /\
    exists t, date (hdr q (B"If-Modified-Since")) t /\ ~ modified_after m t.
  (** If-Range: a leading ETag must match strongly, otherwise the date must be that of the
      modification time, to the second *)
  Definition if_range_holds (q : sreq) (p : sresp) (m : gtime) : Prop :=
    exists o1 o2 v, ows o1 /\ ows o2 /\ hdr q (B"If-Range") = o1 ++ v ++ o2 /\ 
    ((exists e s, valid_etag e /\ v = render e ++ s /\ strong_eq e (resp_etag p)) \/
     ((~ exists e s, valid_etag e /\ v = render e ++ s) /\ (forall c, hd_error v = Some c -> ~ blank_byte c) /\
      m <> year1 /\ exists t s, date (hdr q (B"If-Range")) t /\ in_second t s /\ in_second m s)).
  Definition range_off (q : sreq) (p : sresp) (m : gtime) : Prop :=
    is_get_head q /\ hdr q (B"If-Range") <> [] /\ ~ if_range_holds q p m.

  Lemma get_head_iff q : get_or_head q = true <-> is_get_head q.
  Proof. unfold get_or_head, is_get_head. rewrite orb_true_iff, !beq_eq. reflexivity. Qed.
  Lemma ius_iff q m : is_cfalse (check_if_unmodified_since time_parse q m) = true <->
    known m /\ hdr q (B"If-Unmodified-Since") <> [] /\
    exists t, date (hdr q (B"If-Unmodified-Since")) t /\ modified_after m t.
  Proof.
    unfold check_if_unmodified_since. fold (hdr q (B"If-Unmodified-Since")).
    destruct (hdr q (B"If-Unmodified-Since")) as [|c h] eqn:E; cbn [is_empty orb].
    { split; [discriminate|]. intros (_ & X & _). congruence. }
    rewrite <- known_iff. destruct (is_zero_time m) eqn:Z0.
    { split; [discriminate|]. intros (X & _). congruence. }
    destruct (parse_time time_parse (c :: h)) as [t|] eqn:P.
    - destruct ((truncate_sec m <? t) || (truncate_sec m =? t)) eqn:T; cbn [is_cfalse].
      + split; [discriminate|]. intros (_ & _ & t' & D & M). apply date_iff in D. rewrite P in D. injection D as <-.
        apply modified_iff in M. congruence.
      + split; [|reflexivity]. intros _. repeat split; [discriminate|]. exists t. split; [apply date_iff; exact P|apply modified_iff; exact T].
    - split; [discriminate|]. intros (_ & _ & t' & D & _). apply date_iff in D. congruence.
  Qed.
  Lemma ims_iff q m : is_cfalse (check_if_modified_since time_parse q m) = true <->
    is_get_head q /\ known m /\ hdr q (B"If-Modified-Since") <> [] /\
    exists t, date (hdr q (B"If-Modified-Since")) t /\ ~ modified_after m t.
  Proof.
    unfold check_if_modified_since. fold (hdr q (B"If-Modified-Since")). rewrite <- get_head_iff.
    destruct (get_or_head q); cbn [negb].
    2:{ split; [discriminate|]. intros (X & _). congruence. }
    destruct (hdr q (B"If-Modified-Since")) as [|c h] eqn:E; cbn [is_empty orb].
    { split; [discriminate|]. intros (_ & _ & X & _). congruence. }
    rewrite <- known_iff. destruct (is_zero_time m) eqn:Z0.
    { split; [discriminate|]. intros (_ & X & _). congruence. }
    destruct (parse_time time_parse (c :: h)) as [t|] eqn:P.
    - destruct ((truncate_sec m <? t) || (truncate_sec m =? t)) eqn:T; cbn [is_cfalse].
      + split; [|reflexivity]. intros _. repeat split; [discriminate|]. exists t. split; [apply date_iff; exact P|].
        intros M. apply modified_iff in M. congruence.
      + split; [discriminate|]. intros (_ & _ & _ & t' & D & M). apply date_iff in D. rewrite P in D. injection D as <-.
        exfalso. apply M. apply modified_iff. exact T.
    - split; [discriminate|]. intros (_ & _ & _ & t' & D & _). apply date_iff in D. congruence.
  Qed.
  (** scan_etag on an arbitrary string *)
  Lemma scan_some s e r : scan_etag s = (e, r) -> e <> [] ->
    exists t, valid_etag t /\ e = render t /\ textproto_trim s = render t ++ r.
  Proof.
    intros H Ne. assert (E : scan_etag (textproto_trim s) = (e, r)).
    { rewrite <- H. unfold scan_etag.
      assert (X : textproto_trim (textproto_trim s) = textproto_trim s).
      { rewrite <- (app_nil_r (textproto_trim s)) at 1. apply (trim_ows [] _ []); [constructor|constructor|apply trim_tight]. }
      rewrite X. reflexivity. }
    exact (scan_inv _ _ _ (trim_tight s) E Ne).
  Qed.
  Lemma scan_of s t u : valid_etag t -> textproto_trim s = render t ++ u -> scan_etag s = (render t, u).
  Proof.
    intros V E. pose proof (trim_tight s) as T. rewrite E in T. pose proof (scan_render t u V T) as R.
    rewrite <- R. unfold scan_etag. rewrite E.
    assert (X : textproto_trim (render t ++ u) = render t ++ u).
    { rewrite <- (app_nil_r (render t ++ u)) at 1. apply (trim_ows [] _ []); [constructor|constructor|exact T]. }
    rewrite X. reflexivity.
  Qed.
  Lemma ows_prefix o1 (v : bytes) o2 w : ows o1 -> (forall c, hd_error v = Some c -> ~ blank_byte c) ->
    v <> [] -> drop_while is_ascii_blank (o1 ++ v ++ o2) = w -> w = v ++ o2.
  Proof.
    intros O Hv Nv <-. apply drop_ows; [exact O|]. intros c Hc. rewrite hd_app in Hc by exact Nv. exact (Hv c Hc).
  Qed.
  Lemma render_nonempty e (s : bytes) : render e ++ s <> [].
  Proof. destruct (render_first e s) as (c & t & E & _). rewrite E. discriminate. Qed.
  Lemma render_hd e (s : bytes) c : hd_error (render e ++ s) = Some c -> ~ blank_byte c.
  Proof.
    destruct (render_first e s) as (d & t & E & Hd). rewrite E. intros H. injection H as <-.
    destruct blank_facts as (_ & B2 & B3). destruct Hd; subst; assumption.
  Qed.
  (** trimming [o1 ++ (render e ++ s) ++ o2] only removes blanks at the end of [s ++ o2] *)
  Lemma trim_render o1 e s o2 : ows o1 -> valid_etag e ->
    exists s', textproto_trim (o1 ++ (render e ++ s) ++ o2) = render e ++ s'.
  Proof.
    intros O1 V. set (w := o1 ++ (render e ++ s) ++ o2).
    assert (L : listed (textproto_trim w) (Tag e)).
    { apply listed_trim. apply listed_ows; [exact O1|]. rewrite <- app_assoc. apply L_here. exact V. }
    destruct (trim_split w) as (a & b & Oa & Ob & E).
    pose proof (trim_tight w) as [T1 _].
    assert (Nt : textproto_trim w <> []).
    { intros X. rewrite X in L. exact (listed_nil _ L). }
    assert (D : drop_while is_ascii_blank w = textproto_trim w ++ b).
    { rewrite E at 1. apply drop_ows; [exact Oa|]. intros c Hc. rewrite hd_app in Hc by exact Nt. exact (T1 c Hc). }
    assert (D2 : drop_while is_ascii_blank w = (render e ++ s) ++ o2).
    { unfold w. apply drop_ows; [exact O1|]. intros c Hc. rewrite <- app_assoc in Hc. exact (render_hd e _ c Hc). }
    rewrite D in D2. rewrite <- app_assoc in D2.
    assert (NB : Forall (fun c => ~ blank_byte c) (render e)).
    { destruct e as [wk o']; unfold render, quoted; cbn [e_weak e_opaque]. destruct blank_facts as (_ & B2 & B3).
      apply Forall_app. split.
      - destruct wk; [|constructor]. repeat constructor; [exact B3|]. intros [X|[X|[X|[X|[]]]]]; discriminate.
      - constructor; [exact B2|]. apply Forall_app. split; [|constructor; [exact B2|constructor]].
        eapply Forall_impl; [|exact V]. intros x. apply etagc_not_blank. }
    clear - D2 NB Ob. revert D2. generalize (textproto_trim w) as t. induction (render e) as [|c r IH]; intros t D2.
    - exists t. reflexivity.
    - inversion NB; subst. destruct t as [|d t].
      + cbn [app] in D2. rewrite D2 in Ob. inversion Ob; subst. contradiction.
      + cbn [app] in D2. injection D2 as -> D2. destruct (IH H2 t D2) as (s' & ->). exists s'. reflexivity.
  Qed.
  Lemma ir_iff q p m : is_cfalse (check_if_range time_parse q p m) = true <-> range_off q p m.
  Proof.
    unfold check_if_range, range_off. fold (hdr q (B"If-Range")). fold (resp_etag p). rewrite <- get_head_iff.
    destruct (get_or_head q); cbn [negb].
    2:{ split; [discriminate|]. intros (X & _). congruence. }
    destruct (is_empty (hdr q (B"If-Range"))) eqn:Em.
    { apply is_empty_true in Em. split; [discriminate|]. intros (_ & X & _). congruence. }
    apply is_empty_false in Em.
    assert (K : is_cfalse (let '(etag, _) := scan_etag (hdr q (B"If-Range")) in
              if negb (is_empty etag) then
                if etag_strong etag (resp_etag p) then CTrue else CFalse
              else if (m =? zero_time)%Z then CFalse
              else match parse_time time_parse (hdr q (B"If-Range")) with
                   | None => CFalse
                   | Some t => if (unix t =? unix m)%Z then CTrue else CFalse
                   end) = true <-> ~ if_range_holds q p m).
    2:{ rewrite K. split; [auto|]. intros (_ & _ & X); exact X. }
    destruct (scan_etag (hdr q (B"If-Range"))) as [e r] eqn:Sc.
    destruct (trim_split (hdr q (B"If-Range"))) as (a & b & Oa & Ob & E).
    destruct (is_empty e) eqn:Ee; cbn [negb].
    - assert (NoTag : forall t s o1 o2, ows o1 -> valid_etag t -> hdr q (B"If-Range") = o1 ++ (render t ++ s) ++ o2 -> False).
      { intros t s o1 o2 O1 V X. destruct (trim_render o1 t s o2 O1 V) as (s' & T). rewrite <- X in T.
        rewrite (scan_of _ _ _ V T) in Sc. injection Sc as <- _.
        apply is_empty_true in Ee. apply (render_nonempty t []). rewrite app_nil_r. exact Ee. }
      assert (H : if_range_holds q p m <-> m <> year1 /\ exists t s, date (hdr q (B"If-Range")) t /\ in_second t s /\ in_second m s).
      { split.
        - intros (o1 & o2 & v & O1 & O2 & Ev & [(t & s & V & -> & _)|(_ & _ & H)]); [|exact H].
          exfalso. exact (NoTag t s o1 o2 O1 V Ev).
        - intros H. exists a, b, (textproto_trim (hdr q (B"If-Range"))). split; [exact Oa|split; [exact Ob|split; [exact E|]]].
          right. split; [|split; [apply trim_tight|exact H]]. intros (t & s & V & Et). rewrite Et in E.
          exact (NoTag t s a b Oa V E). }
      rewrite H. change year1 with zero_time. destruct (Z.eqb_spec m zero_time) as [Hm|Hm]; [split; [intros _ [X _]; contradiction|reflexivity]|].
      destruct (parse_time time_parse (hdr q (B"If-Range"))) as [t|] eqn:P.
      + apply date_iff in P. destruct (Z.eqb_spec (unix t) (unix m)) as [U|U]; cbn [is_cfalse].
        * split; [discriminate|]. intros X. exfalso. apply X. split; [exact Hm|]. exists t, (unix t).
          split; [exact P|]. split; apply second_iff; [reflexivity|symmetry; exact U].
        * split; [|reflexivity]. intros _ (_ & t' & s & D & S1 & S2). apply date_iff in D, P. rewrite P in D. injection D as <-.
          apply second_iff in S1, S2. congruence.
      + split; [|reflexivity]. intros _ (_ & t' & s & D & _). apply date_iff in D. congruence.
    - apply is_empty_false in Ee. destruct (scan_some _ _ _ Sc Ee) as (t & V & -> & Tr).
      assert (H : if_range_holds q p m <-> strong_eq t (resp_etag p)).
      { split.
        - intros (o1 & o2 & v & O1 & O2 & Ev & H).
          assert (Pre : exists u, v = render t ++ u).
          { (* v starts with the tag: it is the header without some leading blanks *)
            assert (D : drop_while is_ascii_blank (hdr q (B"If-Range")) = (render t ++ r) ++ b).
            { rewrite E, Tr. apply drop_ows; [exact Oa|]. intros c Hc. rewrite <- app_assoc in Hc. exact (render_hd t _ c Hc). }
            destruct H as [(e & s & Ve & -> & _)|(NT & Hv & _)].
            - assert (D2 : drop_while is_ascii_blank (hdr q (B"If-Range")) = (render e ++ s) ++ o2).
              { rewrite Ev. apply drop_ows; [exact O1|]. intros c Hc. rewrite <- app_assoc in Hc. exact (render_hd e _ c Hc). }
              rewrite D in D2. rewrite <- !app_assoc in D2. destruct (render_prefix_free _ _ _ _ V Ve D2) as [-> _].
              exists s. reflexivity.
            - destruct v as [|c v].
              + exfalso. rewrite Ev in D. cbn [app] in D.
                assert (D3 : drop_while is_ascii_blank (o1 ++ o2) = []).
                { rewrite <- (app_nil_r (o1 ++ o2)). apply drop_ows; [apply Forall_app; split; assumption|discriminate]. }
                rewrite D3 in D. symmetry in D. rewrite <- app_assoc in D. exact (render_nonempty t _ D).
              + assert (D3 : drop_while is_ascii_blank (hdr q (B"If-Range")) = (c :: v) ++ o2).
                { rewrite Ev. apply drop_ows; [exact O1|]. intros d Hd. apply Hv. exact Hd. }
                rewrite D in D3. rewrite <- app_assoc in D3.
                assert (NB : Forall (fun c => ~ blank_byte c) (render t)).
                { destruct t as [wk o']; unfold render, quoted; cbn [e_weak e_opaque]. destruct blank_facts as (_ & B2 & B3).
                  apply Forall_app. split.
                  - destruct wk; [|constructor]. repeat constructor; [exact B3|]. intros [X|[X|[X|[X|[]]]]]; discriminate.
                  - constructor; [exact B2|]. apply Forall_app. split; [|constructor; [exact B2|constructor]].
                    eapply Forall_impl; [|exact V]. intros x. apply etagc_not_blank. }
                clear - D3 NB O2. revert D3. generalize (c :: v) as w. induction (render t) as [|d l IH]; intros w D3.
                * exists w. reflexivity.
                * inversion NB; subst. destruct w as [|x w].
                  -- cbn [app] in D3. rewrite <- D3 in O2. inversion O2; subst. contradiction.
                  -- cbn [app] in D3. injection D3 as <- D3. destruct (IH H2 w D3) as (u & ->). exists u. reflexivity. }
          destruct Pre as (u & ->). destruct H as [(e & s & Ve & Eq & St)|(NT & _)].
          + destruct (render_prefix_free _ _ _ _ V Ve Eq) as [-> _]. exact St.
          + exfalso. apply NT. exists t, u. split; [exact V|reflexivity].
        - intros St. exists a, b, (render t ++ r). split; [exact Oa|split; [exact Ob|split; [rewrite <- Tr; exact E|]]].
          left. exists t, r. auto. }
      rewrite H, <- strong_iff. destruct (etag_strong (render t) (resp_etag p)); cbn [is_cfalse]; intuition congruence.
  Qed.

  Notation fails12 q p m := (step1_fails q p \/ step2_fails q m).
  Theorem C54_decision_order : forall q p m,
    (* 1., 2.: 412 *)
    (fails12 q p m ->
       check_preconditions time_parse q p m = Some (set_status 412 p, true, [])) /\
    (* 3.: 304 for GET and HEAD, 412 otherwise *)
    (~ fails12 q p m -> step3_fails q p -> is_get_head q ->
       check_preconditions time_parse q p m = Some (write_not_modified p, true, [])) /\
    (~ fails12 q p m -> step3_fails q p -> ~ is_get_head q ->
       check_preconditions time_parse q p m = Some (set_status 412 p, true, [])) /\
    (* 4.: 304 *)
    (~ fails12 q p m -> ~ step3_fails q p -> step4_fails q m ->
       check_preconditions time_parse q p m = Some (write_not_modified p, true, [])) /\
    (* 5., 6.: go on, with or without the Range header *)
    (~ fails12 q p m -> ~ step3_fails q p -> ~ step4_fails q m -> range_off q p m ->
       check_preconditions time_parse q p m = Some (p, false, [])) /\
    (~ fails12 q p m -> ~ step3_fails q p -> ~ step4_fails q m -> ~ range_off q p m ->
       check_preconditions time_parse q p m = Some (p, false, hdr q (B"Range"))).
  Proof.
    intros q p m.
    destruct (C55_if_match q p) as (M0 & M1 & M2). destruct (C55_if_none_match q p) as (N0 & N1 & N2).
    pose proof (ius_iff q m) as IU. pose proof (ims_iff q m) as IM. pose proof (ir_iff q p m) as IR.
    unfold step1_fails, step2_fails, step3_fails, step4_fails.
    change (hdr q (B"If-Match")) with (if_match q) in *. change (hdr q (B"If-None-Match")) with (if_none_match q) in *.
    assert (DM : if_match_ok (if_match q) (resp_etag p) \/ ~ if_match_ok (if_match q) (resp_etag p)).
    { rewrite <- hit_strong.
      destruct (etag_loop_ok (fun e => etag_strong e (resp_etag p)) (length (if_match q)) (if_match q) (le_n _)) as ([|] & _ & Hb);
      [left; apply Hb; reflexivity|right; intros X; apply Hb in X; discriminate]. }
    assert (DN : none_match_hit (if_none_match q) (resp_etag p) \/ ~ none_match_hit (if_none_match q) (resp_etag p)).
    { rewrite <- hit_weak.
      destruct (etag_loop_ok (fun e => etag_weak e (resp_etag p)) (length (if_none_match q)) (if_none_match q) (le_n _)) as ([|] & _ & Hb);
      [left; apply Hb; reflexivity|right; intros X; apply Hb in X; discriminate]. }
    pose proof (get_head_iff q) as GH.
    assert (C1 : exists b, (b = true <-> (if_match q <> [] /\ ~ if_match_ok (if_match q) (resp_etag p)) \/
        (if_match q = [] /\ known m /\ hdr q (B"If-Unmodified-Since") <> [] /\
          exists t, date (hdr q (B"If-Unmodified-Since")) t /\ modified_after m t)) /\
        exists c, check_if_match q p = Some c /\
          is_cfalse match c with CNone => check_if_unmodified_since time_parse q m | _ => c end = b).
    { destruct (if_match q) as [|x y] eqn:Eim.
      - exists (is_cfalse (check_if_unmodified_since time_parse q m)). split.
        + rewrite IU. split; [right; split; [reflexivity|assumption]|]. intros [[X _]|[_ X]]; [congruence|exact X].
        + exists CNone. split; [apply M0; reflexivity|reflexivity].
      - destruct DM as [D|D].
        + exists false. split; [split; [discriminate|]|exists CTrue; split; [apply M1; [discriminate|exact D]|reflexivity]].
          intros [[_ X]|[X _]]; [contradiction|discriminate].
        + exists true. split; [split; [intros _|reflexivity]|exists CFalse; split; [apply M2; [discriminate|exact D]|reflexivity]].
          left. split; [discriminate|exact D]. }
    destruct C1 as (b & Hb & c & Ec & Eb). unfold check_preconditions. rewrite Ec. cbv zeta. rewrite Eb. clear Ec Eb c.
    assert (C3 : exists cn, check_if_none_match q p = Some cn /\
       (cn = CFalse <-> if_none_match q <> [] /\ none_match_hit (if_none_match q) (resp_etag p)) /\
       (cn = CNone <-> if_none_match q = [])).
    { destruct (if_none_match q) as [|x y] eqn:Ei.
      - exists CNone. split; [apply N0; reflexivity|]. split; split; try discriminate; try reflexivity.
        intros [X _]; congruence.
      - destruct DN as [D|D].
        + exists CFalse. split; [apply N1; [discriminate|exact D]|]. split; split; try discriminate; auto.
          intros _. split; [discriminate|exact D].
        + exists CTrue. split; [apply N2; [discriminate|exact D]|]. split; split; try discriminate.
          intros [_ X]; contradiction. }
    destruct C3 as (cn & Ecn & F1 & F2). rewrite Ecn. clear Ecn.
    split; [intros H; apply Hb in H; rewrite H; reflexivity|].
    assert (Bf : ~ ((if_match q <> [] /\ ~ if_match_ok (if_match q) (resp_etag p)) \/
        (if_match q = [] /\ known m /\ hdr q (B"If-Unmodified-Since") <> [] /\
          exists t, date (hdr q (B"If-Unmodified-Since")) t /\ modified_after m t)) -> b = false).
    { intros X. destruct b; [exfalso; apply X, Hb; reflexivity|reflexivity]. }
    split; [|split; [|split]].
    - intros H1 H3 G. rewrite (Bf H1). apply F1 in H3. subst cn. apply GH in G. rewrite G. reflexivity.
    - intros H1 H3 G. rewrite (Bf H1). apply F1 in H3. subst cn.
      destruct (get_or_head q); [exfalso; apply G, GH; reflexivity|reflexivity].
    - intros H1 H3 H4. rewrite (Bf H1). destruct H4 as (E & H4). apply F2 in E. subst cn.
      apply IM in H4. rewrite H4. reflexivity.
    - assert (Go : ~ ((if_match q <> [] /\ ~ if_match_ok (if_match q) (resp_etag p)) \/
        (if_match q = [] /\ known m /\ hdr q (B"If-Unmodified-Since") <> [] /\
          exists t, date (hdr q (B"If-Unmodified-Since")) t /\ modified_after m t)) ->
        ~ (if_none_match q <> [] /\ none_match_hit (if_none_match q) (resp_etag p)) ->
        ~ (if_none_match q = [] /\ is_get_head q /\ known m /\ hdr q (B"If-Modified-Since") <> [] /\
           exists t, date (hdr q (B"If-Modified-Since")) t /\ ~ modified_after m t) ->
        (if b then Some (set_status 412 p, true, [])
         else match cn with
              | CFalse => if get_or_head q then Some (write_not_modified p, true, []) else Some (set_status 412 p, true, [])
              | _ => if match cn with CNone => is_cfalse (check_if_modified_since time_parse q m) | _ => false end
                     then Some (write_not_modified p, true, [])
                     else Some (p, false, if negb (is_empty (hpeek (q_hdr q) (B"Range"))) && is_cfalse (check_if_range time_parse q p m)
                                          then [] else hpeek (q_hdr q) (B"Range"))
              end) = Some (p, false, if negb (is_empty (hpeek (q_hdr q) (B"Range"))) && is_cfalse (check_if_range time_parse q p m)
                                          then [] else hpeek (q_hdr q) (B"Range"))).
      { intros H1 H3 H4. rewrite (Bf H1). destruct cn.
        - assert (X : is_cfalse (check_if_modified_since time_parse q m) = false).
          { destruct (is_cfalse (check_if_modified_since time_parse q m)) eqn:X; [|reflexivity].
            exfalso. apply H4. split; [apply F2; reflexivity|]. apply IM. reflexivity. }
          rewrite X. reflexivity.
        - reflexivity.
        - exfalso. apply H3. apply F1. reflexivity. }
      split; intros H1 H3 H4 HR; cbv zeta in Go |- *.
      + assert (X : is_cfalse (check_if_range time_parse q p m) = true) by (apply IR; exact HR).
        specialize (Go H1 H3 H4). rewrite X in Go |- *.
        etransitivity; [exact Go|]. destruct (hpeek (q_hdr q) (B"Range")); reflexivity.
      + assert (X : is_cfalse (check_if_range time_parse q p m) = false).
        { destruct (is_cfalse (check_if_range time_parse q p m)) eqn:X; [exfalso; apply HR, IR; reflexivity|reflexivity]. }
        specialize (Go H1 H3 H4). rewrite X in Go |- *. rewrite andb_false_r in Go |- *. exact Go.
  Qed.
End C54.
(** what a 304 carries: no content headers, and a Last-Modified only without an ETag *)
Theorem C54_not_modified : forall p k,
  p_status (write_not_modified p) = 304%Z /\ p_body (write_not_modified p) = p_body p /\
  aget k (p_hdr (write_not_modified p)) =
    if beq k (B"Content-Type") || beq k (B"Content-Length") || beq k (B"Content-Encoding")
       || (beq k (B"Last-Modified") && negb (is_empty (resp_etag p)))
    then None else aget k (p_hdr p).
Proof.
  intros p k. unfold write_not_modified, resp_etag, hdel, set_status. cbn [p_status p_body p_hdr].
  assert (E : hpeek (adel (B"Content-Encoding") (adel (B"Content-Length") (adel (B"Content-Type") (p_hdr p)))) (B"Etag")
              = hpeek (p_hdr p) (B"Etag")) by (unfold hpeek; rewrite !aget_adel; reflexivity).
  rewrite E. destruct (is_empty (hpeek (p_hdr p) (B"Etag")));
    cbn [p_status p_body p_hdr negb]; (split; [reflexivity|split; [reflexivity|]]); rewrite !aget_adel;
    destruct (beq k (B"Content-Type")), (beq k (B"Content-Length")), (beq k (B"Content-Encoding")), (beq k (B"Last-Modified")); reflexivity.
Qed.
(** the hypotheses of the branches are met *)
Example C54_example :
  let tp (l s : bytes) := if beq s (B"D5") then Some 5000000000%Z else None in
  let q := SReq (B"GET") (B"/f") [(B"If-Modified-Since", B"D5"); (B"Range", B"bytes=0-1"); (B"If-Range", B"""x""")] in
  let p := SResp 200 [(B"Etag", B"""x""")] [] in
  check_preconditions tp q p 5400000000%Z = Some (write_not_modified p, true, []) /\
  check_preconditions tp q p 6000000000%Z = Some (p, false, B"bytes=0-1") /\
  known 5400000000%Z /\ modified_after 6000000000%Z 5000000000%Z /\ ~ modified_after 5400000000%Z 5000000000%Z.
Proof.
  cbv zeta. split; [vm_compute; reflexivity|split; [vm_compute; reflexivity|]].
  split; [split; discriminate|]. split.
  - exists 6%Z. unfold in_second. lia.
  - intros (s & (H1 & H2) & H3). lia.
Qed.
Print Assumptions C54_decision_order.
Print Assumptions C54_not_modified.
Print Assumptions C55_if_match.
Print Assumptions C55_if_none_match.
Print Assumptions C55_etag_lists.
Print Assumptions C55_star.
Print Assumptions C56_terminates.
Print Assumptions C56_preconditions_terminate.
