(** C148: authentication follows the settings last made and the caller's map. *)
From Verif Require Import Base GoStrings GoSlices P_Slices M_Pipeline M_Auth S_Auth P_Auth Props_Auth M_AuthMaps S_AuthMaps.

Lemma last_set_snoc_same {O A} (sel : O -> option A) d os o v : sel o = Some v -> last_set sel d (os ++ [o]) v.
Proof. intros E. left. exists os, o, []. split; [reflexivity|]. split; [exact E|]. intros o' []. Qed.
Lemma last_set_snoc_other {O A} (sel : O -> option A) d os o v : sel o = None -> last_set sel d os v -> last_set sel d (os ++ [o]) v.
Proof.
  intros E [(o1 & x & o2 & -> & Ex & N)|[-> N]].
  - left. exists o1, x, (o2 ++ [o]). split; [rewrite <- app_assoc; reflexivity|]. split; [exact Ex|]. intros o' H. apply in_app_or in H as [H|[<-|[]]]; [exact (N _ H)|exact E].
  - right. split; [reflexivity|]. intros o' H. apply in_app_or in H as [H|[<-|[]]]; [exact (N _ H)|exact E].
Qed.
Lemma last_set_det {O A} (sel : O -> option A) d os v : last_set sel d os v -> forall v', last_set sel d os v' -> v = v'.
Proof.
  induction os as [|o os IH] using rev_ind; intros H v' H'.
  - destruct H as [(o1 & x & o2 & E & _)|[-> _]]; [destruct o1; discriminate E|]. destruct H' as [(o1 & x & o2 & E & _)|[-> _]]; [destruct o1; discriminate E|reflexivity].
  - assert (K : forall w, last_set sel d (os ++ [o]) w -> sel o = Some w \/ sel o = None /\ last_set sel d os w).
    { intros w [(o1 & x & o2 & E & Ex & N)|[-> N]].
      - destruct o2 as [|y o2 _] using rev_ind; [apply app_inj_tail in E as [_ <-]; auto|]. right.
        rewrite app_comm_cons, app_assoc in E. apply app_inj_tail in E as [-> <-]. split; [apply N, in_or_app; right; left; reflexivity|].
        left. exists o1, x, o2. split; [reflexivity|]. split; [exact Ex|]. intros o' Ho. apply N, in_or_app. auto.
      - right. split; [apply N, in_or_app; right; left; reflexivity|]. right. split; [reflexivity|]. intros o' Ho. apply N, in_or_app. auto. }
    destruct (K _ H) as [E|[E H1]], (K _ H') as [E'|[E' H1']]; try congruence. exact (IH H1 _ H1').
Qed.

Lemma nth_upd_nth_same {A} i (f : A -> A) l d : i < length l -> nth i (upd_nth i f l) d = f (nth i l d).
Proof. intros H. rewrite nth_upd_nth, Nat.eqb_refl. apply Nat.ltb_lt in H. rewrite H. reflexivity. Qed.
Lemma nth_upd_nth_other {A} i j (f : A -> A) l d : j <> i -> nth j (upd_nth i f l) d = nth j l d.
Proof. intros H. rewrite nth_upd_nth. apply Nat.eqb_neq in H. rewrite H. reflexivity. Qed.
Lemma aget_adel_same {V} k (m : list (bytes * V)) : aget k (adel k m) = None.
Proof. rewrite aget_adel, beq_refl. reflexivity. Qed.
Lemma aget_adel_other {V} k k' (m : list (bytes * V)) : k <> k' -> aget k (adel k' m) = aget k m.
Proof. intros H. rewrite aget_adel. apply beq_neq in H. rewrite H. reflexivity. Qed.
Lemma m_run_snoc : forall os st o, m_run st (os ++ [o]) = match m_run st os with Ok st' => m_step st' o | Panic => Panic end.
Proof. induction os as [|x os IH]; intros st o; cbn [app m_run]; [destruct (m_step st o); reflexivity|]. destruct (m_step st x); [apply IH|reflexivity]. Qed.

Definition agrees (os : list mop) (st : mstate) : Prop :=
  length (m_maps st) = S (makes os) /\ (forall i, m_roles st = Some i -> i < length (m_maps st)) /\
  (forall i k, i < length (m_maps st) -> entry os (Some i) k (aget k (nth i (m_maps st) []))) /\
  exists mc log, last_set sets_use false os (a_use (m_auth st)) /\
    last_set sets_message (B"Access to the staging site", B"UTF-8") os mc /\
    a_message (m_auth st) = fst mc /\
    a_header (m_auth st) = B"Basic realm=""" ++ fst mc ++ B""", charset=""" ++ snd mc ++ B"""" /\
    last_set sets_log None os log /\
    a_use_log (m_auth st) = match log with Some _ => true | None => false end /\
    (forall n, log = Some n -> a_log_nil (m_auth st) = n) /\
    last_set sets_roles (Some 0) os (m_roles st) /\
    last_set sets_access (Some (fun _ => Ok true)) os (a_access (m_auth st)).

Lemma makes_snoc os o : makes (os ++ [o]) = makes os + match o with MMake _ => 1 | _ => 0 end.
Proof. unfold makes. rewrite filter_app, app_length. cbn [filter]. destruct o; reflexivity. Qed.
Lemma entry_other os o i k v : writes i k o = None -> entry os (Some i) k v -> entry (os ++ [o]) (Some i) k v.
Proof.
  intros E H. destruct i as [|i]; cbn [entry] in H |- *; [apply last_set_snoc_other; assumption|].
  destruct H as (o1 & e & o2 & -> & Ei & H). exists o1, e, (o2 ++ [o]). split; [rewrite <- app_assoc; reflexivity|]. split; [exact Ei|]. apply last_set_snoc_other; assumption.
Qed.
Lemma entry_same os o i k v w : writes i k o = Some v -> entry os (Some i) k w -> entry (os ++ [o]) (Some i) k v.
Proof.
  intros E H. destruct i as [|i]; cbn [entry] in H |- *; [apply last_set_snoc_same; assumption|].
  destruct H as (o1 & e & o2 & -> & Ei & H). exists o1, e, (o2 ++ [o]). split; [rewrite <- app_assoc; reflexivity|]. split; [exact Ei|]. apply last_set_snoc_same; assumption.
Qed.
Lemma agrees_step os st o st' : agrees os st -> m_step st o = Ok st' -> agrees (os ++ [o]) st'.
Proof.
  intros (L & R & E & mc & log & H1 & H2 & H3 & H4 & H5 & H6 & H7 & H8 & H9) St.
  assert (Keep : forall rest, (forall i k, i < length (m_maps st) -> entry os (Some i) k (aget k (nth i (m_maps st) []))) ->
    (forall i k, writes i k o = None) -> rest = m_maps st -> forall i k, i < length rest -> entry (os ++ [o]) (Some i) k (aget k (nth i rest []))).
  { intros rest E0 W -> i k Hi. apply entry_other; [apply W|apply E0; exact Hi]. }
  pose proof (makes_snoc os o) as Mk.
  assert (NotMake : match o with MMake _ => True | _ => makes (os ++ [o]) = makes os end) by (destruct o; auto; rewrite Mk; lia).
  destruct o as [e|[i|] k v|[i|] k|[i|]|m c|f|n|u]; cbn [m_step] in St; cbv zeta in St; try discriminate St;
    try (unfold exists_map in St; destruct (Nat.ltb_spec i (length (m_maps st))) as [Hi|]; [|discriminate St]);
    injection St as <-; unfold agrees; cbn [m_maps m_roles m_auth auth_step a_use a_message a_header a_use_log a_log_nil a_access].
  - (* MMake *) rewrite app_length. cbn [length]. split; [rewrite Mk; lia|]. split; [intros i Hi; specialize (R i Hi); lia|]. split.
    + intros i k Hi. destruct (Nat.eq_dec i (length (m_maps st))) as [->|Ni].
      * rewrite app_nth2, Nat.sub_diag by lia. cbn [nth]. rewrite L. cbn [entry]. exists os, e, []. split; [reflexivity|]. split; [reflexivity|]. right. split; [reflexivity|intros o []].
      * rewrite app_nth1 by lia. apply entry_other; [reflexivity|apply E; lia].
    + exists mc, log. repeat (split; [try assumption; try (apply last_set_snoc_other; [reflexivity|assumption])|]). apply last_set_snoc_other; [reflexivity|assumption].
  - (* MPut *) rewrite upd_nth_length. split; [rewrite NotMake; exact L|]. split; [exact R|]. split.
    + intros j k' Hj. destruct (Nat.eq_dec i j) as [->|Nj].
      * rewrite nth_upd_nth_same by exact Hj. destruct (beq_spec k k') as [->|Nk].
        -- rewrite aget_aput_same. apply (entry_same _ _ _ _ _ (aget k' (nth j (m_maps st) []))); [cbn [writes]; rewrite Nat.eqb_refl, beq_refl; reflexivity|apply E; exact Hj].
        -- rewrite aget_aput_other by congruence. apply entry_other; [cbn [writes]; apply beq_neq in Nk; rewrite Nk, andb_false_r; reflexivity|apply E; exact Hj].
      * rewrite nth_upd_nth_other by congruence. apply entry_other; [cbn [writes]; apply Nat.eqb_neq in Nj; rewrite Nj; reflexivity|apply E; exact Hj].
    + exists mc, log. repeat (split; [try assumption; try (apply last_set_snoc_other; [reflexivity|assumption])|]). apply last_set_snoc_other; [reflexivity|assumption].
  - (* MDel *) rewrite upd_nth_length. split; [rewrite NotMake; exact L|]. split; [exact R|]. split.
    + intros j k' Hj. destruct (Nat.eq_dec i j) as [->|Nj].
      * rewrite nth_upd_nth_same by exact Hj. destruct (beq_spec k k') as [->|Nk].
        -- rewrite aget_adel_same. apply (entry_same _ _ _ _ _ (aget k' (nth j (m_maps st) []))); [cbn [writes]; rewrite Nat.eqb_refl, beq_refl; reflexivity|apply E; exact Hj].
        -- rewrite aget_adel_other by congruence. apply entry_other; [cbn [writes]; apply beq_neq in Nk; rewrite Nk, andb_false_r; reflexivity|apply E; exact Hj].
      * rewrite nth_upd_nth_other by congruence. apply entry_other; [cbn [writes]; apply Nat.eqb_neq in Nj; rewrite Nj; reflexivity|apply E; exact Hj].
    + exists mc, log. repeat (split; [try assumption; try (apply last_set_snoc_other; [reflexivity|assumption])|]). apply last_set_snoc_other; [reflexivity|assumption].
  - split; [rewrite NotMake; exact L|]. split; [exact R|]. split; [apply Keep; auto; reflexivity|].
    exists mc, log. repeat (split; [try assumption; try (apply last_set_snoc_other; [reflexivity|assumption])|]). apply last_set_snoc_other; [reflexivity|assumption].
  - split; [rewrite NotMake; exact L|]. split; [intros j Hj; congruence|]. split; [apply Keep; auto; reflexivity|].
    exists mc, log. repeat (split; [try assumption; try (apply last_set_snoc_other; [reflexivity|assumption]); try (apply last_set_snoc_same; reflexivity)|]). apply last_set_snoc_other; [reflexivity|assumption].
  - split; [rewrite NotMake; exact L|]. split; [intros j Hj; discriminate Hj|]. split; [apply Keep; auto; reflexivity|].
    exists mc, log. repeat (split; [try assumption; try (apply last_set_snoc_other; [reflexivity|assumption]); try (apply last_set_snoc_same; reflexivity)|]). apply last_set_snoc_other; [reflexivity|assumption].
  - split; [rewrite NotMake; exact L|]. split; [exact R|]. split; [apply Keep; auto; reflexivity|].
    exists (m, c), log. cbn [fst snd]. repeat (split; [try assumption; try reflexivity; try (apply last_set_snoc_other; [reflexivity|assumption]); try (apply last_set_snoc_same; reflexivity)|]). apply last_set_snoc_other; [reflexivity|assumption].
  - split; [rewrite NotMake; exact L|]. split; [exact R|]. split; [apply Keep; auto; reflexivity|].
    exists mc, log. repeat (split; [try assumption; try (apply last_set_snoc_other; [reflexivity|assumption])|]). apply last_set_snoc_same. reflexivity.
  - split; [rewrite NotMake; exact L|]. split; [exact R|]. split; [apply Keep; auto; reflexivity|].
    exists mc, (Some n). repeat (split; [try assumption; try reflexivity; try (apply last_set_snoc_other; [reflexivity|assumption]); try (apply last_set_snoc_same; reflexivity); try congruence|]). apply last_set_snoc_other; [reflexivity|assumption].
  - split; [rewrite NotMake; exact L|]. split; [exact R|]. split; [apply Keep; auto; reflexivity|].
    exists mc, log. repeat (split; [try assumption; try (apply last_set_snoc_other; [reflexivity|assumption]); try (apply last_set_snoc_same; reflexivity)|]). apply last_set_snoc_other; [reflexivity|assumption].
Qed.
Lemma agrees_run os : forall st, m_run m_new os = Ok st -> agrees os st.
Proof.
  induction os as [|o os IH] using rev_ind; intros st H.
  - injection H as <-. split; [reflexivity|]. split; [intros i E; injection E as <-; cbn; lia|]. split.
    + intros i k Hi. cbn in Hi. destruct i; [|lia]. cbn. right. split; [reflexivity|intros o []].
    + assert (N : forall (X A : Type) (sel : X -> option A) (d : A), last_set sel d [] d) by (intros X A sel d; right; split; [reflexivity|intros x []]).
      exists (B"Access to the staging site", B"UTF-8"), None. split; [apply N|]. split; [apply N|]. split; [reflexivity|]. split; [reflexivity|].
      split; [apply N|]. split; [reflexivity|]. split; [intros n E; discriminate E|]. split; apply N.
  - rewrite m_run_snoc in H. destruct (m_run m_new os) as [st0|]; [|discriminate H]. eapply agrees_step; [apply IH; reflexivity|exact H].
Qed.

(** ** what a request shows *)
Lemma carries_stages auth u p : carries auth u p ->
  exists i, index_byte " " auth = Some i /\ equal_fold_basic (firstn i auth) = true /\ b64_decode (skipn (S i) auth) = Some (u ++ ":"%char :: p).
Proof.
  intros [(scheme & token & -> & Hs & Hd) Hn]. exists (length scheme).
  assert (Es : equal_fold_basic scheme = true) by (apply equal_fold_spec; exact Hs).
  rewrite index_byte_app by (apply equal_fold_no_space; exact Es). split; [reflexivity|].
  rewrite firstn_app, Nat.sub_diag, firstn_all. cbn [firstn]. rewrite app_nil_r. split; [exact Es|].
  replace (skipn (S (length scheme)) (scheme ++ " "%char :: token)) with token.
  2: { clear. induction scheme as [|x s IH]; [reflexivity|exact IH]. }
  apply b64_decode_iff. exact Hd.
Qed.
Lemma get_shown uni auth u p : get_user_password uni auth = (u, p) -> shown uni auth u p.
Proof.
  intros H. unfold get_user_password in H.
  assert (Nothing : (forall a b, carries auth a b -> False) -> ([], []) = (u, p) -> shown uni auth u p).
  { intros N E. injection E as <- <-. right. split; [exact N|auto]. }
  destruct (index_byte " " auth) as [i|] eqn:Ei.
  2:{ apply Nothing; [|exact H]. intros a b C. destruct (carries_stages _ _ _ C) as (j & E1 & _). rewrite Ei in E1. discriminate E1. }
  destruct (equal_fold_basic (firstn i auth)) eqn:Ef; cbn [negb] in H.
  2:{ apply Nothing; [|exact H]. intros a b C. destruct (carries_stages _ _ _ C) as (j & E1 & E2 & _). rewrite Ei in E1. injection E1 as <-. rewrite Ef in E2. discriminate E2. }
  destruct (b64_decode (skipn (S i) auth)) as [d|] eqn:Ed.
  2:{ apply Nothing; [|exact H]. intros a b C. destruct (carries_stages _ _ _ C) as (j & E1 & _ & E2). rewrite Ei in E1. injection E1 as <-. rewrite Ed in E2. discriminate E2. }
  destruct (split_head ":" d) as (w & ws & Es & Hw & Hd). rewrite Es in H.
  destruct Hd as [[-> ->]|(s' & -> & ->)].
  { apply Nothing; [|exact H]. intros a b C. destruct (carries_stages _ _ _ C) as (j & E1 & _ & E2). rewrite Ei in E1. injection E1 as <-. rewrite Ed in E2. injection E2 as ->.
    apply Hw, in_or_app. right. left. reflexivity. }
  destruct (split ":" s') as [|c1 r] eqn:E1; [exfalso; exact (split_nonempty _ _ E1)|]. injection H as <- <-. left.
  exists w, s'. split; [|split; [reflexivity|rewrite upto_colon_head, E1; reflexivity]].
  split; [|exact Hw]. exists (firstn i auth), (skipn (S i) auth).
  apply index_byte_spec in Ei as (I1 & I2 & I3). split; [exact I2|].
  split; [apply equal_fold_spec; exact Ef|apply b64_decode_iff; exact Ed].
Qed.
Lemma shown_get uni auth u p : shown uni auth u p -> get_user_password uni auth = (u, p).
Proof.
  intros [(a & b & C & -> & ->)|[N [-> ->]]]; [apply get_carries; exact C|].
  destruct (get_user_password uni auth) as [u p] eqn:E. destruct (get_shown _ _ _ _ E) as [(a & b & C & _)|(_ & -> & ->)]; [destruct (N _ _ C)|reflexivity].
Qed.
Lemma entry_det os id k v v' : entry os id k v -> entry os id k v' -> v = v'.
Proof.
  destruct id as [[|i]|]; cbn [entry].
  - intros H H'. exact (last_set_det _ _ _ _ H _ H').
  - intros (o1 & e & o2 & E & L & H) (o1' & e' & o2' & E' & L' & H').
    assert (X : o1 = o1' /\ e = e' /\ o2 = o2').
    { rewrite E in E'. assert (L0 : makes o1 = makes o1') by lia. clear - E' L0. revert o1' E' L0. induction o1 as [|x o1 IH]; intros [|y o1'] E' L0; cbn [app] in E'.
      - injection E' as -> ->. auto.
      - injection E' as <- _. exfalso. clear - L0. cbn in L0. discriminate L0.
      - injection E' as -> _. exfalso. clear - L0. cbn in L0. discriminate L0.
      - injection E' as <- E'. destruct (IH o1' E') as (-> & -> & ->); [|auto]. unfold makes in L0 |- *. cbn [filter] in L0. destruct x; cbn [length] in L0; congruence. }
    destruct X as (-> & -> & ->). exact (last_set_det _ _ _ _ H _ H').
  - congruence.
Qed.

(** ** C148 *)
(** Whatever was done before the request, serving it follows the settings last made and what the map
    in use holds by then, also if its owner changed it after handing it over. *)
Theorem C148_follows : forall uni os st s rq use mc log access roles user pw pass,
  m_run m_new os = Ok st -> sv_auth s = Some (as_auth st) ->
  last_set sets_use false os use ->
  last_set sets_message (B"Access to the staging site", B"UTF-8") os mc ->
  last_set sets_log None os log ->
  last_set sets_access (Some (fun _ => Ok true)) os access ->
  last_set sets_roles (Some 0) os roles ->
  shown uni (rq_auth rq) user pw -> entry os roles user pass ->
  let granted := user <> [] /\ (pass = Some pw \/ pass = None /\ pw = []) in
  (use = false -> serve_http uni s rq = run_request s rq) /\
  (use = true -> access = None -> serve_http uni s rq = ([], Panic)) /\
  (forall f, use = true -> access = Some f ->
    (f rq = Panic -> serve_http uni s rq = ([], Panic)) /\
    (f rq = Ok false -> serve_http uni s rq = run_request s rq) /\
    (f rq = Ok true -> log = Some true -> serve_http uni s rq = ([], Panic)) /\
    (f rq = Ok true -> log <> Some true -> granted ->
      serve_http uni s rq = (logged log user pw true ++ fst (run_request s rq), snd (run_request s rq))) /\
    (f rq = Ok true -> log <> Some true -> ~ granted ->
      serve_http uni s rq =
        (logged log user pw false ++
         [EvStatus 401; EvHeader (B"WWW-Authenticate") (B"Basic realm=""" ++ fst mc ++ B""", charset=""" ++ snd mc ++ B"""")], Ok tt))).
Proof.
  intros uni os st s rq use mc log access roles user pw pass Run Ha Hu Hm Hl Hf Hr Hs He granted.
  destruct (agrees_run _ _ Run) as (L & R & E & mc' & log' & H1 & H2 & H3 & H4 & H5 & H6 & H7 & H8 & H9).
  pose proof (last_set_det _ _ _ _ Hu _ H1) as Eu. pose proof (last_set_det _ _ _ _ Hm _ H2) as <-. pose proof (last_set_det _ _ _ _ Hl _ H5) as <-.
  pose proof (last_set_det _ _ _ _ Hf _ H9) as Ef. pose proof (last_set_det _ _ _ _ Hr _ H8) as Er.
  assert (Ep : aget user (contents (m_maps st) (m_roles st)) = pass).
  { rewrite <- Er. apply (entry_det os roles user); [|exact He]. destruct roles as [i|]; [|reflexivity]. cbn [contents]. apply E. apply R. symmetry. exact Er. }
  assert (Ua : a_use (as_auth st) = use) by (symmetry; exact Eu). assert (Fa : a_access (as_auth st) = access) by (symmetry; exact Ef).
  unfold serve_http. rewrite Ha, Ua, Fa.
  split; [intros ->; reflexivity|]. split; [intros -> ->; reflexivity|].
  intros f -> ->. split; [intros ->; reflexivity|]. split; [intros ->; reflexivity|].
  assert (Ck : check uni (as_auth st) rq =
     (if match log with Some true => true | _ => false end then ([], Panic)
      else if negb (is_empty user) && beq (match pass with Some p => p | None => [] end) pw
           then (logged log user pw true, Ok true)
           else (logged log user pw false ++ [EvStatus 401; EvHeader (B"WWW-Authenticate") (B"Basic realm=""" ++ fst mc ++ B""", charset=""" ++ snd mc ++ B"""")], Ok false))).
  { unfold check, as_auth. cbn [auth_step a_use a_use_log a_log_nil a_header a_roles]. rewrite <- Eu. cbn [negb].
    rewrite (shown_get _ _ _ _ Hs), H6, Ep, H4. destruct log as [n|]; cbn [logged andb].
    - rewrite (H7 n eq_refl). destruct n; [reflexivity|]. destruct (negb (is_empty user) && _); reflexivity.
    - destruct (negb (is_empty user) && _); reflexivity. }
  rewrite Ck. split; [intros -> ->; reflexivity|].
  assert (Gr : negb (is_empty user) && beq (match pass with Some p => p | None => [] end) pw = true <-> granted).
  { unfold granted. rewrite andb_true_iff, negb_true_iff, is_empty_false. destruct pass as [p|].
    - split; intros [A1 A2]; (split; [exact A1|]); [left; apply beq_eq in A2; congruence|]. destruct A2 as [A2|[A2 _]]; [injection A2 as ->; apply beq_refl|discriminate A2].
    - split; intros [A1 A2]; (split; [exact A1|]); [right; apply beq_eq in A2; auto|]. destruct A2 as [A2|[_ ->]]; [discriminate A2|reflexivity]. }
  split.
  - intros -> Nl Hg. apply Gr in Hg. rewrite Hg. destruct log as [[]|]; [congruence| |]; destruct (run_request s rq); reflexivity.
  - intros -> Nl Hg. destruct (negb (is_empty user) && _) eqn:Ng; [exfalso; apply Hg, Gr; reflexivity|]. destruct log as [[]|]; [congruence| |]; reflexivity.
Qed.
(** Every history that does not panic has such settings, and every request such a user and password:
    C148_follows always applies. *)
Theorem C148_applies : forall uni os st rq, m_run m_new os = Ok st ->
  exists use mc log access roles user pw pass,
    last_set sets_use false os use /\ last_set sets_message (B"Access to the staging site", B"UTF-8") os mc /\
    last_set sets_log None os log /\ last_set sets_access (Some (fun _ => Ok true)) os access /\
    last_set sets_roles (Some 0) os roles /\ shown uni (rq_auth rq) user pw /\ entry os roles user pass /\
    (* and the getters return them *)
    use_of st = use /\ message_of st = fst mc /\ roles_of st = roles.
Proof.
  intros uni os st rq Run. destruct (agrees_run _ _ Run) as (L & R & E & mc & log & H1 & H2 & H3 & H4 & H5 & H6 & H7 & H8 & H9).
  destruct (get_user_password uni (rq_auth rq)) as [user pw] eqn:Eg.
  exists (a_use (m_auth st)), mc, log, (a_access (m_auth st)), (m_roles st), user, pw, (aget user (contents (m_maps st) (m_roles st))).
  split; [exact H1|]. split; [exact H2|]. split; [exact H5|]. split; [exact H9|]. split; [exact H8|]. split; [apply get_shown; exact Eg|].
  split; [|split; [reflexivity|split; [exact H3|reflexivity]]].
  destruct (m_roles st) as [i|] eqn:Er; [|reflexivity]. cbn [contents]. apply E, R. reflexivity.
Qed.
(** The settings are unambiguous. *)
Theorem C148_unambiguous : forall uni os auth id k,
  (forall O A (sel : O -> option A) d l v v', last_set sel d l v -> last_set sel d l v' -> v = v') /\
  (forall v v', entry os id k v -> entry os id k v' -> v = v') /\
  (forall u p u' p', shown uni auth u p -> shown uni auth u' p' -> u = u' /\ p = p').
Proof.
  intros uni os auth id k. split; [intros O A sel d l v v' H H'; exact (last_set_det _ _ _ _ H _ H')|]. split; [intros v v'; apply entry_det|].
  intros u p u' p' H H'. apply shown_get in H, H'. rewrite H in H'. injection H' as -> ->. auto.
Qed.
(** Of the operations only a write to a nil map panics. *)
Theorem C148_panics : forall os,
  (forall os1 o os2 id, os = os1 ++ o :: os2 -> names o = Some id -> id <= makes os1) ->
  (m_run m_new os = Panic <-> exists k v, In (MPut None k v) os).
Proof.
  induction os as [|o os IH] using rev_ind; intros W.
  - split; [discriminate|intros (k & v & [])].
  - rewrite m_run_snoc.
    assert (W' : forall os1 o' os2 id, os = os1 ++ o' :: os2 -> names o' = Some id -> id <= makes os1).
    { intros os1 o' os2 id -> Hn. apply (W os1 o' (os2 ++ [o])); [rewrite <- app_assoc; reflexivity|exact Hn]. }
    specialize (IH W'). destruct (m_run m_new os) as [st|] eqn:Run.
    + assert (No : ~ exists k v, In (MPut None k v) os) by (intros X; apply IH in X; discriminate X).
      destruct (agrees_run _ _ Run) as (L & _).
      assert (Made : forall id, names o = Some id -> exists_map (m_maps st) id = true).
      { intros id Hn. unfold exists_map. apply Nat.ltb_lt. rewrite L. specialize (W os o [] id eq_refl Hn). lia. }
      assert (In' : (exists k v, In (MPut None k v) (os ++ [o])) <-> exists k v, o = MPut None k v).
      { split; intros (k & v & H).
        - apply in_app_or in H as [H|[H|[]]]; [exfalso; apply No; eauto|eauto].
        - exists k, v. apply in_or_app. right. left. exact H. }
      rewrite In'. destruct o as [e|[i|] k v|[i|] k|[i|]|m c|f|n|u]; cbn [m_step]; cbv zeta;
        try (rewrite (Made i eq_refl)); split; try discriminate; try (intros (k' & v' & X); discriminate X); eauto.
    + split; [intros _|reflexivity]. destruct (proj1 IH eq_refl) as (k & v & H). exists k, v. apply in_or_app. left. exact H.
Qed.

(** ** Non-vacuity: the roles map is handed over first and filled afterwards; "bob" is refused
    before his entry is written and admitted after it, and every decision is logged. *)
Definition x_ops : list mop := [MMake [(B"eve", B"x")]; MSetRoles (Some 1); MDel (Some 1) (B"eve"); MSetUse true; MSetLog false; MPut (Some 0) (B"bob") (B"other"); MSetMessage (B"m") (B"c")].
Definition x_rq : request := Request (B"GET") (B"/") (B"Basic Ym9iOnNlY3JldA==").
Definition x_server (a : base_auth) : server := Server (Some a) (fun _ _ => None) None 5%Z (fun l => l).
Example C148_example :
  exists st st', m_run m_new x_ops = Ok st /\ m_run m_new (x_ops ++ [MPut (Some 1) (B"bob") (B"secret")]) = Ok st' /\
    last_set sets_roles (Some 0) x_ops (Some 1) /\ shown (fun b => b) (rq_auth x_rq) (B"bob") (B"secret") /\
    entry x_ops (Some 1) (B"bob") None /\ entry (x_ops ++ [MPut (Some 1) (B"bob") (B"secret")]) (Some 1) (B"bob") (Some (B"secret")) /\
    serve_http (fun b => b) (x_server (as_auth st)) x_rq =
      ([EvLog (B"bob") (B"secret") false; EvStatus 401; EvHeader (B"WWW-Authenticate") (B"Basic realm=""m"", charset=""c""")], Ok tt) /\
    fst (serve_http (fun b => b) (x_server (as_auth st')) x_rq) =
      EvLog (B"bob") (B"secret") true :: fst (run_request (x_server (as_auth st')) x_rq).
Proof.
  eexists. eexists. split; [vm_compute; reflexivity|]. split; [vm_compute; reflexivity|].
  split. { left. exists [MMake [(B"eve", B"x")]], (MSetRoles (Some 1)), (skipn 2 x_ops). split; [reflexivity|]. split; [reflexivity|]. intros o H. cbn in H. intuition (subst; reflexivity). }
  split; [apply get_shown; vm_compute; reflexivity|].
  split. { exists [], [(B"eve", B"x")], (skipn 1 x_ops). split; [reflexivity|]. split; [reflexivity|]. right. split; [reflexivity|]. intros o H. cbn in H. intuition (subst; reflexivity). }
  split. { exists [], [(B"eve", B"x")], (skipn 1 x_ops ++ [MPut (Some 1) (B"bob") (B"secret")]). split; [reflexivity|]. split; [reflexivity|].
           left. exists (skipn 1 x_ops), (MPut (Some 1) (B"bob") (B"secret")), []. split; [reflexivity|]. split; [reflexivity|]. intros o []. }
  split; vm_compute; reflexivity.
Qed.
(** the writer of a nil map panics *)
Example C148_nil : m_run m_new [MSetRoles None; MDel None (B"a"); MPut None (B"a") (B"b")] = Panic /\ m_run m_new [MSetRoles None; MDel None (B"a")] <> Panic.
Proof. split; [reflexivity|discriminate]. Qed.
Print Assumptions C148_follows.
Print Assumptions C148_applies.
Print Assumptions C148_unambiguous.
Print Assumptions C148_panics.
