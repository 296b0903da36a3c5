(** C48, C49, C80: Range headers. *)
From Verif Require Import Base GoStrings GoInt M_Range S_Range P_Range.
From Coq Require Import ZifyNat ZifyN.
Local Open Scope Z_scope.

(** ** C48 *)
Theorem C48_ranges_inside : forall header size rs r,
  0 <= size < two63 -> parse_range header size = inl rs -> In r rs ->
  0 <= r_start r /\ 0 <= r_len r /\ r_start r + r_len r <= size.
Proof.
  intros s size rs r Hsz H Hr. unfold parse_range, parse_range_w in H.
  destruct (is_empty s); [injection H as <-; destruct Hr|].
  destruct (strip_prefix (B"bytes=") s) as [rest|]; [|discriminate].
  destruct (parse_pieces wrap64 _ size [] false) as [[rs' no]|] eqn:E; [|discriminate].
  destruct (no && is_empty rs'); [discriminate|]. injection H as <-.
  apply (parse_pieces_bounds wrap64 _ size wrap64_id Hsz _ _ _ _ (Forall_nil _)) in E.
  rewrite Forall_forall in E. exact (E r Hr).
Qed.
(** no operation on int64 wraps around while parsing: the result is that of the same
    program over unbounded integers *)
Theorem C48_no_overflow : forall header size,
  0 <= size < two63 -> parse_range header size = parse_range_w (fun z => z) header size.
Proof.
  intros s size Hsz. unfold parse_range, parse_range_w.
  destruct (is_empty s); [reflexivity|]. destruct (strip_prefix (B"bytes=") s); [|reflexivity].
  rewrite (parse_pieces_nowrap wrap64 _ size wrap64_id Hsz). reflexivity.
Qed.
Example C48_example :
  parse_range (B"bytes=5-9223372036854775807, -3") 10 = inl [HRange 5 5; HRange 7 3].
Proof. vm_compute. reflexivity. Qed.

(** ** C49 *)
Lemma strip_bytes t : strip_prefix (B"bytes=") (B"bytes=" ++ t) = Some t.
Proof. reflexivity. Qed.
Lemma selected_nil size l : selected size l = [] ->
  existsb (fun sp => match selects size sp with None => true | _ => false end) l = negb (is_empty l).
Proof.
  destruct l as [|sp l]; [reflexivity|]. cbn [selected existsb].
  destruct (selects size sp); [discriminate|reflexivity].
Qed.
Theorem C49_range_specs : forall os t size,
  0 <= size < two63 -> range_list os t ->
  (selected size (specs os) <> [] \/ specs os = [] ->
     exists rs, parse_range (B"bytes=" ++ t) size = inl rs /\
       map (fun r => (r_start r, r_len r)) rs = selected size (specs os)) /\
  (selected size (specs os) = [] /\ specs os <> [] ->
     parse_range (B"bytes=" ++ t) size = inr RNoOverlap).
Proof.
  intros os t size Hsz R. unfold parse_range, parse_range_w.
  change (is_empty (B"bytes=" ++ t)) with false. cbv iota. rewrite strip_bytes.
  rewrite (parse_pieces_list os t size Hsz R [] false). cbn [app orb].
  split.
  - intros H. exists (map to_h (selected size (specs os))).
    assert (E : existsb (fun sp => match selects size sp with None => true | _ => false end) (specs os)
                && is_empty (map to_h (selected size (specs os))) = false).
    { destruct H as [H|H].
      - destruct (selected size (specs os)); [congruence|]. apply andb_false_r.
      - rewrite H. reflexivity. }
    rewrite E. split; [reflexivity|]. rewrite map_map. rewrite <- (map_id (selected size (specs os))) at 2.
    apply map_ext. intros [a n]. reflexivity.
  - intros [H1 H2]. rewrite (selected_nil size _ H1), H1. destruct (specs os); [congruence|reflexivity].
Qed.
Theorem C49_other_units_rejected : forall header size,
  header <> [] -> ~ (exists t, header = B"bytes=" ++ t) -> parse_range header size = inr RInvalid.
Proof.
  intros s size N H. unfold parse_range, parse_range_w. rewrite (nonempty_is s N).
  destruct (strip_prefix (B"bytes=") s) as [t|] eqn:E; [|reflexivity].
  exfalso. apply H. exists t.
  assert (G : forall p s t, strip_prefix p s = Some t -> s = p ++ t).
  { induction p as [|a p IH]; intros [|b s'] t' X; cbn [strip_prefix] in X; try discriminate;
      try (injection X as <-; reflexivity).
    destruct (Ascii.eqb_spec a b) as [->|_]; [|discriminate]. apply IH in X. subst. reflexivity. }
  apply G. exact E.
Qed.
Theorem C49_no_header : forall size, parse_range [] size = inl [].
Proof. reflexivity. Qed.
Example C49_example :
  range_list [Some (FromTo 2 5); None; Some (From_ 20); Some (Suffix 3)] (B" 2-05,, 20-,- 3") /\
  parse_range (B"bytes= 2-05,, 20-,- 3") 10 = inl [HRange 2 4; HRange 7 3] /\
  parse_range (B"bytes=20-") 10 = inr RNoOverlap.
Proof.
  split; [|split; vm_compute; reflexivity].
  assert (Num : forall n s, s <> [] -> digits_val 0 s = Some n -> n < two63 -> numeral n s)
    by (intros; split; [assumption|split; assumption]).
  assert (Bl : ows (B" ")) by (constructor; [left; reflexivity|constructor]).
  change (B" 2-05,, 20-,- 3") with (B" 2-05" ++ ","%char :: B"" ++ ","%char :: B" 20-" ++ ","%char :: B"- 3").
  constructor; [|constructor; [|constructor; [|constructor]]]; cbn [element].
  - apply (W_FromTo 2 5 (B"2") (B"05") (B" ") [] [] []); try (apply Num; [discriminate|reflexivity|reflexivity]);
      try assumption; try constructor; lia.
  - constructor.
  - apply (W_From 20 (B"20") (B" ") [] []); try (apply Num; [discriminate|reflexivity|reflexivity]); try assumption; constructor.
  - apply (W_Suffix 3 (B"3") [] (B" ") []); try (apply Num; [discriminate|reflexivity|reflexivity]); try assumption; constructor.
Qed.

(** ** C80: malformed headers are rejected *)
Definition C80_claim : Prop := forall t size rs, 0 <= size < two63 ->
  parse_range (B"bytes=" ++ t) size = inl rs -> exists os, range_list os t.
Lemma range_list_split os t : range_list os t -> forall p, In p (split "," t) -> exists o, element o p.
Proof.
  assert (NC : forall o s, element o s -> ~ In ","%char s).
  { intros [sp|] s0 El; cbn [element] in El.
    - apply (parse_written sp s0 0 ltac:(unfold two63; lia) El).
    - apply ows_no; [exact El|exact comma_not_blank]. }
  induction 1 as [o s El|o s os t El R IH]; intros p Hp.
  - rewrite split_one in Hp by (eapply NC; exact El). destruct Hp as [<-|[]]. exists o. exact El.
  - rewrite split_cons in Hp by (eapply NC; exact El). destruct Hp as [<-|Hp]; [exists o; exact El|exact (IH p Hp)].
Qed.
Theorem C80_malformed_refuted : ~ C80_claim.
Proof.
  intros H. destruct (H (B"0-1,9-x") 3 [HRange 0 2] ltac:(unfold two63; lia) ltac:(vm_compute; reflexivity)) as (os & R).
  destruct (range_list_split _ _ R (B"9-x") ltac:(vm_compute; auto)) as (o & El).
  assert (X : In "x"%char (B"9-x")) by (vm_compute; auto).
  assert (Dx : forall n s, numeral n s -> ~ In "x"%char s).
  { intros n s N. apply digits_no; [eapply numeral_digits; exact N|reflexivity]. }
  assert (Bx : forall s, ows s -> ~ In "x"%char s).
  { intros s O. apply ows_no; [exact O|]. intros [Y|[Y|[Y|[Y|[]]]]]; discriminate. }
  revert El X. generalize (B"9-x") as p. intros p El X.
  destruct o as [sp|]; cbn [element] in El; [|exact (Bx _ El X)].
  inversion El as [a b sa sb o1 o2 o3 o4 Na Nb Hab O1 O2 O3 O4 E1 E|a sa o1 o2 o3 Na O1 O2 O3 E1 E|n sn o1 o2 o3 Nn O1 O2 O3 E1 E];
    subst p; rewrite ?in_app_iff in X; cbn [In] in X; rewrite ?in_app_iff in X;
    repeat match goal with
           | H : _ \/ _ |- _ => destruct H
           | H : _ = _ :> ascii |- _ => discriminate
           | H : In _ _, O : ows _ |- _ => exact (Bx _ O H)
           | H : In _ ?s, O : numeral _ ?s |- _ => exact (Dx _ _ O H)
           end.
Qed.
(** What is accepted, exactly up to signs (C80_every_header below): every header that is not answered with
    "invalid range" is a list of loosely spelled specs, and the ranges are the ones they
    select.  Missing from the claim: a plus sign, "-0" as end position, and anything after
    the '-' of a spec that starts beyond the content are let through. *)
Lemma plus_numeral_of s n : parse_int s = Some n -> 0 <= n -> ~ In "-"%char s -> plus_numeral n s.
Proof.
  intros H Hn Hd. unfold parse_int in H. destruct s as [|c s]; [discriminate|].
  destruct (Ascii.eqb_spec c "+") as [->|Np].
  - right. exists s. split; [reflexivity|]. destruct s as [|d s]; [discriminate|].
    destruct (digits_val 0 (d :: s)) as [v|] eqn:E; [|discriminate].
    destruct (Z.ltb_spec v two63); [|discriminate]. injection H as <-.
    split; [discriminate|split; assumption].
  - destruct (Ascii.eqb_spec c "-") as [->|Nm]; [exfalso; apply Hd; left; reflexivity|].
    left. destruct (digits_val 0 (c :: s)) as [v|] eqn:E; [|discriminate].
    destruct (Z.ltb_spec v two63); [|discriminate]. injection H as <-.
    split; [discriminate|split; assumption].
Qed.
Lemma end_numeral_of s n : parse_int s = Some n -> 0 <= n -> end_numeral n s.
Proof.
  intros H Hn. destruct (in_dec ascii_dec "-"%char s) as [I|I].
  2:{ left. apply plus_numeral_of; assumption. }
  unfold parse_int in H. destruct s as [|c s]; [discriminate|].
  destruct (Ascii.eqb_spec c "+") as [->|Np].
  - destruct I as [I|I]; [discriminate|]. destruct s as [|d s]; [discriminate|].
    destruct (digits_val 0 (d :: s)) as [v|] eqn:E; [|discriminate].
    exfalso. exact (digits_no "-" _ (digits_val_digits _ _ _ E) eq_refl I).
  - destruct (Ascii.eqb_spec c "-") as [->|Nm].
    + right. destruct s as [|d s]; [discriminate|].
      destruct (digits_val 0 (d :: s)) as [v|] eqn:E; [|discriminate].
      destruct (Z.leb_spec v two63); [|discriminate]. injection H as <-.
      pose proof (digits_val_nonneg _ _ _ (Z.le_refl 0) E). assert (v = 0) by lia. subst v.
      split; [reflexivity|]. exists (d :: s). split; [reflexivity|]. split; [discriminate|split; [exact E|reflexivity]].
    + destruct (digits_val 0 (c :: s)) as [v|] eqn:E; [|discriminate].
      exfalso. exact (digits_no "-" _ (digits_val_digits _ _ _ E) eq_refl I).
Qed.
Lemma parse_one_inv p size o : 0 <= size < two63 -> ~ In ","%char p -> textproto_trim p <> [] ->
  parse_one wrap64 (textproto_trim p) size = Some o ->
  exists sp, loose size sp p /\ pick (selects size sp) = o.
Proof.
  intros Hsz Nc Hp H. destruct (trim_split p) as (x & y & Ox & Oy & Ep).
  destruct (cut "-" (textproto_trim p)) as [[u v]|] eqn:C.
  2:{ unfold parse_one in H. rewrite C in H. discriminate. }
  destruct (cut_inv _ _ _ _ C) as [Et Nu]. rewrite Et in H. rewrite (parse_one_gen u v size wrap64 Nu) in H. cbv zeta in H.
  destruct (trim_split u) as (u1 & u2 & Ou1 & Ou2 & Eu). destruct (trim_split v) as (v1 & v2 & Ov1 & Ov2 & Ev).
  assert (Nu' : ~ In "-"%char (textproto_trim u)).
  { intros I. apply Nu. rewrite Eu, !in_app_iff. auto. }
  assert (OA : forall a b, ows a -> ows b -> ows (a ++ b)) by (intros; apply Forall_app; split; assumption).
  rewrite Et in Ep.
  destruct (is_empty (textproto_trim u)) eqn:EmU.
  - apply is_empty_true in EmU. destruct (is_empty (textproto_trim v)) eqn:EmV; [discriminate|]. cbn [orb] in H.
    destruct (parse_int (textproto_trim v)) as [i|] eqn:P.
    2:{ destruct (match textproto_trim v with [] => false | c :: _ => Ascii.eqb c "-" end); discriminate. }
    destruct (match textproto_trim v with [] => false | c :: _ => Ascii.eqb c "-" end) eqn:Hd; [discriminate|].
    destruct (Z.ltb_spec i 0); [discriminate|]. injection H as <-.
    exists (Suffix i). split.
    + rewrite Ep, Ev. rewrite EmU in Eu. rewrite Eu.
      replace (x ++ ((u1 ++ [] ++ u2) ++ "-"%char :: v1 ++ textproto_trim v ++ v2) ++ y)
        with ((x ++ u1 ++ u2) ++ "-"%char :: v1 ++ textproto_trim v ++ (v2 ++ y))
        by (cbn [app]; rewrite <- !app_assoc; cbn [app]; rewrite <- !app_assoc; reflexivity).
      apply L_Suffix; auto.
      destruct (end_numeral_of _ _ P ltac:(lia)) as [Q|(-> & d & Q & _)]; [exact Q|].
      rewrite Q in Hd. discriminate.
    + pose proof (parse_int_int64 _ _ P). unfold selects. cbn [pick]. f_equal.
      destruct (Z.ltb_spec size i); w64; f_equal; lia.
  - destruct (parse_int (textproto_trim u)) as [i|] eqn:P; [|discriminate].
    destruct (Z.ltb_spec i 0); [discriminate|].
    pose proof (plus_numeral_of _ _ P ltac:(lia) Nu') as PN.
    pose proof (parse_int_int64 _ _ P).
    destruct (Z.leb_spec size i) as [L|L].
    + injection H as <-. exists (From_ i). split.
      * rewrite Ep, Eu.
        replace (x ++ ((u1 ++ textproto_trim u ++ u2) ++ "-"%char :: v) ++ y)
          with ((x ++ u1) ++ textproto_trim u ++ u2 ++ "-"%char :: (v ++ y))
          by (rewrite <- !app_assoc; cbn [app]; rewrite <- ?app_assoc; reflexivity).
        apply L_Beyond; auto. intros I. apply Nc. rewrite Ep, !in_app_iff. cbn [In].
        apply in_app_or in I as [I|I]; tauto.
      * unfold selects. rewrite (proj2 (Z.ltb_ge i size)) by lia. reflexivity.
    + destruct (is_empty (textproto_trim v)) eqn:EmV.
      * apply is_empty_true in EmV. injection H as <-. exists (From_ i). split.
        -- rewrite Ep, Eu. rewrite EmV in Ev. rewrite Ev.
           replace (x ++ ((u1 ++ textproto_trim u ++ u2) ++ "-"%char :: v1 ++ [] ++ v2) ++ y)
             with ((x ++ u1) ++ textproto_trim u ++ u2 ++ "-"%char :: (v1 ++ v2 ++ y))
             by (cbn [app]; rewrite <- !app_assoc; cbn [app]; rewrite <- ?app_assoc; reflexivity).
           apply L_From; auto.
        -- unfold selects. rewrite (proj2 (Z.ltb_lt i size)) by lia. cbn [pick]. w64. reflexivity.
      * destruct (parse_int (textproto_trim v)) as [j|] eqn:Q; [|discriminate].
        pose proof (parse_int_int64 _ _ Q).
        destruct (Z.ltb_spec j i); [discriminate|]. injection H as <-. exists (FromTo i j). split.
        -- rewrite Ep, Eu, Ev.
           replace (x ++ ((u1 ++ textproto_trim u ++ u2) ++ "-"%char :: v1 ++ textproto_trim v ++ v2) ++ y)
             with ((x ++ u1) ++ textproto_trim u ++ u2 ++ "-"%char :: (v1 ++ textproto_trim v ++ (v2 ++ y)))
             by (rewrite <- !app_assoc; cbn [app]; rewrite <- ?app_assoc; reflexivity).
           apply L_FromTo; auto. apply end_numeral_of; [exact Q|lia].
        -- unfold selects. rewrite (proj2 (Z.ltb_lt i size)) by lia. cbn [pick].
           destruct (Z.leb_spec size j); w64; do 2 f_equal; lia.
Qed.
Lemma pieces_inv size : 0 <= size < two63 -> forall n t, (length t <= n)%nat -> forall acc no rs no',
  parse_pieces wrap64 (split "," t) size acc no = inl (rs, no') ->
  exists os, loose_list size os t /\ rs = acc ++ map to_h (selected size (specs os)).
Proof.
  intros Hsz.
  assert (Piece : forall p ps acc no rs no', ~ In ","%char p -> parse_pieces wrap64 (p :: ps) size acc no = inl (rs, no') ->
      exists o no1, loose_element size o p /\
        parse_pieces wrap64 ps size (acc ++ map to_h (selected size (specs [o]))) no1 = inl (rs, no')).
  { intros p ps acc no rs0 no' Nc X. cbn [parse_pieces] in X.
    destruct (is_empty (textproto_trim p)) eqn:Em.
    - exists None, no. split.
      + cbn [loose_element]. apply is_empty_true in Em. destruct (trim_split p) as (a & b & Oa & Ob & E).
        rewrite Em in E. rewrite E. apply Forall_app; split; [exact Oa|exact Ob].
      + cbn [specs selected map]. rewrite app_nil_r. exact X.
    - apply is_empty_false in Em. destruct (parse_one wrap64 (textproto_trim p) size) as [o|] eqn:E; [|discriminate].
      destruct (parse_one_inv p size o Hsz Nc Em E) as (sp & L & Pk). exists (Some sp).
      cbn [specs selected loose_element]. destruct (selects size sp) as [[a k]|]; cbn [pick] in Pk; subst o.
      + exists no. split; [exact L|]. exact X.
      + exists true. split; [exact L|]. cbn [map]. rewrite app_nil_r. exact X. }
  assert (First : forall t p ps, split "," t = p :: ps -> ~ In ","%char p).
  { induction t as [|x t IH]; intros p ps E; cbn [split] in E; [injection E as <- _; intros []|].
    destruct (Ascii.eqb_spec x ",") as [->|N]; [injection E as <- _; intros []|].
    destruct (split "," t) as [|w ws]; injection E as <- _; [intros [I|[]]; congruence|].
    intros [I|I]; [congruence|exact (IH _ _ eq_refl I)]. }
  induction n as [|n IH]; intros t0 Hn acc no rs0 no' X.
  - destruct t0; [|simpl in Hn; lia]. cbn [split] in X. destruct (Piece _ _ _ _ _ _ (@in_nil _ _) X) as (o & no1 & L & Y).
    cbn [parse_pieces] in Y. injection Y as <- _. exists [o]. split; [constructor; exact L|reflexivity].
  - destruct (split_inv "," t0) as (p & ps & Es & [[-> ->]|(t1 & -> & ->)]); pose proof (First _ _ _ Es) as Nc; rewrite Es in X.
    + destruct (Piece _ _ _ _ _ _ Nc X) as (o & no1 & L & Y).
      cbn [parse_pieces] in Y. injection Y as <- _. exists [o]. split; [constructor; exact L|reflexivity].
    + destruct (Piece _ _ _ _ _ _ Nc X) as (o & no1 & L & Y).
      rewrite app_length in Hn. cbn [length] in Hn.
      destruct (IH t1 ltac:(lia) _ _ _ _ Y) as (os & Ls & ->). exists (o :: os).
      split; [constructor; assumption|]. rewrite <- app_assoc, <- map_app. do 2 f_equal.
      destruct o as [sp|]; cbn [specs selected]; [|reflexivity]. destruct (selects size sp); reflexivity.
Qed.
Theorem C80_accepted_headers_partial : forall t size rs,
  0 <= size < two63 -> parse_range (B"bytes=" ++ t) size = inl rs ->
  exists os, loose_list size os t /\
    map (fun r => (r_start r, r_len r)) rs = selected size (specs os).
Proof.
  intros t size rs Hsz H. unfold parse_range, parse_range_w in H.
  change (is_empty (B"bytes=" ++ t)) with false in H. cbv iota in H. rewrite strip_bytes in H.
  destruct (parse_pieces wrap64 (split "," t) size [] false) as [[rs' no]|] eqn:E; [|discriminate].
  destruct (no && is_empty rs'); [discriminate|]. injection H as <-.
  destruct (pieces_inv size Hsz (length t) t (le_n _) _ _ _ _ E) as (os & L & ->). exists os. split; [exact L|].
  cbn [app]. rewrite map_map. rewrite <- (map_id (selected size (specs os))) at 2.
  apply map_ext. intros [a n]. reflexivity.
Qed.

(** *** and exactly these headers are accepted *)
Lemma plus_facts n s : plus_numeral n s -> s <> [] /\ tight s /\ ~ In ","%char s /\ ~ In "-"%char s /\ parse_int s = Some n /\ 0 <= n < two63.
Proof.
  assert (P : forall d, numeral n d -> d <> [] /\ tight d /\ ~ In ","%char d /\ ~ In "-"%char d /\ parse_int d = Some n /\ 0 <= n < two63).
  { intros d N. pose proof (numeral_digits _ _ N) as D. split; [apply N|]. split; [apply digits_tight; exact D|].
    split; [apply digits_no; [exact D|reflexivity]|]. split; [apply digits_no; [exact D|reflexivity]|].
    split; [apply numeral_parse; exact N|apply (numeral_nonneg _ _ N)]. }
  intros [N|(d & -> & N)]; [apply P; exact N|]. destruct (P d N) as (P1 & [_ P2] & P3 & P4 & _ & P6).
  split; [discriminate|]. split; [|split; [|split; [|split; [|exact P6]]]].
  - split; intros c Hc; [injection Hc as <-; intros [X|[X|[X|[X|[]]]]]; discriminate|].
    cbn [rev] in Hc. rewrite hd_app in Hc; [exact (P2 c Hc)|]. intros X. apply P1. rewrite <- (rev_involutive d), X. reflexivity.
  - intros [X|X]; [discriminate|exact (P3 X)].
  - intros [X|X]; [discriminate|exact (P4 X)].
  - destruct N as (N1 & N2 & N3). destruct d as [|c d]; [congruence|]. unfold parse_int. rewrite Ascii.eqb_refl, N2.
    rewrite (proj2 (Z.ltb_lt n two63) N3). reflexivity.
Qed.
Lemma end_facts n s : end_numeral n s -> s <> [] /\ tight s /\ ~ In ","%char s /\ parse_int s = Some n /\ 0 <= n < two63.
Proof.
  intros [N|(-> & d & -> & N)]; [destruct (plus_facts n s N) as (P1 & P2 & P3 & _ & P5 & P6); auto|].
  destruct (plus_facts 0 d (or_introl N)) as (P1 & [_ P2] & P3 & _ & _ & P6). split; [discriminate|]. split; [|split; [|split; [|exact P6]]].
  - split; intros c Hc; [injection Hc as <-; exact dash_not_blank|].
    cbn [rev] in Hc. rewrite hd_app in Hc; [exact (P2 c Hc)|]. intros X. apply P1. rewrite <- (rev_involutive d), X. reflexivity.
  - intros [X|X]; [discriminate|exact (P3 X)].
  - destruct N as (N1 & N2 & N3). destruct d as [|c d]; [congruence|]. unfold parse_int.
    replace (Ascii.eqb "-" "+") with false by reflexivity. rewrite Ascii.eqb_refl, N2. reflexivity.
Qed.
Lemma parse_loose sp s size : 0 <= size < two63 -> loose size sp s ->
  textproto_trim s <> [] /\ ~ In ","%char s /\ parse_one wrap64 (textproto_trim s) size = Some (pick (selects size sp)).
Proof.
  intros Hsz W. destruct W as [a b sa sb o1 o2 o3 o4 Na Nb Hab O1 O2 O3 O4|a sa o1 o2 o3 Na O1 O2 O3|n sn o1 o2 o3 Nn O1 O2 O3|a sa o1 o2 rest Na Hb O1 O2 Nr].
  - destruct (plus_facts _ _ Na) as (Ea & Ta & Ca & Da & Pa & Ba). destruct (end_facts _ _ Nb) as (Eb & Tb & Cb & Pb & Bb).
    assert (E : o1 ++ sa ++ o2 ++ "-"%char :: o3 ++ sb ++ o4 = o1 ++ (sa ++ (o2 ++ "-"%char :: o3) ++ sb) ++ o4).
    { rewrite <- !app_assoc. reflexivity. }
    rewrite E. rewrite trim_ows; [|assumption|assumption|apply tight_app; assumption].
    split; [destruct sa; [congruence|discriminate]|split].
    + rewrite !in_app_iff. simpl. rewrite ?in_app_iff.
      pose proof (ows_no _ _ O1 comma_not_blank). pose proof (ows_no _ _ O2 comma_not_blank).
      pose proof (ows_no _ _ O3 comma_not_blank). pose proof (ows_no _ _ O4 comma_not_blank). intuition discriminate.
    + replace (sa ++ (o2 ++ "-"%char :: o3) ++ sb) with ((sa ++ o2) ++ "-"%char :: (o3 ++ sb))
        by (rewrite <- !app_assoc; reflexivity).
      rewrite parse_one_gen.
      2:{ rewrite in_app_iff. pose proof (ows_no _ _ O2 dash_not_blank). tauto. }
      assert (T1 : textproto_trim (sa ++ o2) = sa) by (apply (trim_ows [] sa o2); [constructor|assumption|assumption]).
      assert (T2 : textproto_trim (o3 ++ sb) = sb).
      { rewrite <- (app_nil_r sb) at 1. apply trim_ows; [assumption|constructor|assumption]. }
      rewrite T1, T2. cbv zeta. rewrite (nonempty_is _ Ea), (nonempty_is _ Eb), Pa, Pb.
      rewrite (proj2 (Z.ltb_ge a 0)) by lia. unfold selects.
      destruct (Z.leb_spec size a) as [L|L]; destruct (Z.ltb_spec a size) as [L'|L']; try lia; [reflexivity|].
      rewrite (proj2 (Z.ltb_ge b a)) by lia. cbn [pick]. do 3 f_equal.
      destruct (Z.leb_spec size b) as [K|K]; w64; lia.
  - destruct (plus_facts _ _ Na) as (Ea & Ta & Ca & Da & Pa & Ba).
    assert (E : o1 ++ sa ++ o2 ++ "-"%char :: o3 = o1 ++ (sa ++ o2 ++ ["-"%char]) ++ o3).
    { rewrite <- !app_assoc. reflexivity. }
    rewrite E. rewrite trim_ows; [|assumption|assumption|apply tight_app; auto using tight_dash; discriminate].
    split; [destruct sa; [congruence|discriminate]|split].
    + rewrite !in_app_iff. simpl.
      pose proof (ows_no _ _ O1 comma_not_blank). pose proof (ows_no _ _ O2 comma_not_blank).
      pose proof (ows_no _ _ O3 comma_not_blank). intuition discriminate.
    + rewrite app_assoc, parse_one_gen.
      2:{ rewrite in_app_iff. pose proof (ows_no _ _ O2 dash_not_blank). tauto. }
      assert (T1 : textproto_trim (sa ++ o2) = sa) by (apply (trim_ows [] sa o2); [constructor|assumption|assumption]).
      assert (T2 : textproto_trim [] = []) by reflexivity.
      rewrite T1, T2. cbv zeta. rewrite (nonempty_is _ Ea), Pa.
      rewrite (proj2 (Z.ltb_ge a 0)) by lia. unfold selects.
      destruct (Z.leb_spec size a) as [L|L]; destruct (Z.ltb_spec a size) as [L'|L']; try lia; [reflexivity|].
      cbn [is_empty pick]. w64. reflexivity.
  - destruct (plus_facts _ _ Nn) as (En & Tn & Cn & Dn & Pn & Bn).
    assert (E : o1 ++ "-"%char :: o2 ++ sn ++ o3 = o1 ++ (["-"%char] ++ o2 ++ sn) ++ o3).
    { rewrite <- !app_assoc. reflexivity. }
    rewrite E. rewrite trim_ows; [|assumption|assumption|apply tight_app; auto using tight_dash; discriminate].
    split; [discriminate|split].
    + rewrite !in_app_iff. simpl.
      pose proof (ows_no _ _ O1 comma_not_blank). pose proof (ows_no _ _ O2 comma_not_blank).
      pose proof (ows_no _ _ O3 comma_not_blank). intuition discriminate.
    + change (["-"%char] ++ o2 ++ sn) with ([] ++ "-"%char :: (o2 ++ sn)). rewrite parse_one_gen by (intros []).
      assert (T1 : textproto_trim [] = []) by reflexivity.
      assert (T2 : textproto_trim (o2 ++ sn) = sn).
      { rewrite <- (app_nil_r sn) at 1. apply trim_ows; [assumption|constructor|assumption]. }
      rewrite T1, T2. cbv zeta. cbn [is_empty]. rewrite (nonempty_is _ En), Pn. cbn [orb].
      assert (Hd : match sn with c :: _ => Ascii.eqb c "-" | [] => false end = false).
      { destruct sn as [|c sn]; [reflexivity|]. destruct (Ascii.eqb_spec c "-") as [->|]; [|reflexivity]. exfalso. apply Dn. left. reflexivity. }
      rewrite Hd. rewrite (proj2 (Z.ltb_ge n 0)) by lia. unfold selects. cbn [pick]. do 2 f_equal.
      destruct (Z.ltb_spec size n) as [L|L]; w64; f_equal; lia.
  - destruct (plus_facts _ _ Na) as (Ea & Ta & Ca & Da & Pa & Ba).
    destruct (trim_split rest) as (r1 & r2 & R1 & R2 & Er).
    assert (X : exists v w, ows w /\ o1 ++ sa ++ o2 ++ "-"%char :: rest = o1 ++ ((sa ++ o2) ++ "-"%char :: v) ++ w /\ tight ((sa ++ o2) ++ "-"%char :: v)).
    { destruct (textproto_trim rest) as [|c m] eqn:Et.
      - exists [], rest. split; [rewrite Er; apply Forall_app; split; assumption|]. split; [rewrite <- !app_assoc; reflexivity|].
        rewrite <- app_assoc. apply (tight_app sa o2 ["-"%char]); auto using tight_dash. discriminate.
      - exists (r1 ++ c :: m), r2. split; [exact R2|]. split.
        + rewrite Er at 1. rewrite <- !app_assoc. cbn [app]. rewrite <- ?app_assoc. reflexivity.
        + replace ((sa ++ o2) ++ "-"%char :: r1 ++ c :: m) with (sa ++ (o2 ++ "-"%char :: r1) ++ c :: m) by (rewrite <- !app_assoc; reflexivity).
          apply tight_app; [exact Ea|discriminate|exact Ta|]. rewrite <- Et. apply trim_tight. }
    destruct X as (v & w & Ow & Ex & Tx). rewrite Ex, trim_ows by assumption.
    split; [destruct sa; [congruence|discriminate]|]. split.
    + rewrite <- Ex, !in_app_iff. cbn [In]. pose proof (ows_no _ _ O1 comma_not_blank). pose proof (ows_no _ _ O2 comma_not_blank). intuition discriminate.
    + rewrite parse_one_gen.
      2:{ rewrite in_app_iff. pose proof (ows_no _ _ O2 dash_not_blank). tauto. }
      assert (T1 : textproto_trim (sa ++ o2) = sa) by (apply (trim_ows [] sa o2); [constructor|assumption|assumption]).
      cbv zeta. rewrite T1, (nonempty_is _ Ea), Pa. rewrite (proj2 (Z.ltb_ge a 0)) by lia. rewrite (proj2 (Z.leb_le size a)) by lia.
      unfold selects. rewrite (proj2 (Z.ltb_ge a size)) by lia. reflexivity.
Qed.
Lemma pieces_loose os s size : 0 <= size < two63 -> loose_list size os s ->
  forall acc no, parse_pieces wrap64 (split "," s) size acc no =
    inl (acc ++ map to_h (selected size (specs os)),
         no || existsb (fun sp => match selects size sp with None => true | _ => false end) (specs os)).
Proof.
  intros Hsz R.
  assert (Step : forall o s acc no ps, loose_element size o s ->
     parse_pieces wrap64 (s :: ps) size acc no =
     parse_pieces wrap64 ps size (acc ++ map to_h (selected size (specs [o])))
        (no || existsb (fun sp => match selects size sp with None => true | _ => false end) (specs [o]))).
  { intros [sp|] s0 acc no ps El; cbn [parse_pieces loose_element specs] in *.
    - destruct (parse_loose sp s0 size Hsz El) as (N & _ & ->). rewrite (nonempty_is _ N).
      cbn [selected existsb]. destruct (selects size sp) as [[a n]|]; cbn [pick map].
      + rewrite !orb_false_r. reflexivity.
      + rewrite app_nil_r, orb_false_r. rewrite orb_true_r. reflexivity.
    - assert (E : textproto_trim s0 = []).
      { rewrite <- (app_nil_r s0) at 1. apply (trim_ows s0 [] []); [assumption|constructor|apply ends_nil]. }
      rewrite E. cbn [is_empty selected existsb map]. rewrite app_nil_r, orb_false_r. reflexivity. }
  assert (NC : forall o s, loose_element size o s -> ~ In ","%char s).
  { intros [sp|] s0 El; cbn [loose_element] in El.
    - apply (parse_loose sp s0 size Hsz El).
    - apply ows_no; [exact El|exact comma_not_blank]. }
  induction R as [o s El|o s os t El R IH]; intros acc no.
  - rewrite split_one by (eapply NC; exact El). rewrite (Step o s acc no [] El). reflexivity.
  - rewrite split_cons by (eapply NC; exact El). rewrite (Step o s acc no _ El), IH.
    assert (Sp : specs (o :: os) = specs [o] ++ specs os) by (destruct o; reflexivity).
    assert (Sel : forall l1 l2, selected size (l1 ++ l2) = selected size l1 ++ selected size l2).
    { induction l1 as [|x l1 IH1]; intros l2; [reflexivity|]. simpl. destruct (selects size x); simpl; rewrite IH1; reflexivity. }
    rewrite Sp, Sel, map_app, existsb_app, app_assoc, orb_assoc. reflexivity.
Qed.
(** The answer for every header: the ranges the specs of a loosely spelled list select; no
    overlap if there are specs and they select nothing; invalid if it is no such list. *)
Theorem C80_every_header : forall t size, 0 <= size < two63 ->
  (forall os, loose_list size os t ->
     match selected size (specs os), specs os with
     | [], _ :: _ => parse_range (B"bytes=" ++ t) size = inr RNoOverlap
     | sel, _ => exists rs, parse_range (B"bytes=" ++ t) size = inl rs /\ map (fun r => (r_start r, r_len r)) rs = sel
     end) /\
  ((forall os, ~ loose_list size os t) -> parse_range (B"bytes=" ++ t) size = inr RInvalid).
Proof.
  intros t size Hsz.
  assert (E0 : parse_range (B"bytes=" ++ t) size = match parse_pieces wrap64 (split "," t) size [] false with
                 | inr e => inr e
                 | inl (ranges, no_overlap) => if no_overlap && is_empty ranges then inr RNoOverlap else inl ranges end).
  { unfold parse_range, parse_range_w. change (is_empty (B"bytes=" ++ t)) with false. cbv iota. rewrite strip_bytes. reflexivity. }
  rewrite E0. clear E0. split.
  - intros os L. rewrite (pieces_loose os t size Hsz L). cbn [app orb].
    assert (M : forall l, map (fun r => (r_start r, r_len r)) (map to_h l) = l).
    { intros l. rewrite map_map. rewrite <- (map_id l) at 2. apply map_ext. intros [a n]. reflexivity. }
    destruct (selected size (specs os)) as [|r sel] eqn:Es.
    + destruct (specs os) as [|sp l] eqn:Ep; [exists []; split; reflexivity|].
      cbn [map is_empty existsb]. cbn [selected] in Es. destruct (selects size sp); [discriminate|]. reflexivity.
    + cbn [map is_empty]. rewrite andb_false_r. destruct (specs os) as [|sp l] eqn:Ep; [discriminate|].
      exists (to_h r :: map to_h sel). split; [reflexivity|]. exact (M (r :: sel)).
  - intros N. destruct (parse_pieces wrap64 (split "," t) size [] false) as [[rs no]|e] eqn:E.
    + exfalso. destruct (pieces_inv size Hsz (length t) t (le_n _) _ _ _ _ E) as (os & L & _). exact (N os L).
    + f_equal. assert (G : forall l acc no, parse_pieces wrap64 l size acc no = inr e -> e = RInvalid); [|exact (G _ _ _ E)].
      clear. induction l as [|p ps IH]; intros acc no E; cbn [parse_pieces] in E; [discriminate E|].
      destruct (is_empty (textproto_trim p)); [exact (IH _ _ E)|].
      destruct (parse_one wrap64 (textproto_trim p) size) as [[r|]|]; [exact (IH _ _ E)|exact (IH _ _ E)|congruence].
Qed.
Example C80_example : parse_range (B"bytes=+1-+2,0--0,9-x") 3 = inl [HRange 1 2; HRange 0 1].
Proof. vm_compute. reflexivity. Qed.
Print Assumptions C48_ranges_inside.
Print Assumptions C48_no_overflow.
Print Assumptions C49_range_specs.
Print Assumptions C49_other_units_rejected.
Print Assumptions C49_no_header.
Print Assumptions C80_malformed_refuted.
Print Assumptions C80_accepted_headers_partial.
Print Assumptions C80_every_header.
