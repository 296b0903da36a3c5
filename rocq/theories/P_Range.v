(** Lemmas about range parsing. *)
From Verif Require Import Base GoStrings GoInt M_Range S_Range.
From Coq Require Import ZifyNat ZifyN.
Local Open Scope Z_scope.

(** ** Trimming, cutting, splitting *)
Lemma blank_byte_iff c : is_ascii_blank c = true <-> blank_byte c.
Proof.
  unfold is_ascii_blank, blank_byte. split.
  - rewrite !orb_true_iff, !N.eqb_eq. intros H.
    assert (E : c = ch (bv c)) by (unfold ch, bv; rewrite ascii_N_embedding; reflexivity).
    rewrite E. destruct H as [[[H|H]|H]|H]; rewrite H; simpl; auto.
  - intros [<-|[<-|[<-|[<-|[]]]]]; reflexivity.
Qed.
Lemma digit_not_blank c : digit_val c <> None -> ~ blank_byte c.
Proof. intros H [<-|[<-|[<-|[<-|[]]]]]; apply H; reflexivity. Qed.

Lemma drop_ows o m : ows o -> (forall c, hd_error m = Some c -> ~ blank_byte c) ->
  drop_while is_ascii_blank (o ++ m) = m.
Proof.
  intros Ho Hm; induction Ho as [|c o Hc _ IH]; cbn [drop_while app].
  - destruct m as [|c m]; [reflexivity|]. cbn [drop_while].
    destruct (is_ascii_blank c) eqn:E; [|reflexivity]. apply blank_byte_iff in E.
    exfalso; exact (Hm c eq_refl E).
  - rewrite (proj2 (blank_byte_iff c) Hc). exact IH.
Qed.
(** starts and ends with a non-blank, or is empty *)
Definition tight (m : bytes) : Prop :=
  (forall c, hd_error m = Some c -> ~ blank_byte c) /\
  (forall c, hd_error (rev m) = Some c -> ~ blank_byte c).
Lemma ows_rev o : ows o -> ows (rev o).
Proof. intros H. apply Forall_rev. exact H. Qed.
Lemma trim_ows o1 m o2 : ows o1 -> ows o2 -> tight m -> textproto_trim (o1 ++ m ++ o2) = m.
Proof.
  intros H1 H2 [T1 T2]. unfold textproto_trim.
  destruct m as [|c m].
  - assert (E : drop_while is_ascii_blank (o1 ++ [] ++ o2) = []).
    { rewrite app_nil_l. rewrite <- (app_nil_r (o1 ++ o2)). apply drop_ows; [|discriminate].
      apply Forall_app; split; assumption. }
    rewrite E. reflexivity.
  - rewrite (drop_ows o1 ((c :: m) ++ o2) H1).
    + rewrite rev_app_distr. rewrite (drop_ows (rev o2) (rev (c :: m)) (ows_rev _ H2) T2).
      apply rev_involutive.
    + intros d Hd. apply T1. exact Hd.
Qed.
Lemma drop_split s : exists a, ows a /\ s = a ++ drop_while is_ascii_blank s.
Proof.
  induction s as [|c s (a & Ha & E)]; [exists []; split; [constructor|reflexivity]|].
  cbn [drop_while]. destruct (is_ascii_blank c) eqn:Ec.
  - exists (c :: a). split; [constructor; [apply blank_byte_iff; exact Ec|exact Ha]|].
    simpl. congruence.
  - exists []. split; [constructor|reflexivity].
Qed.
Lemma trim_split s : exists a b, ows a /\ ows b /\ s = a ++ textproto_trim s ++ b.
Proof.
  destruct (drop_split s) as (a & Ha & Ea). unfold textproto_trim.
  destruct (drop_split (rev (drop_while is_ascii_blank s))) as (b & Hb & Eb).
  exists a, (rev b). split; [exact Ha|split; [apply ows_rev; exact Hb|]].
  rewrite <- rev_app_distr, <- Eb, rev_involutive. exact Ea.
Qed.

Lemma drop_while_hd s c : hd_error (drop_while is_ascii_blank s) = Some c -> ~ blank_byte c.
Proof.
  induction s as [|x s IH]; cbn [drop_while]; [discriminate|].
  destruct (is_ascii_blank x) eqn:E; [exact IH|]. intros H; injection H as <-.
  intros B. apply blank_byte_iff in B. congruence.
Qed.
Lemma trim_tight s : tight (textproto_trim s).
Proof.
  unfold textproto_trim. split; intros c Hc.
  - destruct (drop_split (rev (drop_while is_ascii_blank s))) as (b & Ob & Eb).
    apply (f_equal (@rev _)) in Eb. rewrite rev_involutive, rev_app_distr in Eb.
    apply (drop_while_hd s c). rewrite Eb.
    destruct (rev (drop_while is_ascii_blank (rev (drop_while is_ascii_blank s)))); [discriminate|exact Hc].
  - rewrite rev_involutive in Hc. exact (drop_while_hd _ _ Hc).
Qed.
Lemma cut_app c u v : ~ In c u -> cut c (u ++ c :: v) = Some (u, v).
Proof.
  induction u as [|x u IH]; intros H; cbn [cut app].
  - rewrite Ascii.eqb_refl. reflexivity.
  - destruct (Ascii.eqb_spec x c) as [->|_]; [exfalso; apply H; left; reflexivity|].
    rewrite IH; [reflexivity|]. intros X; apply H; right; exact X.
Qed.
Lemma cut_inv c s : forall u v, cut c s = Some (u, v) -> s = u ++ c :: v /\ ~ In c u.
Proof.
  induction s as [|x s IH]; intros u v H; cbn [cut] in H; [discriminate|].
  destruct (Ascii.eqb_spec x c) as [->|N].
  - injection H as <- <-. split; [reflexivity|intros []].
  - destruct (cut c s) as [[a b]|] eqn:E; [|discriminate]. injection H as <- <-.
    destruct (IH a b eq_refl) as [-> Hn]. split; [reflexivity|]. intros [X|X]; [congruence|exact (Hn X)].
Qed.
Lemma split_one c (s : bytes) : ~ In c s -> split c s = [s].
Proof.
  induction s as [|x s IH]; intros H; cbn [split]; [reflexivity|].
  destruct (Ascii.eqb_spec x c) as [->|N]; [exfalso; apply H; left; reflexivity|].
  rewrite IH; [reflexivity|]. intros X; apply H; right; exact X.
Qed.
Lemma split_cons c (s t : bytes) : ~ In c s -> split c (s ++ c :: t) = s :: split c t.
Proof.
  induction s as [|x s IH]; intros H; cbn [split app].
  - rewrite Ascii.eqb_refl. reflexivity.
  - destruct (Ascii.eqb_spec x c) as [->|N]; [exfalso; apply H; left; reflexivity|].
    rewrite IH; [reflexivity|]. intros X; apply H; right; exact X.
Qed.
Lemma split_inv c (s : bytes) : exists (w : bytes) (ws : list bytes), split c s = w :: ws /\
  (ws = [] /\ s = w \/ exists t, s = w ++ c :: t /\ ws = split c t).
Proof.
  induction s as [|x s IH]; cbn [split].
  - exists [], []. split; [reflexivity|left; split; reflexivity].
  - destruct (Ascii.eqb_spec x c) as [->|N].
    + exists [], (split c s). split; [reflexivity|right]. exists s. split; reflexivity.
    + destruct IH as (w & ws & -> & [[-> ->]|(t & -> & ->)]).
      * exists (x :: w), []. split; [reflexivity|left; split; reflexivity].
      * exists (x :: w), (split c t). split; [reflexivity|right]. exists t. split; reflexivity.
Qed.

(** ** Numerals *)
Lemma numeral_parse n s : numeral n s -> parse_int s = Some n.
Proof. intros (H1 & H2 & H3). apply parse_int_digits; assumption. Qed.
Lemma numeral_nonneg n s : numeral n s -> 0 <= n < two63.
Proof. intros (H1 & H2 & H3). split; [eapply digits_val_nonneg; [|exact H2]; lia|exact H3]. Qed.
Lemma numeral_digits n s : numeral n s -> all_digits s.
Proof. intros (_ & H & _). eapply digits_val_digits; exact H. Qed.
Lemma digits_tight s : all_digits s -> tight s.
Proof.
  intros D. split; intros c Hc; apply digit_not_blank.
  - destruct s; [discriminate|]. injection Hc as <-. inversion D; assumption.
  - apply Forall_rev in D. destruct (rev s); [discriminate|]. injection Hc as <-. inversion D; assumption.
Qed.
Lemma digits_no c s : all_digits s -> digit_val c = None -> ~ In c s.
Proof. intros D E X. unfold all_digits in D. rewrite Forall_forall in D. exact (D c X E). Qed.
Lemma ows_no c o : ows o -> ~ blank_byte c -> ~ In c o.
Proof. intros D E X. unfold ows in D. rewrite Forall_forall in D. exact (E (D c X)). Qed.
Lemma dash_not_blank : ~ blank_byte "-"%char.
Proof. intros [X|[X|[X|[X|[]]]]]; discriminate. Qed.
Lemma comma_not_blank : ~ blank_byte ","%char.
Proof. intros [X|[X|[X|[X|[]]]]]; discriminate. Qed.
Lemma nonempty_is {A} (l : list A) : l <> [] -> is_empty l = false.
Proof. destruct l; [congruence|reflexivity]. Qed.
Lemma hd_app {A} (u v : list A) : u <> [] -> hd_error (u ++ v) = hd_error u.
Proof. destruct u; [congruence|reflexivity]. Qed.
Lemma tight_app u x v : u <> [] -> v <> [] -> tight u -> tight v -> tight (u ++ x ++ v).
Proof.
  intros Nu Nv [U1 U2] [V1 V2]. split; intros c Hc.
  - rewrite hd_app in Hc by assumption. exact (U1 c Hc).
  - rewrite !rev_app_distr, <- app_assoc, hd_app in Hc; [exact (V2 c Hc)|].
    intros X. apply (f_equal (@rev _)) in X. rewrite rev_involutive in X. exact (Nv X).
Qed.
Lemma tight_dash : tight ["-"%char].
Proof. split; intros c Hc; injection Hc as <-; exact dash_not_blank. Qed.
Lemma ends_nil : tight [].
Proof. split; discriminate. Qed.

(** ** One piece *)
Definition pick (o : option (Z * Z)) : option hrange :=
  match o with Some (a, n) => Some (HRange a n) | None => None end.

Lemma parse_one_gen u v size w :
  ~ In "-"%char u ->
  parse_one w (u ++ "-"%char :: v) size =
  let start := textproto_trim u in
  let end_ := textproto_trim v in
  if is_empty start then
    if is_empty end_ || match end_ with c :: _ => Ascii.eqb c "-" | [] => false end then None
    else match parse_int end_ with
         | None => None
         | Some i =>
             if i <? 0 then None
             else let i := if size <? i then size else i in
                  let st := w (size - i) in
                  Some (Some (HRange st (w (size - st))))
         end
  else match parse_int start with
       | None => None
       | Some i =>
           if i <? 0 then None
           else if size <=? i then Some None
           else if is_empty end_ then Some (Some (HRange i (w (size - i))))
           else match parse_int end_ with
                | None => None
                | Some j =>
                    if j <? i then None
                    else let j := if size <=? j then w (size - 1) else j in
                         Some (Some (HRange i (w (w (j - i) + 1))))
                end
       end.
Proof. intros H. unfold parse_one. rewrite (cut_app "-" u v H). reflexivity. Qed.

Ltac w64 := repeat match goal with
  | |- context [wrap64 ?x] =>
      lazymatch x with context [wrap64] => fail | _ => rewrite (wrap64_id x) by (unfold int64, two63 in *; lia) end
  end.

Lemma parse_written sp s size : 0 <= size < two63 -> written sp s ->
  textproto_trim s <> [] /\ ~ In ","%char s /\
  parse_one wrap64 (textproto_trim s) size = Some (pick (selects size sp)).
Proof.
  intros Hsz W. destruct W as [a b sa sb o1 o2 o3 o4 Na Nb Hab O1 O2 O3 O4|a sa o1 o2 o3 Na O1 O2 O3|n sn o1 o2 o3 Nn O1 O2 O3].
  - pose proof (numeral_digits _ _ Na) as Da. pose proof (numeral_digits _ _ Nb) as Db.
    pose proof (numeral_nonneg _ _ Na). pose proof (numeral_nonneg _ _ Nb).
    assert (Ea : sa <> []) by apply Na. assert (Eb : sb <> []) by apply Nb.
    assert (E : o1 ++ sa ++ o2 ++ "-"%char :: o3 ++ sb ++ o4 = o1 ++ (sa ++ (o2 ++ "-"%char :: o3) ++ sb) ++ o4).
    { rewrite <- !app_assoc. reflexivity. }
    rewrite E. rewrite trim_ows; [|assumption|assumption|apply tight_app; auto using digits_tight].
    split; [destruct sa; [congruence|discriminate]|split].
    + rewrite !in_app_iff. simpl. rewrite ?in_app_iff.
      pose proof (ows_no _ _ O1 comma_not_blank). pose proof (ows_no _ _ O2 comma_not_blank).
      pose proof (ows_no _ _ O3 comma_not_blank). pose proof (ows_no _ _ O4 comma_not_blank).
      pose proof (digits_no "," _ Da eq_refl). pose proof (digits_no "," _ Db eq_refl).
      intuition discriminate.
    + replace (sa ++ (o2 ++ "-"%char :: o3) ++ sb) with ((sa ++ o2) ++ "-"%char :: (o3 ++ sb))
        by (rewrite <- !app_assoc; reflexivity).
      rewrite parse_one_gen.
      2:{ rewrite in_app_iff. pose proof (ows_no _ _ O2 dash_not_blank).
          pose proof (digits_no "-" _ Da eq_refl). tauto. }
      assert (T1 : textproto_trim (sa ++ o2) = sa).
      { apply (trim_ows [] sa o2); [constructor|assumption|apply digits_tight; assumption]. }
      assert (T2 : textproto_trim (o3 ++ sb) = sb).
      { rewrite <- (app_nil_r sb) at 1. apply trim_ows; [assumption|constructor|apply digits_tight; assumption]. }
      rewrite T1, T2. cbv zeta. rewrite (nonempty_is _ Ea), (nonempty_is _ Eb), (numeral_parse _ _ Na), (numeral_parse _ _ Nb).
      rewrite (proj2 (Z.ltb_ge a 0)) by lia. unfold selects.
      destruct (Z.leb_spec size a) as [L|L]; destruct (Z.ltb_spec a size) as [L'|L']; try lia; [reflexivity|].
      rewrite (proj2 (Z.ltb_ge b a)) by lia. cbn [pick]. do 3 f_equal.
      destruct (Z.leb_spec size b) as [K|K]; w64; lia.
  - pose proof (numeral_digits _ _ Na) as Da. pose proof (numeral_nonneg _ _ Na).
    assert (Ea : sa <> []) by apply Na.
    assert (E : o1 ++ sa ++ o2 ++ "-"%char :: o3 = o1 ++ (sa ++ o2 ++ ["-"%char]) ++ o3).
    { rewrite <- !app_assoc. reflexivity. }
    rewrite E. rewrite trim_ows; [|assumption|assumption|apply tight_app; auto using digits_tight, tight_dash; discriminate].
    split; [destruct sa; [congruence|discriminate]|split].
    + rewrite !in_app_iff. simpl.
      pose proof (ows_no _ _ O1 comma_not_blank). pose proof (ows_no _ _ O2 comma_not_blank).
      pose proof (ows_no _ _ O3 comma_not_blank).
      pose proof (digits_no "," _ Da eq_refl). intuition discriminate.
    + rewrite app_assoc, parse_one_gen.
      2:{ rewrite in_app_iff. pose proof (ows_no _ _ O2 dash_not_blank).
          pose proof (digits_no "-" _ Da eq_refl). tauto. }
      assert (T1 : textproto_trim (sa ++ o2) = sa).
      { apply (trim_ows [] sa o2); [constructor|assumption|apply digits_tight; assumption]. }
      assert (T2 : textproto_trim [] = []) by reflexivity.
      rewrite T1, T2. cbv zeta. rewrite (nonempty_is _ Ea), (numeral_parse _ _ Na).
      rewrite (proj2 (Z.ltb_ge a 0)) by lia. unfold selects.
      destruct (Z.leb_spec size a) as [L|L]; destruct (Z.ltb_spec a size) as [L'|L']; try lia; [reflexivity|].
      cbn [is_empty pick]. w64. reflexivity.
  - pose proof (numeral_digits _ _ Nn) as Dn. pose proof (numeral_nonneg _ _ Nn).
    assert (En : sn <> []) by apply Nn.
    assert (E : o1 ++ "-"%char :: o2 ++ sn ++ o3 = o1 ++ (["-"%char] ++ o2 ++ sn) ++ o3).
    { rewrite <- !app_assoc. reflexivity. }
    rewrite E. rewrite trim_ows; [|assumption|assumption|apply tight_app; auto using digits_tight, tight_dash; discriminate].
    split; [discriminate|split].
    + rewrite !in_app_iff. simpl.
      pose proof (ows_no _ _ O1 comma_not_blank). pose proof (ows_no _ _ O2 comma_not_blank).
      pose proof (ows_no _ _ O3 comma_not_blank).
      pose proof (digits_no "," _ Dn eq_refl). intuition discriminate.
    + change (["-"%char] ++ o2 ++ sn) with ([] ++ "-"%char :: (o2 ++ sn)). rewrite parse_one_gen by (intros []).
      assert (T1 : textproto_trim [] = []) by reflexivity.
      assert (T2 : textproto_trim (o2 ++ sn) = sn).
      { rewrite <- (app_nil_r sn) at 1. apply trim_ows; [assumption|constructor|apply digits_tight; assumption]. }
      rewrite T1, T2. cbv zeta. cbn [is_empty]. rewrite (nonempty_is _ En), (numeral_parse _ _ Nn). cbn [orb].
      assert (Hd : match sn with c :: _ => Ascii.eqb c "-" | [] => false end = false).
      { destruct sn as [|c sn]; [reflexivity|]. inversion Dn; subst. apply digit_not_sign. assumption. }
      rewrite Hd. rewrite (proj2 (Z.ltb_ge n 0)) by lia. unfold selects. cbn [pick]. do 2 f_equal.
      destruct (Z.ltb_spec size n) as [L|L]; w64; f_equal; lia.
Qed.

Definition to_h (r : Z * Z) : hrange := HRange (fst r) (snd r).
Lemma parse_pieces_list os s size : 0 <= size < two63 -> range_list os s ->
  forall acc no, parse_pieces wrap64 (split "," s) size acc no =
    inl (acc ++ map to_h (selected size (specs os)),
         no || existsb (fun sp => match selects size sp with None => true | _ => false end) (specs os)).
Proof.
  intros Hsz R. 
  assert (Step : forall o s acc no ps, element o s ->
     parse_pieces wrap64 (s :: ps) size acc no =
     parse_pieces wrap64 ps size (acc ++ map to_h (selected size (specs [o])))
        (no || existsb (fun sp => match selects size sp with None => true | _ => false end) (specs [o]))).
  { intros [sp|] s0 acc no ps El; cbn [parse_pieces element specs] in *.
    - destruct (parse_written sp s0 size Hsz El) as (N & _ & ->). rewrite (nonempty_is _ N).
      cbn [selected existsb]. destruct (selects size sp) as [[a n]|]; cbn [pick map].
      + rewrite !orb_false_r. reflexivity.
      + rewrite app_nil_r, orb_false_r. rewrite orb_true_r. reflexivity.
    - assert (E : textproto_trim s0 = []).
      { rewrite <- (app_nil_r s0) at 1. apply (trim_ows s0 [] []); [assumption|constructor|apply ends_nil]. }
      rewrite E. cbn [is_empty selected existsb map]. rewrite app_nil_r, orb_false_r. reflexivity. }
  assert (NC : forall o s, element o s -> ~ In ","%char s).
  { intros [sp|] s0 El; cbn [element] in El.
    - apply (parse_written sp s0 size Hsz El).
    - apply ows_no; [exact El|exact comma_not_blank]. }
  induction R as [o s El|o s os t El R IH]; intros acc no.
  - rewrite split_one by (eapply NC; exact El). rewrite (Step o s acc no [] El). reflexivity.
  - rewrite split_cons by (eapply NC; exact El). rewrite (Step o s acc no _ El), IH.
    assert (Sp : specs (o :: os) = specs [o] ++ specs os) by (destruct o; reflexivity).
    assert (Sel : forall l1 l2, selected size (l1 ++ l2) = selected size l1 ++ selected size l2).
    { induction l1 as [|x l1 IH1]; intros l2; [reflexivity|]. simpl. destruct (selects size x); simpl; rewrite IH1; reflexivity. }
    rewrite Sp, Sel, map_app, existsb_app, app_assoc, orb_assoc. reflexivity.
Qed.

(** ** Bounds, and the absence of wrap-around *)
Definition inside (size : Z) (r : hrange) : Prop :=
  0 <= r_start r /\ 0 <= r_len r /\ r_start r + r_len r <= size.
Definition nowrap (w : Z -> Z) : Prop := forall z, int64 z -> w z = z.
Lemma parse_one_bounds w ra size o : nowrap w -> 0 <= size < two63 ->
  parse_one w ra size = Some (Some o) -> inside size o.
Proof.
  intros W Hsz. unfold parse_one. destruct (cut "-" ra) as [[st en]|]; [|discriminate].
  destruct (is_empty (textproto_trim st)).
  - destruct (_ || _); [discriminate|]. destruct (parse_int (textproto_trim en)) as [i|] eqn:P; [|discriminate].
    apply parse_int_int64 in P. destruct (Z.ltb_spec i 0); [discriminate|]. intros X; injection X as <-.
    unfold inside; cbn [r_start r_len].
    destruct (Z.ltb_spec size i); repeat rewrite W by (unfold int64, two63 in *; rewrite ?W by (unfold int64, two63 in *; lia); lia); lia.
  - destruct (parse_int (textproto_trim st)) as [i|] eqn:P; [|discriminate].
    apply parse_int_int64 in P. destruct (Z.ltb_spec i 0); [discriminate|].
    destruct (Z.leb_spec size i); [discriminate|].
    destruct (is_empty (textproto_trim en)).
    + intros X; injection X as <-. unfold inside; cbn [r_start r_len].
      rewrite W by (unfold int64, two63 in *; lia). lia.
    + destruct (parse_int (textproto_trim en)) as [j|] eqn:Q; [|discriminate]. apply parse_int_int64 in Q.
      destruct (Z.ltb_spec j i); [discriminate|]. intros X; injection X as <-. unfold inside; cbn [r_start r_len].
      destruct (Z.leb_spec size j).
      * rewrite (W (size - 1)) by (unfold int64, two63 in *; lia).
        rewrite (W (size - 1 - i)) by (unfold int64, two63 in *; lia).
        rewrite W by (unfold int64, two63 in *; lia). lia.
      * rewrite (W (j - i)) by (unfold int64, two63 in *; lia).
        rewrite W by (unfold int64, two63 in *; lia). lia.
Qed.
Lemma parse_one_nowrap w ra size : nowrap w -> 0 <= size < two63 ->
  parse_one w ra size = parse_one (fun z => z) ra size.
Proof.
  intros W Hsz. unfold parse_one. destruct (cut "-" ra) as [[st en]|]; [|reflexivity].
  destruct (is_empty (textproto_trim st)).
  - destruct (_ || _); [reflexivity|]. destruct (parse_int (textproto_trim en)) as [i|] eqn:P; [|reflexivity].
    apply parse_int_int64 in P. destruct (Z.ltb_spec i 0); [reflexivity|]. do 2 f_equal.
    destruct (Z.ltb_spec size i).
    + rewrite (W (size - size)) by (unfold int64, two63 in *; lia).
      rewrite W by (unfold int64, two63 in *; lia). f_equal; lia.
    + rewrite (W (size - i)) by (unfold int64, two63 in *; lia).
      rewrite W by (unfold int64, two63 in *; lia). f_equal; lia.
  - destruct (parse_int (textproto_trim st)) as [i|] eqn:P; [|reflexivity].
    apply parse_int_int64 in P. destruct (Z.ltb_spec i 0); [reflexivity|].
    destruct (Z.leb_spec size i); [reflexivity|].
    destruct (is_empty (textproto_trim en)).
    + rewrite W by (unfold int64, two63 in *; lia). reflexivity.
    + destruct (parse_int (textproto_trim en)) as [j|] eqn:Q; [|reflexivity]. apply parse_int_int64 in Q.
      destruct (Z.ltb_spec j i); [reflexivity|]. do 2 f_equal.
      destruct (Z.leb_spec size j).
      * rewrite (W (size - 1)) by (unfold int64, two63 in *; lia).
        rewrite (W (size - 1 - i)) by (unfold int64, two63 in *; lia).
        rewrite W by (unfold int64, two63 in *; lia). f_equal; lia.
      * rewrite (W (j - i)) by (unfold int64, two63 in *; lia).
        rewrite W by (unfold int64, two63 in *; lia). f_equal; lia.
Qed.
Lemma parse_pieces_bounds w ps size : nowrap w -> 0 <= size < two63 -> forall acc no rs no',
  Forall (inside size) acc -> parse_pieces w ps size acc no = inl (rs, no') -> Forall (inside size) rs.
Proof.
  intros W Hsz; induction ps as [|p ps IH]; intros acc no rs no' A H; cbn [parse_pieces] in H.
  - injection H as <- <-. exact A.
  - destruct (is_empty (textproto_trim p)); [exact (IH _ _ _ _ A H)|].
    destruct (parse_one w (textproto_trim p) size) as [[r|]|] eqn:E; [| |discriminate].
    + apply (IH _ _ _ _) in H; [exact H|]. apply Forall_app. split; [exact A|].
      constructor; [|constructor]. eapply parse_one_bounds; eassumption.
    + exact (IH _ _ _ _ A H).
Qed.
Lemma parse_pieces_nowrap w ps size : nowrap w -> 0 <= size < two63 -> forall acc no,
  parse_pieces w ps size acc no = parse_pieces (fun z => z) ps size acc no.
Proof.
  intros W Hsz; induction ps as [|p ps IH]; intros acc no; cbn [parse_pieces]; [reflexivity|].
  rewrite (parse_one_nowrap w _ size W Hsz). destruct (is_empty _); [apply IH|].
  destruct (parse_one _ _ _) as [[r|]|]; auto.
Qed.
