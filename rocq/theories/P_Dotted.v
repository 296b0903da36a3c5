(** Proofs for C137: the characters a dot stands for. *)
From Verif Require Import Base GoStrings GoPath M_Static M_Mount S_Mount S_Exposed P_Mount.
From Coq Require Import ZifyN ZifyNat ZifyBool.
Ltac Zify.zify_post_hook ::= Z.to_euclidean_division_equations.
Open Scope N_scope.

Lemma bv_ch n : n < 256 -> bv (ch n) = n.
Proof. apply N_ascii_embedding. Qed.
Lemma ch_bv c : ch (bv c) = c.
Proof. apply ascii_N_embedding. Qed.
Lemma bv_lt c : bv c < 256.
Proof. apply N_ascii_bounded. Qed.
Lemma eq_ch c n : bv c = n -> c = ch n.
Proof. intros <-. symmetry. apply ch_bv. Qed.
Lemma in_range_iff lo hi c : in_range lo hi c = ((lo <=? bv c) && (bv c <=? hi)).
Proof. reflexivity. Qed.

(** the width of an encoded code point *)
Lemma width_utf8 n t : scalar n -> rune_width (utf8 n ++ t) = length (utf8 n).
Proof.
  intros Hs. unfold utf8. destruct (N.ltb_spec n 128) as [H1|H1].
  { cbn [app length]. apply rune_width_ascii. rewrite bv_ch by lia. exact H1. }
  destruct (N.ltb_spec n 2048) as [H2|H2].
  { cbn [app length].
    set (c0 := ch (192 + n / 64)). set (c1 := ch (128 + n mod 64)).
    assert (B0 : bv c0 = 192 + n / 64) by (apply bv_ch; lia). assert (B1 : bv c1 = 128 + n mod 64) by (apply bv_ch; lia).
    assert (R1 : in_range 194 223 c0 = true) by (rewrite in_range_iff, B0; lia). assert (R2 : cont c1 = true) by (unfold cont; rewrite in_range_iff, B1; lia).
    assert (Rn : forall lo hi, 224 <= lo -> in_range lo hi c0 = false) by (intros lo hi L; rewrite in_range_iff, B0; lia).
    destruct t as [|t0 [|t1 t]]; cbn [rune_width]; rewrite ?R1, ?R2, ?(Rn 240), ?(Rn 241), ?(Rn 244), ?(Rn 224), ?(Rn 225), ?(Rn 237), ?(Rn 238) by lia; reflexivity. }
  unfold scalar in Hs. destruct (N.ltb_spec n 65536) as [H3|H3].
  { cbn [app length].
    set (c0 := ch (224 + n / 4096)). set (c1 := ch (128 + (n / 64) mod 64)). set (c2 := ch (128 + n mod 64)).
    assert (B0 : bv c0 = 224 + n / 4096) by (apply bv_ch; lia). assert (B1 : bv c1 = 128 + (n / 64) mod 64) by (apply bv_ch; lia).
    assert (B2 : bv c2 = 128 + n mod 64) by (apply bv_ch; lia).
    assert (R1 : in_range 224 224 c0 && in_range 160 191 c1 || (in_range 225 236 c0 || in_range 238 239 c0) && cont c1 ||
                 in_range 237 237 c0 && in_range 128 159 c1 = true) by (unfold cont; rewrite !in_range_iff, B0, B1; lia).
    assert (R2 : cont c2 = true) by (unfold cont; rewrite in_range_iff, B2; lia).
    assert (Rn : forall lo hi, 240 <= lo -> in_range lo hi c0 = false) by (intros lo hi L; rewrite in_range_iff, B0; lia).
    destruct t as [|t0 t]; cbn [rune_width]; rewrite ?R1, ?R2, ?(Rn 240), ?(Rn 241), ?(Rn 244) by lia; reflexivity. }
  cbn [app length].
  set (c0 := ch (240 + n / 262144)). set (c1 := ch (128 + (n / 4096) mod 64)). set (c2 := ch (128 + (n / 64) mod 64)). set (c3 := ch (128 + n mod 64)).
  assert (B0 : bv c0 = 240 + n / 262144) by (apply bv_ch; lia). assert (B1 : bv c1 = 128 + (n / 4096) mod 64) by (apply bv_ch; lia).
  assert (B2 : bv c2 = 128 + (n / 64) mod 64) by (apply bv_ch; lia). assert (B3 : bv c3 = 128 + n mod 64) by (apply bv_ch; lia).
  assert (R1 : in_range 240 240 c0 && in_range 144 191 c1 || in_range 241 243 c0 && cont c1 ||
               in_range 244 244 c0 && in_range 128 143 c1 = true) by (unfold cont; rewrite !in_range_iff, B0, B1; lia).
  assert (R2 : cont c2 = true) by (unfold cont; rewrite in_range_iff, B2; lia).
  assert (R3 : cont c3 = true) by (unfold cont; rewrite in_range_iff, B3; lia).
  cbn [rune_width]. rewrite R1, R2, R3. reflexivity.
Qed.
(** four, three and two bytes that encode a code point *)
Lemma four c0 c1 c2 c3 :
  (in_range 240 240 c0 && in_range 144 191 c1 || in_range 241 243 c0 && cont c1 || in_range 244 244 c0 && in_range 128 143 c1) && cont c2 && cont c3 = true ->
  exists n, scalar n /\ [c0; c1; c2; c3] = utf8 n.
Proof.
  unfold cont. rewrite !in_range_iff. intros H.
  set (a := bv c0) in *. set (b := bv c1) in *. set (c := bv c2) in *. set (d := bv c3) in *.
  set (n := (a - 240) * 262144 + (b - 128) * 4096 + (c - 128) * 64 + (d - 128)).
  assert (Hn : 65536 <= n < 1114112) by (unfold n; lia).
  exists n. split; [unfold scalar; lia|]. unfold utf8.
  replace (n <? 128) with false by lia. replace (n <? 2048) with false by lia. replace (n <? 65536) with false by lia.
  assert (E3 : n mod 64 = d - 128) by (unfold n; lia).
  assert (D1 : n / 64 = (a - 240) * 4096 + (b - 128) * 64 + (c - 128)) by (unfold n; lia).
  assert (D2 : n / 4096 = (a - 240) * 64 + (b - 128)) by (unfold n; lia).
  assert (D3 : n / 262144 = a - 240) by (unfold n; lia).
  rewrite D1, D2, D3, E3. clearbody n. clear D1 D2 D3 E3 Hn n.
  f_equal; [apply eq_ch; fold a; lia|]. f_equal; [apply eq_ch; fold b; lia|]. f_equal; [apply eq_ch; fold c; lia|].
  f_equal. apply eq_ch. fold d. lia.
Qed.
Lemma three c0 c1 c2 :
  (in_range 224 224 c0 && in_range 160 191 c1 || (in_range 225 236 c0 || in_range 238 239 c0) && cont c1 || in_range 237 237 c0 && in_range 128 159 c1) && cont c2 = true ->
  exists n, scalar n /\ [c0; c1; c2] = utf8 n.
Proof.
  unfold cont. rewrite !in_range_iff. intros H.
  set (a := bv c0) in *. set (b := bv c1) in *. set (c := bv c2) in *.
  set (n := (a - 224) * 4096 + (b - 128) * 64 + (c - 128)).
  assert (Hn : 2048 <= n < 55296 \/ 57344 <= n < 65536) by (unfold n; lia).
  exists n. split; [unfold scalar; lia|]. unfold utf8.
  replace (n <? 128) with false by lia. replace (n <? 2048) with false by lia. replace (n <? 65536) with true by lia.
  assert (E3 : n mod 64 = c - 128) by (unfold n; lia).
  assert (D1 : n / 64 = (a - 224) * 64 + (b - 128)) by (unfold n; lia).
  assert (D2 : n / 4096 = a - 224) by (unfold n; lia).
  rewrite D1, D2, E3. clearbody n. clear D1 D2 E3 Hn n.
  f_equal; [apply eq_ch; fold a; lia|]. f_equal; [apply eq_ch; fold b; lia|]. f_equal. apply eq_ch. fold c. lia.
Qed.
Lemma two c0 c1 : in_range 194 223 c0 && cont c1 = true -> exists n, scalar n /\ [c0; c1] = utf8 n.
Proof.
  unfold cont. rewrite !in_range_iff. intros H. set (a := bv c0) in *. set (b := bv c1) in *.
  set (n := (a - 192) * 64 + (b - 128)). assert (Hn : 128 <= n < 2048) by (unfold n; lia).
  exists n. split; [unfold scalar; lia|]. unfold utf8.
  replace (n <? 128) with false by lia. replace (n <? 2048) with true by lia.
  assert (E3 : n mod 64 = b - 128) by (unfold n; lia). assert (D1 : n / 64 = a - 192) by (unfold n; lia).
  rewrite D1, E3. clearbody n. clear D1 E3 Hn n. f_equal; [apply eq_ch; fold a; lia|]. f_equal. apply eq_ch. fold b. lia.
Qed.
Close Scope N_scope.
Lemma utf8_length1 n : length (utf8 n) = 1 -> (n < 128)%N /\ utf8 n = [ch n].
Proof.
  unfold utf8. destruct (N.ltb_spec n 128) as [H|H]; [auto|]. destruct (n <? 2048)%N; [discriminate|]. destruct (n <? 65536)%N; discriminate.
Qed.
Lemma one c s : rune_width (c :: s) = 1 -> first_char [c] s.
Proof.
  intros W. destruct (N.ltb_spec (bv c) 128) as [H|H].
  - left. exists (bv c). split; [left; lia|]. unfold utf8. rewrite (proj2 (N.ltb_lt _ _) H), ch_bv. reflexivity.
  - right. exists c. split; [reflexivity|]. intros n s' Hn E. pose proof (width_utf8 n s' Hn) as K. rewrite <- E, W in K.
    symmetry in K. apply utf8_length1 in K as [K1 K2]. rewrite K2 in E. injection E as E _. subst c. rewrite bv_ch in H; lia.
Qed.
Lemma width_first s : s <> [] -> first_char (firstn (rune_width s) s) (skipn (rune_width s) s).
Proof.
  intros Ne. destruct s as [|c0 s]; [congruence|]. clear Ne.
  destruct (Nat.eq_dec (rune_width (c0 :: s)) 1) as [E|N1].
  { rewrite E. cbn [firstn skipn]. apply one. exact E. }
  destruct s as [|c1 [|c2 [|c3 s]]]; cbn [rune_width] in *.
  - congruence.
  - destruct (in_range 194 223 c0 && cont c1) eqn:T; [|congruence]. cbn [firstn skipn]. left. apply two. exact T.
  - match goal with |- context [if ?b then 3 else _] => destruct b eqn:T3 end.
    + cbn [firstn skipn]. left. apply three. exact T3.
    + destruct (in_range 194 223 c0 && cont c1) eqn:T; [|congruence]. cbn [firstn skipn]. left. apply two. exact T.
  - match goal with |- context [if ?b then 4 else _] => destruct b eqn:T4 end.
    + cbn [firstn skipn]. left. apply four. exact T4.
    + match goal with |- context [if ?b then 3 else _] => destruct b eqn:T3 end.
      * cbn [firstn skipn]. left. apply three. exact T3.
      * destruct (in_range 194 223 c0 && cont c1) eqn:T; [|congruence]. cbn [firstn skipn]. left. apply two. exact T.
Qed.
Lemma first_width r s : first_char r s -> rune_width (r ++ s) = length r /\ r <> [].
Proof.
  intros [(n & Hn & ->)|(c & -> & H)].
  - split; [apply width_utf8; exact Hn|]. unfold utf8. destruct (n <? 128)%N; [discriminate|]. destruct (n <? 2048)%N; [discriminate|]. destruct (n <? 65536)%N; discriminate.
  - split; [|discriminate]. cbn [app length]. pose proof (width_first (c :: s)) as K. specialize (K ltac:(discriminate)).
    destruct (Nat.eq_dec (rune_width (c :: s)) 1) as [E|N]; [exact E|]. exfalso.
    destruct K as [(n & Hn & E)|(c' & E & _)].
    + apply (H n (skipn (rune_width (c :: s)) (c :: s)) Hn). rewrite <- E, firstn_skipn. reflexivity.
    + pose proof (f_equal (@length _) E) as L. rewrite firstn_length in L. cbn [length] in L.
      assert (rune_width (c :: s) <= S (length s)).
      { destruct s as [|c1 [|c2 [|c3 s]]]; cbn [rune_width length]; repeat match goal with |- context [if ?b then _ else _] => destruct b end; lia. }
      lia.
Qed.
Lemma first_newline r s : first_char r s -> (Ascii.eqb (hd "x"%char (r ++ s)) (ch 10) = true <-> r = [ch 10]).
Proof.
  intros H. destruct (first_width r s H) as [W Ne]. destruct r as [|c r]; [congruence|]. cbn [app hd]. rewrite Ascii.eqb_eq. split.
  - intros ->. assert (K : rune_width ((ch 10 :: r) ++ s) = 1) by (apply rune_width_ascii; reflexivity). rewrite K in W.
    destruct r; [reflexivity|discriminate].
  - intros E. injection E as -> _. reflexivity.
Qed.
Lemma dot_inv url s rest : dot_match ("."%char :: url) s rest ->
  exists r text, s = r ++ text /\ first_char r text /\ r <> [ch 10] /\ dot_match url text rest.
Proof.
  intros D. remember ("."%char :: url) as u eqn:E. destruct D as [|c u text rest Nc|r u text rest F N D]; [discriminate|congruence|].
  injection E as <-. exists r, text. auto.
Qed.
Lemma match_dots url : dotted_url url -> forall path,
  match_items (map item_of url ++ [(Chr "/", false); (AnyRune, true)]) path = true <-> exists rest, dot_match url path ("/"%char :: rest).
Proof.
  intros H. induction H as [|c url Hc Hu IH]; intros path.
  - cbn [map app]. split.
    + destruct path as [|x path]; [discriminate|]. cbn [match_items eat].
      destruct (Ascii.eqb_spec "/"%char x) as [<-|]; [|discriminate]. intros _. exists path. constructor.
    + intros [rest D]. inversion D; subst. change (match_items [(AnyRune, true)] rest = true). apply match_end.
  - cbn [map app]. unfold item_of at 1. destruct (Ascii.eqb_spec c ".") as [->|Nc].
    + cbn [match_items]. destruct path as [|x path].
      * split; [discriminate|]. intros [rest D]. apply dot_inv in D as (r & text & E & F & _ & _).
        destruct (first_width r text F) as [_ Nr]. destruct r; [congruence|discriminate].
      * set (s := x :: path). assert (Ns : s <> []) by discriminate. pose proof (width_first s Ns) as Fc.
        pose proof (first_newline _ _ Fc) as Fn. rewrite firstn_skipn in Fn. cbn [hd s] in Fn. unfold eat, s. fold s.
        split.
        -- destruct (Ascii.eqb x (ch 10)) eqn:En; [discriminate|]. intros M. apply IH in M as [rest D].
           exists rest. rewrite <- (firstn_skipn (rune_width s) s). apply DmDot; [exact Fc| |exact D].
           intros X. apply Fn in X. discriminate X.
        -- intros [rest D]. 
           apply dot_inv in D as (r & text & Es & Fr & Nr & Dt). destruct (first_width r text Fr) as [W _].
           destruct (first_newline r text Fr) as [F1 _]. rewrite <- Es in F1, W. cbn [hd s] in F1.
           destruct (Ascii.eqb x (ch 10)) eqn:En; [exfalso; apply Nr; apply F1; reflexivity|].
           rewrite W, Es, skipn_app, skipn_all, Nat.sub_diag. cbn [app skipn]. apply IH. exists rest. exact Dt.
    + cbn [match_items]. destruct path as [|x path].
      * split; [discriminate|]. intros [rest D]. inversion D; subst. congruence.
      * cbn [eat]. split.
        -- destruct (Ascii.eqb_spec c x) as [<-|]; [|discriminate]. intros M. apply IH in M as [rest D]. exists rest. constructor; assumption.
        -- intros [rest D]. inversion D; subst; [|congruence]. rewrite Ascii.eqb_refl. apply IH. eauto.
Qed.
Lemma literal_match url more rest : dot_match url (url ++ more) rest -> rest = more.
Proof.
  induction url as [|c url IH]; cbn [app]; intros D.
  - inversion D; subst. reflexivity.
  - destruct (Ascii.eqb_spec c ".") as [->|Nc].
    + apply dot_inv in D as (r & text & E & F & _ & D). destruct (first_width r text F) as [W Ne].
      rewrite <- E, rune_width_ascii in W by reflexivity. destruct r as [|x [|? ?]]; try discriminate. injection E as _ E. apply IH. rewrite E. exact D.
    + remember (c :: url) as u eqn:E1. remember (c :: url ++ more) as v eqn:E2.
      destruct D as [|c' u text rest Nc'|r u text rest F N D]; [discriminate| |injection E1 as X _; congruence].
      injection E1 as _ ->. injection E2 as _ ->. apply IH. exact D.
Qed.
Lemma below_match url rest : dotted_url url -> dot_match url (url ++ "/"%char :: rest) ("/"%char :: rest).
Proof.
  intros H. destruct (proj1 (match_dots url H (url ++ "/"%char :: rest)) (match_dotted url rest H)) as [r D].
  pose proof (literal_match _ _ _ D) as E. rewrite E in D. exact D.
Qed.
