(** C86: content sniffing follows the table of the standard, all rules, exactly. *)
From Verif Require Import Base GoStrings M_Text M_Sniff Props_Sniff S_Sniff.
From Coq Require Import ZifyNat ZifyN.

Fixpoint zip_mask (mask pat : bytes) : pattern :=
  match mask, pat with
  | m :: mask', p :: pat' => (if (bv m =? 0)%N then None else Some p) :: zip_mask mask' pat'
  | _, _ => []
  end.
Definition rule_of (s : sig) : rule * bytes :=
  (match s with
   | SHtml h => Tag h
   | SExact s _ => Start (lit s)
   | SMasked mask pat false _ => Start (zip_mask mask pat)
   | SMasked mask pat true _ => StartBlank (zip_mask mask pat)
   | SMp4 => Box (B"mp4")
   | SQuick => Box (B"qt")
   | SText => Plain
   end, sig_type s).
(** what makes a signature readable as a rule *)
Fixpoint mask_wf (mask pat : bytes) : bool :=
  match mask, pat with
  | m :: mask', p :: pat' => ((bv m =? 255)%N || (bv m =? 0)%N && (bv p =? 0)%N) && mask_wf mask' pat'
  | [], [] => true
  | _, _ => false
  end.
Definition sig_wf (s : sig) : bool :=
  match s with
  | SHtml h => forallb tag_byte h && negb (is_empty h) && match h with c :: _ => negb (is_ws c) | [] => false end
  | SMasked mask pat true _ =>
      mask_wf mask pat && match mask, pat with m :: _, p :: _ => (bv m =? 255)%N && negb (is_ws p) | _, _ => false end
  | SMasked mask pat false _ => mask_wf mask pat
  | _ => true
  end.
Lemma table_ok : map rule_of signatures = sniff_table.
Proof. vm_compute. reflexivity. Qed.
Lemma sigs_wf : forallb sig_wf signatures = true.
Proof. vm_compute. reflexivity. Qed.

Lemma land_full x : N.land (bv x) 255 = bv x.
Proof.
  change 255%N with (N.ones 8). rewrite N.land_ones. apply N.mod_small. unfold bv. apply N_ascii_bounded.
Qed.
Lemma bv_inj x y : bv x = bv y -> x = y.
Proof. unfold bv. intros H. apply (f_equal ascii_of_N) in H. rewrite !ascii_N_embedding in H. exact H. Qed.
Lemma masked_loop_iff data ct : ct <> [] -> forall mask pat pre mpre post, mask_wf mask pat = true ->
  length pre = length mpre -> data = pre ++ post -> length pat <= length post ->
  (masked_loop data (mpre ++ mask) (length pre) pat ct = Ok ct <-> starts_with (zip_mask mask pat) post).
Proof.
  intros Hct. induction mask as [|m mask IH]; intros [|p pat] pre mpre post W Le Ed Lp; try discriminate.
  - cbn. split; [intros _; exists [], post; split; [reflexivity|constructor]|reflexivity].
  - cbn [mask_wf] in W. apply andb_prop in W as [W1 W2]. destruct post as [|d post]; [cbn in Lp; lia|].
    cbn [masked_loop]. unfold index. rewrite Ed, nth_error_app2, Nat.sub_diag by lia. cbn [nth_error bind].
    rewrite nth_error_app2 by lia. rewrite Le, Nat.sub_diag. cbn [nth_error bind]. rewrite <- Le.
    specialize (IH pat (pre ++ [d]) (mpre ++ [m]) post W2). rewrite !app_length in IH. cbn [length] in IH.
    specialize (IH ltac:(lia)). rewrite <- !app_assoc in IH. cbn [app] in IH.
    specialize (IH Ed ltac:(cbn [length] in Lp; lia)).
    replace (length pre + 1) with (S (length pre)) in IH by lia. rewrite Ed in IH.
    cbn [zip_mask].
    assert (St : forall o, starts_with (o :: zip_mask mask pat) (d :: post) <-> fits o d /\ starts_with (zip_mask mask pat) post).
    { intros o. split.
      - intros (x & rest & E & F). inversion F as [|? b ? l Hf Hl]; subst. cbn [app] in E. injection E as -> ->.
        split; [exact Hf|]. exists l, rest. auto.
      - intros [Hf (x & rest & -> & F)]. exists (d :: x), rest. split; [reflexivity|constructor; assumption]. }
    destruct (bv m =? 0)%N eqn:M0.
    + apply N.eqb_eq in M0. rewrite M0 in *. cbn in W1. apply N.eqb_eq in W1. rewrite W1, N.land_0_r. cbn [N.eqb].
      rewrite IH, St. cbn [fits]. tauto.
    + rewrite orb_false_r in W1. apply N.eqb_eq in W1. rewrite W1, land_full. rewrite St. cbn [fits].
      destruct (N.eqb_spec (bv d) (bv p)) as [E|E].
      * rewrite IH. apply bv_inj in E. tauto.
      * split; [congruence|]. intros [-> _]. congruence.
Qed.
Lemma mask_wf_len mask : forall pat, mask_wf mask pat = true -> length pat = length mask.
Proof. induction mask as [|m mask IH]; intros [|p pat] H; try discriminate; [reflexivity|]. cbn in H. apply andb_prop in H as [_ H]. cbn. f_equal. apply IH. exact H. Qed.
Lemma zip_len mask : forall pat, mask_wf mask pat = true -> length (zip_mask mask pat) = length pat.
Proof. induction mask as [|m mask IH]; intros [|p pat] H; try discriminate; [reflexivity|]. cbn in H. apply andb_prop in H as [_ H]. cbn. f_equal. apply IH. exact H. Qed.
Lemma starts_len p d : starts_with p d -> length p <= length d.
Proof. intros (x & rest & -> & F). rewrite app_length. enough (length p = length x) by lia. induction F; cbn; congruence. Qed.
Lemma masked_plain mask pat ct d : ct <> [] -> mask_wf mask pat = true ->
  (match_masked mask pat false ct d 0 = Ok ct <-> starts_with (zip_mask mask pat) d).
Proof.
  intros Hct W. unfold match_masked. cbn [bind]. rewrite (mask_wf_len _ _ W), Nat.eqb_refl. cbn [negb].
  destruct (Nat.ltb_spec (length d) (length mask)) as [L|L].
  - split; [congruence|]. intros X. apply starts_len in X. rewrite (zip_len _ _ W), (mask_wf_len _ _ W) in X. lia.
  - apply (masked_loop_iff d ct Hct mask pat [] [] d W eq_refl eq_refl). rewrite (mask_wf_len _ _ W). exact L.
Qed.
Lemma masked_first mask pat b ct d n : match_masked mask pat b ct d n =
  if b then match slice_ d n (length d) with Ok d' => match_masked mask pat false ct d' 0 | Panic => Panic end
  else match_masked mask pat false ct d 0.
Proof. unfold match_masked. destruct b; [|reflexivity]. destruct (slice_ d n (length d)); reflexivity. Qed.

Lemma lower_same c : lower_of c = lower_ascii c.
Proof.
  apply (fun H => proj1 (Ascii.eqb_eq _ _) (ascii_all (fun c => Ascii.eqb (lower_of c) (lower_ascii c)) H c)).
  vm_compute. reflexivity.
Qed.
Lemma lower_map t : map lower_of t = map lower_ascii t.
Proof. apply map_ext. exact lower_same. Qed.
(** what follows the leading blanks, for a condition that no blank can start *)
Lemma after_first (P : bytes -> Prop) d : (forall s, P s -> exists c s', s = c :: s' /\ ~ html_space c) ->
  (after_space P d <-> P (skipn (first_non_ws d) d)).
Proof.
  intros H. split.
  - intros (w & t & -> & F & Pt). destruct (H t Pt) as (c & s' & E & Nc).
    rewrite (space_split w t (w ++ t) eq_refl F); [exact Pt|]. rewrite E. intros x Hx. injection Hx as <-. exact Nc.
  - intros X. destruct (first_split d) as (w & E & F & _). exists w, (skipn (first_non_ws d) d). auto.
Qed.
Lemma lower_space c x : html_space c -> lower_ascii c = lower_ascii x -> tag_byte x = true -> is_ws x = false -> False.
Proof.
  intros Hc E Tx Wx. 
  assert (G : forall x, negb (tag_byte x) || is_ws x || forallb (fun c => negb (Ascii.eqb (lower_ascii c) (lower_ascii x))) [ch 9; ch 10; ch 12; ch 13; " "%char] = true).
  { apply ascii_all. vm_compute. reflexivity. }
  specialize (G x). rewrite Tx, Wx in G. cbn [negb orb] in G. rewrite forallb_forall in G. specialize (G c Hc).
  rewrite E in G. rewrite Ascii.eqb_refl in G. discriminate.
Qed.

Lemma be_val a b c e : (((bv a * 256 + bv b) * 256 + bv c) * 256 + bv e = bv a * 16777216 + bv b * 65536 + bv c * 256 + bv e)%N.
Proof. lia. Qed.
Lemma slice_at d st n : slice_ d st (st + n) = if st + n <=? length d then Ok (firstn n (skipn st d)) else Panic.
Proof.
  unfold slice_. replace (st <=? st + n) with true by (symmetry; apply Nat.leb_le; lia). cbn [andb].
  replace (st + n - st) with n by lia. reflexivity.
Qed.
Lemma brand_loop_iff data brand ct box : length brand <= 4 -> box <= length data -> (exists k, box = 4 * k) -> ct <> [] ->
  forall fuel k, box <= 4 * k + 4 * fuel ->
  (brand_loop fuel data brand (4 * k) box ct = Ok ct <->
   exists j pre post, data = pre ++ brand ++ post /\ length pre = 4 * j /\ k <= j /\ j <> 3 /\ 4 * j < box).
Proof.
  intros Hb Hl (kb & Kb) Hct. induction fuel as [|f IH]; intros k Hf; cbn [brand_loop];
    destruct (Nat.ltb_spec (4 * k) box) as [L|L]; try lia.
  - split; [congruence|]. intros (j & _ & _ & _ & _ & ? & _ & ?). lia.
  - replace (4 * k + 4) with (4 * S k) by lia. specialize (IH (S k) ltac:(lia)).
    destruct (Nat.eqb_spec (4 * k) 12) as [E|E].
    + rewrite IH. split; intros (j & pre & post & H1 & H2 & H3 & H4 & H5); exists j, pre, post; repeat (split; [assumption|]).
      * split; [lia|auto].
      * split; [lia|auto].
    + rewrite slice_at. replace (4 * k + length brand <=? length data) with true by (symmetry; apply Nat.leb_le; lia). cbn [bind].
      destruct (beq (firstn (length brand) (skipn (4 * k) data)) brand) eqn:Eb.
      * split; [intros _|reflexivity]. apply beq_eq in Eb.
        exists k, (firstn (4 * k) data), (skipn (length brand) (skipn (4 * k) data)). rewrite <- Eb at 1. rewrite !firstn_skipn.
        split; [reflexivity|]. split; [rewrite firstn_length; lia|]. split; [lia|]. split; [lia|exact L].
      * rewrite IH. split; intros (j & pre & post & H1 & H2 & H3 & H4 & H5); exists j, pre, post; repeat (split; [assumption|]).
        -- split; [lia|auto].
        -- split; [|auto]. assert (j <> k); [|lia]. intros ->. subst data.
           rewrite <- H2, skipn_app, Nat.sub_diag, skipn_all in Eb. cbn [skipn app] in Eb.
           rewrite firstn_app, Nat.sub_diag, firstn_all in Eb. cbn [firstn] in Eb. rewrite app_nil_r, beq_refl in Eb. discriminate.
  - split; [congruence|]. intros (j & _ & _ & _ & _ & ? & _ & ?). lia.
Qed.
Lemma ftyp_iff brand ct d : length brand <= 4 -> ct <> [] -> (match_ftyp brand ct d = Ok ct <-> box_of brand d).
Proof.
  intros Hb Hct. unfold match_ftyp, box_of.
  destruct (Nat.ltb_spec (length d) 12) as [L|L]; [split; [congruence|intros [? _]; lia]|].
  destruct d as [|a [|b [|c [|e d]]]]; try (cbn [length] in L; lia).
  change (slice_ (a :: b :: c :: e :: d) 0 4) with (Ok [a; b; c; e]). cbn [bind be32]. rewrite be_val.
  set (size := (bv a * 16777216 + bv b * 65536 + bv c * 256 + bv e)%N).
  set (D := a :: b :: c :: e :: d) in *.
  assert (Sl : slice_ D 4 8 = Ok (firstn 4 d)).
  { change 8 with (4 + 4). rewrite (slice_at D 4 4). replace (4 + 4 <=? length D) with true by (symmetry; apply Nat.leb_le; lia). reflexivity. }
  destruct (N.ltb_spec (N.of_nat (length D)) size) as [K|K]; cbn [orb].
  { split; [congruence|]. intros [_ (a' & b' & c' & e' & body & E & X)]. cbn [app] in E. unfold D in E. injection E as <- <- <- <- E.
    cbv zeta in X. fold size in X. destruct X as [X _]. apply N.lt_nge in K. contradiction. }
  destruct (N.eqb_spec (size mod 4) 0) as [M|M]; cbn [negb].
  2:{ split; [congruence|]. intros [_ (a' & b' & c' & e' & body & E & X)]. cbn [app] in E. unfold D in E. injection E as <- <- <- <- E.
      cbv zeta in X. fold size in X. destruct X as [_ [(k & X) _]]. exfalso. apply M. rewrite X, N.mul_comm. apply N.mod_mul. lia. }
  rewrite Sl. cbn [bind].
  destruct (beq (firstn 4 d) (B"ftyp")) eqn:Ef; cbn [negb].
  2:{ split; [congruence|]. intros [_ (a' & b' & c' & e' & body & E & X)]. cbn [app] in E. unfold D in E. injection E as <- <- <- <- E.
      subst d. cbn in Ef. discriminate. }
  apply beq_eq in Ef. pose proof (N.div_mod size 4 ltac:(lia)) as DM. rewrite M, N.add_0_r in DM.
  change 8 with (4 * 2) at 1.
  rewrite (brand_loop_iff D brand ct (N.to_nat size) Hb ltac:(lia)); [|exists (N.to_nat (size / 4)); lia|exact Hct|lia].
  split.
  - intros (j & pre & post & H1 & H2 & H3 & H4 & H5). split; [exact L|].
    exists a, b, c, e, (skipn 4 d). split.
    { cbn [app]. unfold D. rewrite <- Ef at 1. rewrite <- (firstn_skipn 4 d) at 1. reflexivity. }
    cbv zeta. fold size. split; [exact K|]. split; [exists (size / 4)%N; exact DM|].
    exists j, pre, post. split; [exact H1|]. split; [exact H2|]. split; [lia|]. split; [exact H4|lia].
  - intros [_ (a' & b' & c' & e' & body & E & X)]. cbn [app] in E. unfold D in E. injection E as <- <- <- <- E.
    cbv zeta in X. fold size in X. destruct X as [_ [_ (k & pre & post & H1 & H2 & H3 & H4 & H5)]].
    exists k, pre, post. split; [exact H1|]. split; [exact H2|]. split; [lia|]. split; [exact H4|lia].
Qed.

Lemma match_iff s d : sig_wf s = true -> sig_type s <> [] ->
  (match_sig s d (first_non_ws d) = Ok (sig_type s) <-> applies (fst (rule_of s)) d).
Proof.
  intros W T. destruct s as [h|s ct|mask pat skip ct| | |]; cbn [match_sig sig_type rule_of fst applies] in *.
  - cbn [sig_wf] in W. apply andb_prop in W as [W W3]. apply andb_prop in W as [W1 W2].
    rewrite forallb_forall in W1. assert (F : Forall (fun b => tag_byte b = true) h) by (apply Forall_forall; exact W1).
    rewrite (match_html_iff h d F), after_first.
    + unfold same_ci. split; intros (x & c & rest & E & L & Hc); exists x, c, rest; rewrite ?lower_map in *; auto.
    + intros s (x & c & rest & -> & L & _). rewrite !lower_map in L. destruct h as [|h0 h]; [discriminate|].
      destruct x as [|x0 x]; [discriminate|]. cbn [map] in L. injection L as L0 L1. exists x0, (x ++ c :: rest).
      split; [reflexivity|]. intros Sp. apply (lower_space x0 h0 Sp L0).
      * apply W1. left. reflexivity.
      * apply negb_true_iff. exact W3.
  - unfold match_exact, has_prefix. destruct (strip_prefix s d) as [t|] eqn:E.
    + split; [intros _|reflexivity]. assert (Es : d = s ++ t).
      { clear W. revert d t E. induction s as [|x s IH]; intros d t E; cbn in E; [injection E as ->; reflexivity|].
        destruct d as [|y d]; [discriminate|]. destruct (Ascii.eqb_spec x y) as [->|_]; [|discriminate]. cbn. f_equal. apply IH. exact E. }
      exists s, t. split; [exact Es|]. clear. induction s; constructor; [reflexivity|exact IHs].
    + split; [congruence|]. intros (x & rest & -> & F). exfalso.
      assert (x = s). { clear - F. revert x F. induction s as [|a s IH]; intros x F; inversion F; subst; [reflexivity|]. cbn [fits] in *. subst. f_equal. apply IH. assumption. }
      subst x. clear - E. induction s as [|a s IH]; cbn in E; [discriminate|]. rewrite Ascii.eqb_refl in E. auto.
  - destruct skip; cbn [rule_of fst applies]; rewrite masked_first; cbn [sig_wf] in W.
    + rewrite slice_tail by apply first_le. apply andb_prop in W as [W1 W2]. rewrite (masked_plain mask pat ct _ T W1).
      rewrite after_first; [reflexivity|]. intros s (x & rest & -> & F).
      destruct mask as [|m mask]; [discriminate|]. destruct pat as [|p pat]; [discriminate|].
      apply andb_prop in W2 as [M Np]. apply N.eqb_eq in M. cbn [zip_mask] in F. rewrite M in F. cbn [N.eqb] in F.
      inversion F as [|? x0 ? l Hf Hl]; subst. cbn [fits] in Hf. subst x0. exists p, (l ++ rest). split; [reflexivity|].
      intros X. apply is_ws_iff in X. rewrite X in Np. discriminate.
    + apply masked_plain; assumption.
  - apply ftyp_iff; [cbn; lia|discriminate].
  - apply ftyp_iff; [cbn; lia|discriminate].
  - unfold match_text. rewrite slice_tail by apply first_le. cbn [bind].
    destruct (first_split d) as (w & E & F & _). set (t := skipn (first_non_ws d) d) in *.
    change (fun c => ~ control_byte c) with (fun c => ~ binary_byte c).
    destruct (existsb is_binary t) eqn:Ex.
    + split; [discriminate|]. intros A. exfalso. rewrite E in A. apply Forall_app in A as [_ A].
      apply existsb_exists in Ex as (c & Ic & Bc). rewrite Forall_forall in A. apply (A c Ic). apply is_binary_iff. exact Bc.
    + split; [intros _|reflexivity]. rewrite E. apply Forall_app. split; [eapply Forall_impl; [|exact F]; apply ws_not_binary|].
      apply Forall_forall. intros c Ic X. apply is_binary_iff in X.
      assert (existsb is_binary t = true) by (apply existsb_exists; eauto). congruence.
Qed.

(** ** C86 *)
Theorem C86_sniff_table : forall data, exists ct,
  detect_content_type data = Ok ct /\ sniffed (firstn 512 data) sniff_table ct.
Proof.
  intros data. rewrite detect_eq, <- table_ok. set (d := firstn 512 data).
  pose proof sigs_nonempty as Ne. pose proof sigs_wf as W. revert Ne W.
  induction signatures as [|s l IH]; intros Ne W.
  - eexists. split; [reflexivity|constructor].
  - inversion Ne as [|? ? N1 N2]; subst. cbn [forallb] in W. apply andb_prop in W as [W1 W2].
    cbn [map try_sigs]. pose proof (match_iff s d W1 N1) as I. destruct (rule_of s) as [r ct] eqn:Er. cbn [fst] in I.
    assert (ct = sig_type s) by (unfold rule_of in Er; congruence). subst ct.
    destruct (match_ok s d _ (first_le d)) as [E|E]; rewrite E in *; cbn [bind].
    + cbn [is_empty]. destruct (IH N2 W2) as (x & Ex & Sx). exists x. split; [exact Ex|]. apply Sniff_next; [|exact Sx].
      intros A. apply I in A. congruence.
    + rewrite (proj1 (is_empty_false _) N1) || (apply is_empty_false in N1; rewrite N1).
      eexists. split; [reflexivity|]. apply Sniff_this. apply I. reflexivity.
Qed.
(** the table determines the type *)
Theorem C86_unique : forall d l x y, sniffed d l x -> sniffed d l y -> x = y.
Proof.
  intros d l x y H. revert y. induction H as [|r ct l A|r ct l x A H IH]; intros y Hy; inversion Hy; subst; auto; contradiction.
Qed.
Example C86_example :
  starts_with (hex [137] ++ lit (B"PNG") ++ hex [13; 10; 26; 10])%N (bs [137; 80; 78; 71; 13; 10; 26; 10; 0; 1]%N) /\
  detect_content_type (bs [137; 80; 78; 71; 13; 10; 26; 10; 0; 1]%N) = Ok (B"image/png") /\
  detect_content_type (bs [137; 80; 78; 71; 13; 10; 26]%N) = Ok (B"application/octet-stream") /\
  box_of (B"qt") (bs [0; 0; 0; 20]%N ++ B"ftyp" ++ B"isom" ++ B"qt  " ++ B"qt  ") /\
  detect_content_type (bs [0; 0; 0; 20]%N ++ B"ftyp" ++ B"isom" ++ B"qt  " ++ B"qt  ") = Ok (B"video/quicktime").
Proof.
  split; [exists (bs [137; 80; 78; 71; 13; 10; 26; 10]%N), (bs [0; 1]%N); split; [reflexivity|repeat constructor]|].
  split; [vm_compute; reflexivity|]. split; [vm_compute; reflexivity|]. split; [|vm_compute; reflexivity].
  split; [cbn; lia|]. do 4 eexists. exists (B"isomqt  qt  "). split; [reflexivity|]. cbv zeta. split; [vm_compute; discriminate|].
  split; [exists 5%N; reflexivity|]. exists 4, (bs [0; 0; 0; 20]%N ++ B"ftypisomqt  "), (B"  "). repeat split; cbn; lia.
Qed.
Print Assumptions C86_sniff_table.
Print Assumptions C86_unique.
