(** C64: trimming. *)
From Verif Require Import Base GoStrings M_Text P_Auth.

(** ASCII blanks: line feed, carriage return, space, tab *)
Definition blank (c : ascii) : Prop := In (bv c) [10; 13; 32; 9]%N.
(** [m] is [s] without its surrounding blanks *)
Definition trimmed (s m : bytes) : Prop :=
  exists a b, s = a ++ m ++ b /\ Forall blank a /\ Forall blank b /\
    (forall c, hd_error m = Some c -> ~ blank c) /\
    (forall m' c, m = m' ++ [c] -> ~ blank c).

Lemma blank_iff c : is_ascii_space c = true <-> blank c.
Proof.
  unfold is_ascii_space, blank. rewrite !orb_true_iff, !N.eqb_eq. simpl. intuition auto.
Qed.
Lemma blank_not c : is_ascii_space c = false <-> ~ blank c.
Proof. rewrite <- blank_iff. destruct (is_ascii_space c); intuition discriminate. Qed.

Lemma nth_error_skip (s : bytes) i c : nth_error s i = Some c -> skipn i s = c :: skipn (S i) s.
Proof.
  revert i; induction s as [|x s IH]; intros [|i] H; simpl in *; try discriminate; [congruence|].
  apply IH. exact H.
Qed.
Lemma skip_skip {A} x : forall y (l : list A), skipn x (skipn y l) = skipn (x + y) l.
Proof.
  induction y as [|y IH]; intros l; [rewrite Nat.add_0_r; reflexivity|].
  rewrite Nat.add_succ_r. destruct l; [rewrite !skipn_nil; reflexivity|]. cbn [skipn]. apply IH.
Qed.
Lemma scan_up_ok n s : forall i j, j <= length s -> j - i <= n ->
  exists k, scan_up n s i j = Ok k /\ (i <= k) /\ (i <= j -> k <= j) /\
    Forall blank (firstn (k - i) (skipn i s)) /\
    (k < j -> exists c, nth_error s k = Some c /\ ~ blank c).
Proof.
  induction n as [|n IH]; intros i j Hj Hn; simpl.
  - destruct (Nat.ltb_spec i j) as [L|L]; [lia|]. exists i. rewrite Nat.sub_diag. simpl.
    repeat split; auto; try lia.
  - destruct (Nat.ltb_spec i j) as [L|L].
    + unfold at_. destruct (nth_error s i) as [c|] eqn:E; [|apply nth_error_None in E; lia].
      destruct (is_ascii_space c) eqn:Ec.
      * destruct (IH (S i) j Hj ltac:(lia)) as (k & K1 & K2 & K3 & K4 & K5). exists k. split; [exact K1|].
        split; [lia|]. split; [lia|]. split; [|exact K5].
        rewrite (nth_error_skip s i c E). replace (k - i) with (S (k - S i)) by lia. cbn [firstn].
        constructor; [apply blank_iff; exact Ec|exact K4].
      * exists i. rewrite Nat.sub_diag. simpl. repeat split; auto; try lia.
        intros _. exists c. split; [exact E|apply blank_not; exact Ec].
    + exists i. rewrite Nat.sub_diag. simpl. repeat split; auto; try lia.
Qed.
Lemma scan_down_ok n s : forall i j, j <= length s -> j - i <= n -> i <= j ->
  exists k, scan_down n s i j = Ok k /\ i <= k /\ k <= j /\
    Forall blank (firstn (j - k) (skipn k s)) /\
    (i < k -> exists c, nth_error s (k - 1) = Some c /\ ~ blank c).
Proof.
  induction n as [|n IH]; intros i j Hj Hn Hij; simpl.
  - destruct (Nat.ltb_spec i j) as [L|L]; [lia|]. exists j. rewrite Nat.sub_diag. simpl. repeat split; auto; lia.
  - destruct (Nat.ltb_spec i j) as [L|L].
    + unfold at_. destruct (nth_error s (j - 1)) as [c|] eqn:E; [|apply nth_error_None in E; lia].
      destruct (is_ascii_space c) eqn:Ec.
      * destruct (IH i (j - 1) ltac:(lia) ltac:(lia) ltac:(lia)) as (k & K1 & K2 & K3 & K4 & K5).
        exists k. split; [exact K1|]. split; [lia|]. split; [lia|]. split; [|exact K5].
        replace (j - k) with ((j - 1 - k) + 1) by lia.
        rewrite <- (firstn_skipn (j - 1 - k) (firstn (j - 1 - k + 1) (skipn k s))).
        apply Forall_app. split.
        -- rewrite firstn_firstn. replace (Nat.min (j - 1 - k) (j - 1 - k + 1)) with (j - 1 - k) by lia. exact K4.
        -- rewrite skipn_firstn_comm. replace (j - 1 - k + 1 - (j - 1 - k)) with 1 by lia.
           rewrite skip_skip. replace (j - 1 - k + k) with (j - 1) by lia.
           rewrite (nth_error_skip s (j - 1) c E). cbn [firstn]. constructor; [apply blank_iff; exact Ec|constructor].
      * exists j. rewrite Nat.sub_diag. simpl. repeat split; auto; try lia.
        intros _. exists c. split; [exact E|apply blank_not; exact Ec].
    + exists j. rewrite Nat.sub_diag. simpl. repeat split; auto; lia.
Qed.

Theorem C64_trim_string : forall s, exists m, trim_string s = Ok m /\ trimmed s m.
Proof.
  intros s. unfold trim_string.
  destruct (scan_up_ok (length s) s 0 (length s) ltac:(lia) ltac:(lia)) as (i & -> & I1 & I2 & I3 & I4).
  specialize (I2 ltac:(lia)). rewrite Nat.sub_0_r in I3. simpl in I3.
  destruct (scan_down_ok (length s) s i (length s) ltac:(lia) ltac:(lia) I2) as (j & -> & J1 & J2 & J3 & J4).
  exists (firstn (j - i) (skipn i s)).
  assert (E : (if (0 <? i) || negb (j =? length s) then slice_ s i j else Ok s) = Ok (firstn (j - i) (skipn i s))).
  { destruct (Nat.ltb_spec 0 i) as [L|L]; simpl.
    - unfold slice_. rewrite (proj2 (Nat.leb_le i j) J1), (proj2 (Nat.leb_le j (length s)) J2). reflexivity.
    - assert (i = 0) by lia. subst i. destruct (Nat.eqb_spec j (length s)) as [->|N]; simpl.
      + rewrite Nat.sub_0_r, firstn_all. reflexivity.
      + unfold slice_. rewrite (proj2 (Nat.leb_le j (length s)) J2). reflexivity. }
  split; [exact E|].
  exists (firstn i s), (skipn j s). split; [|split; [|split; [|split]]].
  - rewrite <- (firstn_skipn i s) at 1. f_equal.
    rewrite <- (firstn_skipn (j - i) (skipn i s)) at 1. f_equal. rewrite skip_skip. f_equal. lia.
  - exact I3.
  - rewrite <- (firstn_all (skipn j s)), skipn_length. exact J3.
  - intros c Hc. destruct (Nat.eq_dec i j) as [->|N]; [rewrite Nat.sub_diag in Hc; discriminate|].
    destruct (I4 ltac:(lia)) as (c' & C1 & C2).
    rewrite (nth_error_skip s i c' C1) in Hc. destruct (j - i) eqn:Z; [discriminate|]. simpl in Hc. congruence.
  - intros m' c Hm. destruct (Nat.eq_dec i j) as [->|N].
    { rewrite Nat.sub_diag in Hm. destruct m'; discriminate. }
    destruct (J4 ltac:(lia)) as (c' & C1 & C2).
    assert (Hl : length (firstn (j - i) (skipn i s)) = j - i) by (rewrite firstn_length, skipn_length; lia).
    assert (X : nth_error (firstn (j - i) (skipn i s)) (j - i - 1) = Some c).
    { rewrite Hm in *. rewrite app_length in Hl. simpl in Hl. rewrite nth_error_app2 by lia.
      replace (j - i - 1 - length m') with 0 by lia. reflexivity. }
    assert (Y : nth_error (firstn (j - i) (skipn i s)) (j - i - 1) = nth_error s (j - 1)).
    { rewrite <- (firstn_skipn i s) at 2. rewrite nth_error_app2 by (rewrite firstn_length; lia).
      rewrite firstn_length. replace (j - 1 - Nat.min i (length s)) with (j - i - 1) by lia.
      rewrite <- (firstn_skipn (j - i) (skipn i s)) at 2.
      rewrite nth_error_app1 by lia. reflexivity. }
    congruence.
Qed.
(** the result is determined by the input ... *)
Theorem C64_trimmed_unique : forall s m m', trimmed s m -> trimmed s m' -> m = m'.
Proof.
  assert (Front : forall a a' t t', a ++ t = a' ++ t' -> Forall blank a -> Forall blank a' ->
            (forall c, hd_error t = Some c -> ~ blank c) -> (forall c, hd_error t' = Some c -> ~ blank c) -> t = t').
  { induction a as [|x a IH]; intros [|x' a'] t t' E Fa Fa' H H'; simpl in E.
    - exact E.
    - exfalso. subst t. inversion Fa'; subst. apply (H x'); [reflexivity|assumption].
    - exfalso. subst t'. inversion Fa; subst. apply (H' x); [reflexivity|assumption].
    - injection E as -> E. inversion Fa; inversion Fa'; subst. exact (IH a' t t' E ltac:(assumption) ltac:(assumption) H H'). }
  assert (HdApp : forall (m b : bytes), Forall blank b -> m <> [] -> (forall c, hd_error m = Some c -> ~ blank c) ->
            forall c, hd_error (m ++ b) = Some c -> ~ blank c).
  { intros [|x m] b Fb Ne H c Hc; [congruence|]. apply H. exact Hc. }
  assert (Last : forall m, (forall m' c, m = m' ++ [c] -> ~ blank c) -> forall c, hd_error (rev m) = Some c -> ~ blank c).
  { intros m H c Hc. destruct (rev m) as [|x r] eqn:E; [discriminate|]. injection Hc as ->.
    apply (H (rev r) c). rewrite <- (rev_involutive m), E. reflexivity. }
  assert (AllB : forall s, Forall blank s -> forall m, trimmed s m -> m = []).
  { intros s Fs m (a & b & -> & _ & _ & H & _). destruct m as [|x m]; [reflexivity|].
    exfalso. apply Forall_app in Fs as [_ Fs]. inversion Fs; subst. apply (H x); [reflexivity|assumption]. }
  intros s m m' T T'.
  destruct m as [|x m].
  { destruct T as (a & b & -> & Fa & Fb & _). symmetry. apply (AllB (a ++ [] ++ b)); [|exact T'].
    apply Forall_app; split; [exact Fa|exact Fb]. }
  destruct m' as [|x' m'].
  { destruct T' as (a & b & -> & Fa & Fb & _). apply (AllB (a ++ [] ++ b)); [|exact T].
    apply Forall_app; split; [exact Fa|exact Fb]. }
  destruct T as (a & b & -> & Fa & Fb & H1 & H2). destruct T' as (a' & b' & E & Fa' & Fb' & H1' & H2').
  assert (E1 : (x :: m) ++ b = (x' :: m') ++ b').
  { apply (Front a a' _ _ E Fa Fa'); apply HdApp; auto; discriminate. }
  apply (f_equal (@rev _)) in E1. rewrite !rev_app_distr in E1.
  assert (E2 : rev (x :: m) = rev (x' :: m')).
  { apply (Front _ _ _ _ E1); auto using Forall_rev; apply Last; assumption. }
  rewrite <- (rev_involutive (x :: m)), E2, rev_involutive. reflexivity.
Qed.
(** ... so TrimBytes and TrimString agree, and trimming twice changes nothing. *)
Theorem C64_agree_idempotent : forall s,
  trim_bytes s = trim_string s /\
  exists m, trim_string s = Ok m /\ trim_string m = Ok m.
Proof.
  intros s. split; [reflexivity|].
  destruct (C64_trim_string s) as (m & E & T). exists m. split; [exact E|].
  destruct (C64_trim_string m) as (m2 & E2 & T2). rewrite E2. f_equal.
  apply (C64_trimmed_unique m); [exact T2|].
  destruct T as (a & b & _ & _ & _ & H1 & H2). exists [], []. rewrite app_nil_r.
  repeat split; auto.
Qed.
Example C64_example : trim_string (ch 9 :: B" a b " ++ [ch 10]) = Ok (B"a b") /\ trimmed (B" a b ") (B"a b").
Proof.
  split; [reflexivity|]. exists (B" "), (B" "). split; [reflexivity|].
  assert (Bl : blank " ") by (vm_compute; auto).
  repeat split; try (constructor; [exact Bl|constructor]).
  - intros c H. injection H as <-. vm_compute. intuition discriminate.
  - intros m' c H. assert (c = "b"%char); [|subst; vm_compute; intuition discriminate].
    apply (f_equal (@rev _)) in H. rewrite rev_app_distr in H. simpl in H. congruence.
Qed.
Print Assumptions C64_trim_string.
Print Assumptions C64_trimmed_unique.
Print Assumptions C64_agree_idempotent.
(** isASCIILetter: exactly the letters A-Z and a-z *)
Theorem C64_letters : forall b, is_ascii_letter b = true <->
  In b (B"ABCDEFGHIJKLMNOPQRSTUVWXYZabcdefghijklmnopqrstuvwxyz").
Proof.
  intros b. set (l := B"ABCDEFGHIJKLMNOPQRSTUVWXYZabcdefghijklmnopqrstuvwxyz").
  assert (G : forallb (fun c => Bool.eqb (is_ascii_letter c) (existsb (Ascii.eqb c) l)) (map ascii_of_nat (seq 0 256)) = true)
    by (vm_compute; reflexivity).
  rewrite forallb_forall in G.
  assert (I : In b (map ascii_of_nat (seq 0 256))).
  { apply in_map_iff. exists (nat_of_ascii b). split; [apply ascii_nat_embedding|]. apply in_seq.
    pose proof (nat_ascii_bounded b). lia. }
  specialize (G b I). apply Bool.eqb_prop in G. rewrite G, existsb_exists. split.
  - intros (x & Hx & E). apply Ascii.eqb_eq in E. subst x. exact Hx.
  - intros H. exists b. split; [exact H|apply Ascii.eqb_refl].
Qed.
Print Assumptions C64_letters.
