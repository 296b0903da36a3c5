(** C38-C44, C76: parameters, context data, cookies. *)
From Verif Require Import Base GoStrings M_Ctx S_Ctx P_Auth.

Lemma fpeek_multi_values a k : fpeek_multi a k = values a k.
Proof.
  unfold fpeek_multi. induction a as [|[k' v] a IH]; simpl; [reflexivity|].
  destruct (beq k' k); simpl; rewrite IH; reflexivity.
Qed.
Lemma fpeek_values a k : fpeek a k = hd [] (values a k).
Proof.
  unfold fpeek. induction a as [|[k' v] a IH]; simpl; [reflexivity|].
  destruct (beq k' k); simpl; [reflexivity|exact IH].
Qed.
Lemma ltb_non_empty {A} (l : list A) : (0 <? length l) = non_empty l.
Proof. destruct l; reflexivity. Qed.

(** * C38 Parameter lookup precedence *)
Theorem C38_peek_param : forall c k,
  peek_param c k =
  first_that non_empty [hd [] (values (src_url c) k); hd [] (values (src_query c) k);
                        hd [] (values (src_post c) k)] [].
Proof.
  intros c k. unfold peek_param. rewrite !fpeek_values, !ltb_non_empty. simpl.
  destruct (non_empty (hd [] (values (src_url c) k))); [reflexivity|].
  destruct (non_empty (hd [] (values (src_query c) k))); [reflexivity|].
  destruct (hd [] (values (src_post c) k)); reflexivity.
Qed.
Theorem C38_peek_multi_param : forall c k,
  peek_multi_param c k =
  first_that non_empty [values (src_url c) k; values (src_query c) k; values (src_post c) k] [].
Proof.
  intros c k. unfold peek_multi_param. rewrite !fpeek_multi_values, !ltb_non_empty. simpl.
  destruct (non_empty (values (src_url c) k)); [reflexivity|].
  destruct (non_empty (values (src_query c) k)); [reflexivity|].
  destruct (values (src_post c) k); reflexivity.
Qed.
Theorem C38_peek_multi_string_param : forall c k, peek_multi_string_param c k = peek_multi_param c k.
Proof.
  intros c k. unfold peek_multi_string_param. generalize (peek_multi_param c k). intros l.
  assert (G : forall acc, fold_left (fun out v => out ++ [v]) l acc = acc ++ l).
  { induction l as [|v l IH]; intros acc; simpl; [rewrite app_nil_r; reflexivity|].
    rewrite IH, <- app_assoc. reflexivity. }
  exact (G []).
Qed.
Example C38_example :
  let c := Sources [(B"id", B"")] [(B"id", B"q1"); (B"x", B"2"); (B"id", B"q2")] [(B"id", B"p")] in
  peek_param c (B"id") = B"q1" /\ peek_multi_param c (B"id") = [B""] /\
  peek_multi_param c (B"x") = [B"2"] /\ peek_param c (B"none") = B"".
Proof. vm_compute. auto. Qed.
Print Assumptions C38_peek_param.
Print Assumptions C38_peek_multi_param.
Print Assumptions C38_peek_multi_string_param.

(** * C39 PeekParam is the first of PeekMultiParam *)
Definition C39_claim : Prop := forall c k,
  peek_multi_param c k <> [] -> Some (peek_param c k) = hd_error (peek_multi_param c k).
(** False: an empty URL value followed by a query value. *)
Theorem C39_first_of_multi_refuted : ~ C39_claim.
Proof.
  intros H. specialize (H (Sources [(B"id", B"")] [(B"id", B"q")] []) (B"id")).
  vm_compute in H. specialize (H ltac:(discriminate)). discriminate.
Qed.
(** What does hold: it is, unless that first value is the empty string.  Missing:
    an empty first value in a source that shadows later ones. *)
Theorem C39_first_of_multi_partial : forall c k v,
  hd_error (peek_multi_param c k) = Some v -> v <> [] -> peek_param c k = v.
Proof.
  intros c k v. rewrite C38_peek_multi_param, C38_peek_param. simpl.
  destruct (values (src_url c) k) as [|u us]; simpl.
  - destruct (values (src_query c) k) as [|q qs]; simpl.
    + destruct (values (src_post c) k) as [|p ps]; simpl; [discriminate|]. intros H N. injection H as ->.
      destruct v; [congruence|reflexivity].
    + intros H N. injection H as ->. destruct v; [congruence|reflexivity].
  - intros H N. injection H as ->. destruct v; [congruence|reflexivity].
Qed.
(** Exactly: unless the first value is empty and a later source starts with a non-empty one. *)
Theorem C39_first_of_multi_exactly : forall c k v, hd_error (peek_multi_param c k) = Some v ->
  (peek_param c k = v <-> v <> [] \/ forall src, In src [src_url c; src_query c; src_post c] -> hd [] (values src k) = []).
Proof.
  intros c k v H. split.
  - intros E. destruct v as [|x v]; [right|left; discriminate]. rewrite C38_peek_param in E. cbn [first_that] in E. intros src I.
    destruct (hd [] (values (src_url c) k)) eqn:E1; [|discriminate E]. destruct (hd [] (values (src_query c) k)) eqn:E2; [|discriminate E].
    destruct (hd [] (values (src_post c) k)) eqn:E3; [|discriminate E]. destruct I as [<-|[<-|[<-|[]]]]; assumption.
  - intros D. destruct v as [|x v]; [|apply (C39_first_of_multi_partial _ _ _ H); discriminate].
    destruct D as [D|D]; [congruence|]. rewrite C38_peek_param.
    rewrite (D (src_url c)), (D (src_query c)), (D (src_post c)) by (cbn [In]; auto). reflexivity.
Qed.
Example C39_example :
  let c := Sources [] [(B"id", B"q1"); (B"id", B"q2")] [(B"id", B"p")] in
  hd_error (peek_multi_param c (B"id")) = Some (B"q1").
Proof. reflexivity. Qed.
Print Assumptions C39_first_of_multi_partial.
Print Assumptions C39_first_of_multi_exactly.

(** * C40 Boolean parameters *)
Lemma lower_idem : forall c, lower_ascii (lower_ascii c) = lower_ascii c.
Proof.
  intros c. pose proof (ascii_all (fun c => Ascii.eqb (lower_ascii (lower_ascii c)) (lower_ascii c))
    ltac:(vm_compute; reflexivity) c) as H. apply Ascii.eqb_eq in H. exact H.
Qed.
Lemma lower_nonascii : forall c, is_ascii c = false -> is_ascii (lower_ascii c) = false.
Proof.
  intros c H. pose proof (ascii_all (fun c => is_ascii c || negb (is_ascii (lower_ascii c)))
    ltac:(vm_compute; reflexivity) c) as G. cbv beta in G. rewrite H in G. simpl in G.
  destruct (is_ascii (lower_ascii c)); [discriminate|reflexivity].
Qed.
Lemma same_ci_map w v : map lower_ascii w = w -> (same_ci v w <-> map lower_ascii v = w).
Proof.
  intros L. unfold same_ci. split.
  - intros H. rewrite <- L. induction H as [|x y v w Hx H IH]; [reflexivity|]. simpl in *.
    injection L as L1 L2. rewrite Hx, (IH L2). reflexivity.
  - intros <-. clear L. induction v as [|x v IH]; constructor; [symmetry; apply lower_idem|exact IH].
Qed.
Theorem C40_bool_param : forall uni c k, lower_ok uni ->
  (peek_bool_param uni c k = false <->
   exists w, In w [B""; B"0"; B"f"; B"false"] /\ same_ci (peek_param c k) w).
Proof.
  intros uni c k U. unfold peek_bool_param. set (v := peek_param c k).
  rewrite negb_false_iff, !orb_true_iff, !beq_eq. split.
  - intros H. exists (to_lower uni v).
    assert (I : In (to_lower uni v) [B""; B"0"; B"f"; B"false"]) by (simpl; intuition auto).
    split; [exact I|].
    unfold to_lower in *. destruct (forallb is_ascii v) eqn:E; [|exfalso; exact (U v E I)].
    apply same_ci_map; [|reflexivity]. rewrite map_map. apply map_ext. apply lower_idem.
  - intros (w & Hw & Hs).
    assert (L : map lower_ascii w = w) by (destruct Hw as [<-|[<-|[<-|[<-|[]]]]]; reflexivity).
    assert (Aw : forallb is_ascii w = true) by (destruct Hw as [<-|[<-|[<-|[<-|[]]]]]; reflexivity).
    apply (same_ci_map w v L) in Hs.
    assert (A : forallb is_ascii v = true).
    { rewrite <- Hs in Aw. clear - Aw. induction v as [|x v IH]; [reflexivity|].
      simpl in *. apply andb_true_iff in Aw as [A1 A2]. apply andb_true_iff. split; [|exact (IH A2)].
      destruct (is_ascii x) eqn:E; [reflexivity|]. rewrite (lower_nonascii x E) in A1. discriminate. }
    unfold to_lower. rewrite A, Hs. simpl in Hw. intuition auto.
Qed.
Example C40_example : lower_ok (fun s => s) /\
  peek_bool_param (fun s => s) (Sources [] [(B"b", B"FaLsE")] []) (B"b") = false /\
  peek_bool_param (fun s => s) (Sources [] [(B"b", B"no")] []) (B"b") = true.
Proof.
  split; [|split; reflexivity]. intros s H I. simpl in I. destruct I as [<-|[<-|[<-|[<-|[]]]]]; discriminate.
Qed.
Print Assumptions C40_bool_param.

(** * C41/C42 SqueezeParams *)
(** the entry made from the values of a key *)
Definition squeezed (vs : list bytes) : option sval :=
  match vs with
  | [] => None
  | [v] => Some (VStr v)
  | v1 :: v2 :: rest => Some (VList (v2 :: v1 :: rest))
  end.
Lemma values_app a b k : values (a ++ b) k = values a k ++ values b k.
Proof.
  induction a as [|[k' v] a IH]; simpl; [reflexivity|]. destruct (beq k' k); simpl; rewrite IH; reflexivity.
Qed.
Lemma squeeze_exact c k : aget k (squeeze_params c) = squeezed (values (src_post c) k).
Proof.
  unfold squeeze_params. induction (src_post c) as [|[k' v] l IH] using rev_ind; [reflexivity|].
  rewrite fold_left_app, values_app. cbn [fold_left values].
  set (out := fold_left squeeze1 l []) in *. unfold squeeze1.
  destruct (beq_spec k' k) as [->|N].
  - rewrite IH. destruct (values l k) as [|v1 [|v2 r]]; cbn [squeezed app]; rewrite aget_aput_same; reflexivity.
  - rewrite app_nil_r. destruct (aget k' out) as [[t|t]|]; rewrite aget_aput_other by congruence; exact IH.
Qed.
Theorem C41_squeeze_no_loss : forall c k,
  match aget k (squeeze_params c) with
  | None => values (src_post c) k = []
  | Some (VStr v) => values (src_post c) k = [v]
  | Some (VList l) => 2 <= length l /\ Permutation l (values (src_post c) k)
  end.
Proof.
  intros c k. rewrite squeeze_exact. destruct (values (src_post c) k) as [|v1 [|v2 r]]; simpl; auto.
  split; [lia|]. constructor.
Qed.
Example C41_example :
  aget (B"a") (squeeze_params (Sources [] [] [(B"a", B"1"); (B"b", B"x"); (B"a", B"2"); (B"a", B"3")]))
  = Some (VList [B"2"; B"1"; B"3"]).
Proof. reflexivity. Qed.
Print Assumptions C41_squeeze_no_loss.

Definition C42_claim : Prop := forall c k l,
  aget k (squeeze_params c) = Some (VList l) -> l = values (src_post c) k.
(** False: the second value comes first. *)
Theorem C42_squeeze_order_refuted : ~ C42_claim.
Proof.
  intros H. specialize (H (Sources [] [] [(B"a", B"1"); (B"a", B"2")]) (B"a") _ eq_refl).
  vm_compute in H. discriminate.
Qed.
(** What does hold: exactly the first two values are exchanged.  Missing: their order. *)
Theorem C42_squeeze_order_partial : forall c k l,
  aget k (squeeze_params c) = Some (VList l) ->
  exists v1 v2 rest, values (src_post c) k = v1 :: v2 :: rest /\ l = v2 :: v1 :: rest.
Proof.
  intros c k l. rewrite squeeze_exact. destruct (values (src_post c) k) as [|v1 [|v2 r]]; simpl; try discriminate.
  intros H. injection H as <-. eauto.
Qed.
Print Assumptions C42_squeeze_order_partial.

(** * C43 Context data behaves as a map and Clone is independent *)
Section C43.
  Context {V : Type}.
  Variable order : dmap V -> dmap V.
  Hypothesis order_perm : forall m, Permutation (order m) m.

  Lemma NoDup_aget (m : dmap V) k v : NoDup (map fst m) -> In (k, v) m -> aget k m = Some v.
  Proof.
    induction m as [|[k' v'] m IH]; simpl; [tauto|]. intros ND. inversion ND as [|? ? Nk ND']; subst.
    destruct (beq_spec k k') as [->|N].
    - intros [H|H]; [congruence|]. exfalso. apply Nk. apply (in_map fst) in H. exact H.
    - intros [H|H]; [congruence|auto].
  Qed.
  Lemma copy_get (m l : dmap V) : forall (d : dmap V) k,
    (forall k', In k' (map fst l) -> aget k' m <> None) ->
    aget k (fold_left (fun d kv => match aget (fst kv) m with Some v => aput (fst kv) v d | None => d end) l d) =
    if existsb (beq k) (map fst l) then aget k m else aget k d.
  Proof.
    induction l as [|[k' v'] l IH]; intros d k H; simpl; [reflexivity|].
    rewrite IH by (intros; apply H; simpl; auto). destruct (existsb (beq k) (map fst l)) eqn:E.
    - rewrite orb_true_r. reflexivity.
    - rewrite orb_false_r. destruct (aget k' m) as [v|] eqn:Em; [|exfalso; apply (H k'); simpl; auto].
      rewrite aget_aput. destruct (beq_spec k k') as [->|]; [congruence|reflexivity].
  Qed.
  Lemma aget_fst (m : dmap V) k : In k (map fst m) <-> aget k m <> None.
  Proof.
    induction m as [|[k' v] m IH]; simpl; [tauto|]. destruct (beq_spec k k') as [->|N].
    - split; [discriminate|auto].
    - rewrite <- IH. split; [intros [H|H]; [congruence|exact H]|auto].
  Qed.
  Lemma clone_get (m : dmap V) k :
    aget k (fold_left (fun d kv => match aget (fst kv) m with Some v => aput (fst kv) v d | None => d end) (order m) [])
    = aget k m.
  Proof.
    assert (P : forall k', In k' (map fst (order m)) <-> In k' (map fst m)).
    { intros k'. split; apply Permutation_in; [|symmetry]; apply Permutation_map, order_perm. }
    rewrite copy_get by (intros k' H; apply aget_fst, P; exact H).
    destruct (existsb (beq k) (map fst (order m))) eqn:E; [reflexivity|].
    destruct (aget k m) eqn:G; [|reflexivity].
    exfalso. assert (I : In k (map fst m)) by (apply aget_fst; congruence). apply P in I.
    enough (existsb (beq k) (map fst (order m)) = true) by congruence.
    apply existsb_exists. exists k. split; [exact I|apply beq_refl].
  Qed.

  (** contexts refer to distinct maps *)
  Definition dinv (st : dstate V) (ms : list (bytes -> option V)) : Prop :=
    d_ctxs st = seq 0 (length (d_heap st)) /\ length ms = length (d_heap st) /\
    forall c k, aget k (nth c (d_heap st) []) = nth c ms (fun _ => None) k.

  Lemma nth_upd {A} (l : list A) f d i j : nth j (upd_nth i f l) d =
    if (j =? i) && (j <? length l) then f (nth j l d) else nth j l d.
  Proof.
    revert i j; induction l as [|x l IH]; intros [|i] [|j]; simpl; try reflexivity.
    - rewrite andb_false_r. reflexivity.
    - rewrite IH. reflexivity.
  Qed.
  Lemma nth_seq_err n c r : nth_error (seq 0 n) c = Some r -> r = c /\ c < n.
  Proof.
    intros H. assert (L : c < n) by (rewrite <- (seq_length n 0); apply nth_error_Some; congruence).
    split; [|exact L]. pose proof (seq_nth 0 0 L) as E. simpl in E.
    rewrite (nth_error_nth _ _ 0 H) in E. exact E.
  Qed.
  Lemma dinv_step st ms o st' : dinv st ms -> dstep order st o = Ok st' -> dinv st' (dspec1 ms o).
  Proof.
    intros (I1 & I2 & I3) H. destruct o as [|c k v|c]; simpl in H.
    - injection H as <-. repeat split; simpl.
      + rewrite app_length, I1. simpl. rewrite Nat.add_1_r, seq_S. reflexivity.
      + rewrite !app_length. simpl. lia.
      + intros c k. destruct (Nat.lt_ge_cases c (length (d_heap st))) as [L|L].
        * rewrite !app_nth1 by lia. apply I3.
        * rewrite !app_nth2 by lia. rewrite I2. destruct (c - length (d_heap st)) as [|[|]]; reflexivity.
    - destruct (nth_error (d_ctxs st) c) as [r|] eqn:E; [|discriminate]. injection H as <-.
      rewrite I1 in E. apply nth_seq_err in E as [-> L]. repeat split; simpl.
      + rewrite upd_nth_length. exact I1.
      + rewrite !upd_nth_length. exact I2.
      + intros c' k'. rewrite !nth_upd, I2. destruct ((c' =? c) && (c' <? length (d_heap st))); [|apply I3].
        rewrite aget_aput, I3. reflexivity.
    - destruct (nth_error (d_ctxs st) c) as [r|] eqn:E; [|discriminate]. injection H as <-.
      rewrite I1 in E. apply nth_seq_err in E as [-> L]. repeat split; simpl.
      + rewrite app_length, I1. simpl. rewrite Nat.add_1_r, seq_S. reflexivity.
      + rewrite !app_length. simpl. lia.
      + intros c' k. destruct (Nat.lt_ge_cases c' (length (d_heap st))) as [L'|L'].
        * rewrite !app_nth1 by lia. apply I3.
        * rewrite !app_nth2 by lia. rewrite I2. destruct (c' - length (d_heap st)) as [|[|]]; simpl; try reflexivity.
          rewrite clone_get. apply I3.
  Qed.
End C43.
(** For every history of NewContext/Set/Clone on any number of contexts, and every
    iteration order of Go's maps, Get of context [c] is what plain values give: each
    context its own map, Set changes one, a clone starts as a copy. *)
Theorem C43_context_data : forall (V : Type) (order : dmap V -> dmap V) os st c k,
  (forall m, Permutation (order m) m) ->
  drun order dinit os = Ok st ->
  dget st c k = nth c (dspec os) (fun _ => None) k.
Proof.
  intros V order os st c k HP H.
  assert (G : forall os st0 ms, dinv st0 ms -> drun order st0 os = Ok st -> dinv st (fold_left dspec1 os ms)).
  { clear H os. induction os as [|o os IH]; intros st0 ms I H; simpl in *; [congruence|].
    destruct (dstep order st0 o) as [st1|] eqn:E; [|discriminate].
    apply (IH st1); [exact (dinv_step order HP st0 ms o st1 I E)|exact H]. }
  assert (I0 : dinv (V:=V) dinit []) by (repeat split; intros [|c'] k'; reflexivity).
  destruct (G os dinit [] I0 H) as (I1 & I2 & I3). unfold dget, dspec. rewrite I1.
  destruct (nth_error (seq 0 (length (d_heap st))) c) as [r|] eqn:E.
  - apply nth_seq_err in E as [-> _]. apply I3.
  - apply nth_error_None in E. rewrite seq_length in E.
    rewrite nth_overflow by (rewrite I2; exact E). reflexivity.
Qed.
(** Direct reading of that: the three clauses of the property. *)
Theorem C43_set_get : forall (V : Type) (order : dmap V -> dmap V) os st st' c k v c' k',
  (forall m, Permutation (order m) m) ->
  drun order dinit os = Ok st -> dstep order st (DSet c k v) = Ok st' ->
  dget st' c' k' = if (c' =? c) && beq k' k then Some v else dget st c' k'.
Proof.
  intros V order os st st' c k v c' k' HP H H'.
  assert (R : drun order dinit (os ++ [DSet c k v]) = Ok st').
  { assert (Rapp : forall os s, drun order s os = Ok st -> drun order s (os ++ [DSet c k v]) = Ok st').
    { clear H os. induction os as [|o os IH]; intros s H.
      - injection H as ->. cbn [app drun]. rewrite H'. reflexivity.
      - cbn [app drun] in *. destruct (dstep order s o); [auto|discriminate]. }
    apply Rapp. exact H. }
  rewrite (C43_context_data V order _ _ c' k' HP R), (C43_context_data V order _ _ c' k' HP H).
  unfold dspec. rewrite fold_left_app. cbn [fold_left dspec1]. rewrite nth_upd.
  assert (L : c < length (dspec os)).
  { (* the context exists *)
    assert (G : forall os st0 ms, dinv st0 ms -> drun order st0 os = Ok st -> dinv st (fold_left dspec1 os ms)).
    { clear H R os. induction os as [|o os IH]; intros st0 ms I H; simpl in *; [congruence|].
      destruct (dstep order st0 o) as [st1|] eqn:E; [|discriminate].
      apply (IH st1); [exact (dinv_step order HP st0 ms o st1 I E)|exact H]. }
    assert (I0 : dinv (V:=V) dinit []) by (repeat split; intros [|c''] k''; reflexivity).
    destruct (G os dinit [] I0 H) as (I1 & I2 & I3). cbn [dstep] in H'.
    destruct (nth_error (d_ctxs st) c) as [r|] eqn:E; [|discriminate]. rewrite I1 in E.
    apply nth_seq_err in E as [_ E]. unfold dspec. lia. }
  destruct (Nat.eqb_spec c' c) as [->|N]; cbn [andb]; [|reflexivity].
  assert (Lb : (c <? length (fold_left dspec1 os [])) = true) by (apply Nat.ltb_lt; exact L).
  rewrite Lb. reflexivity.
Qed.
Example C43_example :
  let os := [DNew; DSet 0 (B"a") 1; DSet 0 (B"b") 2; DClone 0; DSet 1 (B"a") 3; DSet 0 (B"b") 4] in
  exists st, drun (@rev _) dinit os = Ok st /\ (forall m : dmap nat, Permutation (rev m) m) /\
    dget st 0 (B"a") = Some 1 /\ dget st 1 (B"a") = Some 3 /\ dget st 1 (B"b") = Some 2 /\ dget st 0 (B"b") = Some 4.
Proof.
  eexists. split; [reflexivity|]. split; [intros m; symmetry; apply Permutation_rev|]. vm_compute. auto.
Qed.
Print Assumptions C43_context_data.
Print Assumptions C43_set_get.

(** * C44 Cookie domain defaults to the host without port *)
Lemma last_index_spec c s : match last_index_byte c s with
  | Some i => i < length s /\ s = firstn i s ++ c :: skipn (S i) s /\ ~ In c (skipn (S i) s)
  | None => ~ In c s
  end.
Proof.
  induction s as [|x s IH]; simpl; [tauto|].
  destruct (last_index_byte c s) as [i|].
  - destruct IH as (I1 & I2 & I3). split; [lia|]. split; [exact (f_equal (cons x) I2)|exact I3].
  - destruct (Ascii.eqb_spec x c) as [->|N].
    + simpl. split; [lia|]. split; [reflexivity|exact IH].
    + intros [H|H]; [congruence|tauto].
Qed.
Lemma is_digit_in c : is_digit c = true <-> In c (B"0123456789").
Proof.
  split.
  - destruct c as [[] [] [] [] [] [] [] []]; intros E; vm_compute in E; try discriminate E; vm_compute; tauto.
  - intros H. vm_compute in H. repeat (destruct H as [<-|H]; [reflexivity|]). destruct H.
Qed.
Lemma all_digits_b d : all_digits d <-> forallb is_digit d = true.
Proof. rewrite forallb_forall. split; intros H c I; apply is_digit_in, H, I. Qed.
Lemma digit_not_colon d : all_digits d -> ~ In ":"%char d.
Proof. intros H I. specialize (H _ I). apply is_digit_in in H. discriminate H. Qed.
Lemma last_index_app c u v : ~ In c v -> last_index_byte c (u ++ c :: v) = Some (length u).
Proof.
  intros H.
  assert (E : last_index_byte c v = None).
  { pose proof (last_index_spec c v) as S. destruct (last_index_byte c v) as [i|]; [|reflexivity].
    destruct S as (_ & S & _). exfalso. apply H. rewrite S. apply in_app_iff. right. left. reflexivity. }
  induction u as [|x u IH]; simpl.
  - rewrite E, Ascii.eqb_refl. reflexivity.
  - rewrite IH. reflexivity.
Qed.
Lemma split_host_part s h : host_part s h ->
  (match last_index_byte ":" s with
   | Some colon => if valid_optional_port (skipn colon s) then firstn colon s else s
   | None => s
   end) = h.
Proof.
  intros [(port & -> & D)|[<- N]].
  - rewrite last_index_app by (apply digit_not_colon; exact D).
    replace (skipn (length h) (h ++ ":"%char :: port)) with (":"%char :: port).
    2: { clear. induction h as [|x h IH]; [reflexivity|exact IH]. }
    cbn [valid_optional_port]. rewrite Ascii.eqb_refl. cbn [andb].
    replace (forallb is_digit port) with true by (symmetry; apply all_digits_b; exact D).
    rewrite firstn_app, Nat.sub_diag, firstn_all. cbn [firstn]. apply app_nil_r.
  - pose proof (last_index_spec ":" s) as Sp. destruct (last_index_byte ":" s) as [i|]; [|reflexivity].
    destruct Sp as (S1 & S2 & S3).
    destruct (valid_optional_port (skipn i s)) eqn:V; [|reflexivity].
    exfalso. apply N. exists (firstn i s), (skipn (S i) s). split; [exact S2|].
    assert (E : skipn i s = ":"%char :: skipn (S i) s).
    { assert (Li : length (firstn i s) = i) by (rewrite firstn_length; lia).
      rewrite S2 at 1. rewrite skipn_app, Li, Nat.sub_diag, skipn_all2 by lia. reflexivity. }
    rewrite E in V. cbn [valid_optional_port] in V. apply andb_true_iff in V as [_ V].
    apply all_digits_b. exact V.
Qed.
Lemma unbracket h r : unbracketed h r ->
  (if has_prefix h (B"[") && has_suffix h (B"]")
   then if 2 <=? length h then Ok (firstn (length h - 2) (skipn 1 h)) else Panic
   else Ok h) = Ok r.
Proof.
  intros [->|[-> N]].
  - assert (P : has_prefix ("["%char :: r ++ ["]"%char]) (B"[") = true) by reflexivity.
    assert (Sf : has_suffix ("["%char :: r ++ ["]"%char]) (B"]") = true).
    { unfold has_suffix. replace (rev ("["%char :: r ++ ["]"%char])) with ("]"%char :: rev r ++ ["["%char]).
      - reflexivity.
      - simpl. rewrite rev_app_distr. reflexivity. }
    rewrite P, Sf. cbn [andb].
    replace (length ("["%char :: r ++ ["]"%char])) with (S (S (length r))) by (simpl; rewrite app_length; simpl; lia).
    cbn [Nat.leb]. f_equal. cbn [skipn]. replace (S (S (length r)) - 2) with (length r) by lia.
    rewrite firstn_app, Nat.sub_diag, firstn_all. cbn [firstn]. apply app_nil_r.
  - destruct (has_prefix h (B"[") && has_suffix h (B"]")) eqn:E; [|reflexivity].
    exfalso. apply andb_true_iff in E as [E1 E2]. apply N.
    destruct h as [|x h]; [discriminate|].
    assert (x = "["%char).
    { unfold has_prefix in E1. cbn [B String.list_ascii_of_string strip_prefix] in E1.
      destruct (Ascii.eqb_spec "["%char x) as [Ex|Ex]; [congruence|discriminate E1]. }
    subst x. unfold has_suffix in E2.
    destruct h as [|y h] using rev_ind; [vm_compute in E2; discriminate|]. clear IHh.
    exists h. cbn [rev] in E2. rewrite rev_app_distr in E2.
    unfold has_prefix in E2. cbn [B String.list_ascii_of_string rev app strip_prefix] in E2.
    destruct (Ascii.eqb_spec "]"%char y) as [Ey|Ey]; [congruence|discriminate E2].
Qed.
(** For every host string there is exactly one host part and exactly one
    unbracketed form of it (so the next theorem covers every input). *)
Theorem C44_host_total : forall s, exists h r, host_part s h /\ unbracketed h r.
Proof.
  intros s.
  assert (H : exists h, host_part s h).
  { pose proof (last_index_spec ":" s) as Sp. destruct (last_index_byte ":" s) as [i|].
    - destruct Sp as (S1 & S2 & S3). destruct (forallb is_digit (skipn (S i) s)) eqn:V.
      + exists (firstn i s). left. exists (skipn (S i) s). split; [exact S2|].
        apply all_digits_b. exact V.
      + exists s. right. split; [reflexivity|]. intros (h' & port & E & D).
        enough (skipn (S i) s = port) as X by (rewrite X in V; apply all_digits_b in D; congruence).
        pose proof (digit_not_colon port D) as N.
        pose proof (last_index_app ":" h' port N) as L1. rewrite <- E in L1.
        pose proof (last_index_app ":" (firstn i s) (skipn (S i) s) S3) as L2. rewrite <- S2 in L2.
        rewrite L1 in L2. injection L2 as L2. rewrite firstn_length in L2.
        replace (Nat.min i (length s)) with i in L2 by lia. rewrite E, <- L2.
        clear. induction h' as [|x h IH]; [reflexivity|exact IH].
    - exists s. right. split; [reflexivity|]. intros (h' & port & E & _). apply Sp. rewrite E.
      apply in_app_iff. right. left. reflexivity. }
  destruct H as [h H]. exists h.
  destruct (has_prefix h (B"[") && has_suffix h (B"]")) eqn:E.
  - apply andb_true_iff in E as [E1 E2]. destruct h as [|x h]; [discriminate|].
    assert (x = "["%char).
    { unfold has_prefix in E1. cbn [B String.list_ascii_of_string strip_prefix] in E1.
      destruct (Ascii.eqb_spec "["%char x) as [Ex|Ex]; [congruence|discriminate E1]. }
    subst x. unfold has_suffix in E2.
    destruct h as [|y h] using rev_ind; [vm_compute in E2; discriminate|]. clear IHh.
    exists h. split; [exact H|left]. cbn [rev] in E2. rewrite rev_app_distr in E2.
    unfold has_prefix in E2. cbn [B String.list_ascii_of_string rev app strip_prefix] in E2.
    destruct (Ascii.eqb_spec "]"%char y) as [Ey|Ey]; [congruence|discriminate E2].
  - exists h. split; [exact H|]. right. split; [reflexivity|]. intros (r & ->).
    assert (Sf : has_suffix ("["%char :: r ++ ["]"%char]) (B"]") = true).
    { unfold has_suffix. replace (rev ("["%char :: r ++ ["]"%char])) with ("]"%char :: rev r ++ ["["%char]).
      - reflexivity.
      - simpl. rewrite rev_app_distr. reflexivity. }
    rewrite Sf in E. discriminate.
Qed.
(** SetCookie never panics, keeps what it is given and, for an empty domain, uses the
    host without port and brackets. *)
Theorem C44_cookie_domain : forall host h r ss name value age path domain secure http_only,
  host_part host h -> unbracketed h r ->
  exists v, set_cookie host ss name value age path domain secure http_only =
    Ok (Cookie (if is_empty domain then r else domain) (if is_empty path then B"/" else path)
               age name v secure ss http_only).
Proof.
  intros host h r ss name value age path domain secure ho Hh Hr.
  assert (Es : split_host host = Ok r).
  { unfold split_host. cbv zeta. rewrite (split_host_part host h Hh). exact (unbracket h r Hr). }
  unfold set_cookie. rewrite Es. destruct (is_empty domain); eauto.
Qed.
Example C44_example :
  host_part (B"[::1]:8080") (B"[::1]") /\ unbracketed (B"[::1]") (B"::1") /\
  host_part (B"example.com") (B"example.com") /\ host_part (B"h:80x") (B"h:80x").
Proof.
  split; [left; exists (B"8080"); split; [reflexivity|apply all_digits_b; reflexivity]|].
  split; [left; reflexivity|].
  split; right; (split; [reflexivity|]); intros (h & p & E & D).
  - assert (I : In ":"%char (B"example.com")) by (rewrite E; apply in_app_iff; right; left; reflexivity).
    vm_compute in I. intuition discriminate.
  - assert (I : last_index_byte ":" (B"h:80x") = Some (length h))
      by (rewrite E; apply last_index_app, digit_not_colon, D).
    vm_compute in I. injection I as I. destruct h as [|x [|]]; try discriminate.
    injection E as _ E. subst p. specialize (D "x"%char). vm_compute in D. intuition discriminate.
Qed.
Print Assumptions C44_host_total.
Print Assumptions C44_cookie_domain.

(** * C76 Named parameter lists *)
(** value list of the first entry with a name *)
Definition first_entry (p : list param) (name : bytes) : option (list bytes) :=
  option_map p_value (find (fun e => beq (p_key e) name) p).
Theorem C76_get : forall p name,
  params_get p name = match first_entry p name with Some v => (v, true) | None => ([], false) end /\
  (snd (params_get p name) = true <-> In name (map p_key p)).
Proof.
  intros p name. unfold first_entry. induction p as [|e p [IH1 IH2]]; simpl; [intuition discriminate|].
  destruct (beq_spec (p_key e) name) as [<-|N]; simpl; [intuition auto|].
  split; [exact IH1|]. rewrite IH2. split; [auto|intros [H|H]; [congruence|exact H]].
Qed.
Definition C76_claim : Prop := forall p name,
  by_name p name = Ok (match first_entry p name with Some v => hd [] v | None => [] end).
(** False: an entry with an empty value list makes ByName panic. *)
Theorem C76_by_name_refuted : ~ C76_claim.
Proof. intros H. specialize (H [Param (B"k") []] (B"k")). discriminate. Qed.
(** What does hold: it is right whenever the entry found has a value, and it panics
    otherwise.  Missing: entries without values. *)
Theorem C76_by_name_partial : forall p name,
  first_entry p name <> Some [] ->
  by_name p name = Ok (match first_entry p name with Some v => hd [] v | None => [] end).
Proof.
  intros p name. unfold by_name. destruct (C76_get p name) as [-> _].
  destruct (first_entry p name) as [[|v l]|]; [congruence|reflexivity|reflexivity].
Qed.
Theorem C76_by_name_panics_partial : forall p name,
  by_name p name = Panic <-> first_entry p name = Some [].
Proof.
  intros p name. unfold by_name. destruct (C76_get p name) as [-> _].
  destruct (first_entry p name) as [[|v l]|]; split; congruence.
Qed.
Example C76_example :
  let p := [Param (B"a") [B"1"]; Param (B"b") [B"2"; B"3"]; Param (B"a") [B"9"]] in
  first_entry p (B"a") = Some [B"1"] /\ by_name p (B"b") = Ok (B"2") /\ by_name p (B"z") = Ok [].
Proof. vm_compute. auto. Qed.
Print Assumptions C76_get.
Print Assumptions C76_by_name_partial.
Print Assumptions C76_by_name_panics_partial.

(** * C78 Cookie values survive and cannot break the header *)
(** For every value (any bytes), the value SetCookie hands to fasthttp consists of
    RFC 6265 cookie octets only, and unescaping it gives the value back. *)
Lemma esc1 : forall c,
  let e := if query_safe c then [c] else if (bv c =? 32)%N then ["+"%char]
           else ["%"%char; hex_digit (bv c / 16); hex_digit (bv c mod 16)] in
  forallb cookie_octet e = true /\
  ((e = [c] /\ Ascii.eqb c "%" = false /\ Ascii.eqb c "+" = false) \/
   (e = ["+"%char] /\ c = " "%char) \/
   exists a b x y, e = ["%"%char; a; b] /\ hex_val a = Some x /\ hex_val b = Some y /\ ch (x * 16 + y) = c).
Proof.
  intros c. cbv zeta. destruct (query_safe c) eqn:Q.
  - pose proof (ascii_all (fun c => negb (query_safe c) ||
      (cookie_octet c && negb (Ascii.eqb c "%") && negb (Ascii.eqb c "+"))) ltac:(vm_compute; reflexivity) c) as H.
    cbv beta in H. rewrite Q in H. simpl negb in H. simpl orb in H.
    rewrite !andb_true_iff, !negb_true_iff in H. destruct H as [[H1 H2] H3]. cbn [forallb].
    rewrite H1. split; [reflexivity|]. left. auto.
  - destruct (bv c =? 32)%N eqn:S.
    + split; [reflexivity|]. right. left. split; [reflexivity|].
      apply N.eqb_eq in S. unfold bv in S. rewrite <- (ascii_N_embedding c), S. reflexivity.
    + pose proof (ascii_all (fun c => cookie_octet (hex_digit (bv c / 16)) && cookie_octet (hex_digit (bv c mod 16)) &&
        match hex_val (hex_digit (bv c / 16)), hex_val (hex_digit (bv c mod 16)) with
        | Some x, Some y => Ascii.eqb (ch (x * 16 + y)) c | _, _ => false end) ltac:(vm_compute; reflexivity) c) as H.
      cbv beta in H. apply andb_true_iff in H as [H H3]. apply andb_true_iff in H as [H1 H2].
      cbn [forallb]. rewrite H1, H2. split; [reflexivity|]. right. right.
      destruct (hex_val (hex_digit (bv c / 16))) as [x|] eqn:Ex; [|discriminate].
      destruct (hex_val (hex_digit (bv c mod 16))) as [y|] eqn:Ey; [|discriminate].
      apply Ascii.eqb_eq in H3. exists (hex_digit (bv c / 16)), (hex_digit (bv c mod 16)), x, y. auto.
Qed.
Theorem C78_cookie_value : forall host ss name value age path domain secure http_only ck,
  set_cookie host ss name value age path domain secure http_only = Ok ck ->
  query_unescape (ck_value ck) = Some value /\ forallb cookie_octet (ck_value ck) = true.
Proof.
  intros host ss name value age path domain secure ho ck H. unfold set_cookie in H.
  destruct (if is_empty domain then split_host host else Ok domain) as [d|]; [|discriminate].
  injection H as <-. cbn [ck_value]. clear.
  induction value as [|c s [IH1 IH2]]; [split; reflexivity|].
  unfold query_escape in *. cbn [flat_map].
  destruct (esc1 c) as [E1 E2]. rewrite forallb_app, E1, IH2. split; [|reflexivity].
  destruct E2 as [(-> & P & Q)|[(-> & ->)|(a & b & x & y & -> & Ha & Hb & Hc)]].
  - cbn [app query_unescape]. rewrite P, Q, IH1. reflexivity.
  - cbn [app query_unescape]. change (Ascii.eqb "+" "%") with false. change (Ascii.eqb "+" "+") with true.
    cbv iota. rewrite IH1. reflexivity.
  - cbn [app query_unescape]. change (Ascii.eqb "%" "%") with true. cbv iota.
    rewrite Ha, Hb, IH1, Hc. reflexivity.
Qed.
Example C78_example : exists ck, set_cookie (B"h:80") 0 (B"n") (B"a b;c%=") 0 [] [] false false = Ok ck /\
  ck_value ck = B"a+b%3Bc%25%3D" /\ ck_domain ck = B"h".
Proof. eexists. split; [vm_compute; reflexivity|]. split; reflexivity. Qed.
Print Assumptions C78_cookie_value.
