(** Facts about the slice model. *)
From Verif Require Import Base GoSlices.

Definition wfs (h : heap) (s : slice) : Prop :=
  sl_len s <= sl_cap s /\
  (sl_cap s = 0 \/ (sl_arr s < length h /\ sl_off s + sl_cap s <= length (nth (sl_arr s) h []))).
(** no common cells *)
Definition disj (s t : slice) : Prop :=
  sl_cap s = 0 \/ sl_cap t = 0 \/ sl_arr s <> sl_arr t.
(** appending to [s] cannot touch what [t] shows *)
Definition behind (s t : slice) : Prop :=
  disj s t \/ sl_off t + sl_len t <= sl_off s + sl_len s.

Definition heap_ext (h h' : heap) : Prop :=
  length h <= length h' /\
  forall a, a < length h -> length (nth a h' []) = length (nth a h []).

Lemma heap_ext_refl h : heap_ext h h.
Proof. split; auto. Qed.
Lemma heap_ext_trans h1 h2 h3 : heap_ext h1 h2 -> heap_ext h2 h3 -> heap_ext h1 h3.
Proof.
  intros [L1 E1] [L2 E2]. split; [lia|]. intros a Ha. rewrite E2 by lia. apply E1. exact Ha.
Qed.

Lemma wfs_ext h h' s : heap_ext h h' -> wfs h s -> wfs h' s.
Proof.
  intros [L E] [W1 [W2|[W2 W3]]]; split; auto. right. split; [lia|]. rewrite E by exact W2. exact W3.
Qed.

Lemma disj_sym s t : disj s t -> disj t s.
Proof. unfold disj. intuition auto. Qed.

Lemma nth_upd_nth {A} (f : A -> A) d (l : list A) : forall i j,
  nth j (upd_nth i f l) d = if (j =? i) && (j <? length l) then f (nth j l d) else nth j l d.
Proof.
  induction l as [|x l IH]; intros i j; simpl.
  - destruct i, j; simpl; try reflexivity; rewrite ?andb_false_r; reflexivity.
  - destruct i as [|i], j as [|j]; simpl; try reflexivity. rewrite IH. reflexivity.
Qed.
Lemma nth_error_upd_nth {A} (f : A -> A) (l : list A) : forall i j,
  nth_error (upd_nth i f l) j = if j =? i then option_map f (nth_error l j) else nth_error l j.
Proof.
  induction l as [|x l IH]; intros i j; simpl.
  - destruct i, j; simpl; try reflexivity; destruct (j =? i); reflexivity.
  - destruct i as [|i], j as [|j]; simpl; try reflexivity. rewrite IH. reflexivity.
Qed.

Lemma overwrite_length pos xs a : pos + length xs <= length a -> length (overwrite pos xs a) = length a.
Proof. intros H. unfold overwrite. rewrite !app_length, firstn_length, skipn_length. lia. Qed.

Lemma alloc_spec h xs extra h' s' : alloc h xs extra = (h', s') ->
  heap_ext h h' /\ wfs h' s' /\ read h' s' = xs /\ sl_arr s' = length h /\ sl_off s' = 0 /\
  sl_len s' = length xs /\
  (forall t, wfs h t -> read h' t = read h t).
Proof.
  unfold alloc. intros H. injection H as <- <-.
  assert (N : nth (length h) (h ++ [xs ++ repeat 0 extra]) [] = xs ++ repeat 0 extra).
  { rewrite app_nth2 by lia. rewrite Nat.sub_diag. reflexivity. }
  split; [|split; [|split; [|split; [|split; [|split]]]]].
  - split; [rewrite app_length; lia|]. intros a Ha. rewrite app_nth1 by exact Ha. reflexivity.
  - split; cbn [sl_len sl_cap sl_arr sl_off]; [lia|]. right.
    rewrite N, !app_length, repeat_length. simpl. lia.
  - unfold read. cbn [sl_len sl_arr sl_off]. rewrite N. cbn [skipn].
    rewrite firstn_app, Nat.sub_diag, firstn_all. simpl. apply app_nil_r.
  - reflexivity.
  - reflexivity.
  - reflexivity.
  - intros t [W1 W2]. unfold read. destruct W2 as [W2|[W2 _]].
    + assert (sl_len t = 0) by lia. rewrite H. reflexivity.
    + rewrite app_nth1 by exact W2. reflexivity.
Qed.

(** writing cells [p, p+|xs|) of array [a] *)
Lemma write_ext h a p xs : p + length xs <= length (nth a h []) -> heap_ext h (write h a p xs).
Proof.
  intros H. unfold write. split; [rewrite upd_nth_length; lia|].
  intros b Hb. rewrite nth_upd_nth. destruct (b =? a) eqn:E; [|reflexivity].
  apply Nat.eqb_eq in E. subst b. simpl.
  destruct (a <? length h) eqn:L; [|reflexivity]. apply overwrite_length. exact H.
Qed.

Lemma write_read_other h a p xs t :
  wfs h t -> (sl_cap t = 0 \/ sl_arr t <> a \/ sl_off t + sl_len t <= p) ->
  p + length xs <= length (nth a h []) ->
  read (write h a p xs) t = read h t.
Proof.
  intros [W1 W2] H Hp. unfold read, write. rewrite nth_upd_nth.
  destruct (sl_arr t =? a) eqn:E; [|reflexivity]. apply Nat.eqb_eq in E. simpl.
  destruct (sl_arr t <? length h) eqn:L; [|reflexivity].
  destruct H as [H|[H|H]].
  - assert (Z : sl_len t = 0) by lia. rewrite Z. reflexivity.
  - contradiction.
  - subst a. unfold overwrite. set (arr := nth (sl_arr t) h []) in *.
    rewrite skipn_app, firstn_app.
    assert (L1 : length (firstn p arr) = p) by (rewrite firstn_length; lia).
    rewrite skipn_length, L1.
    replace (sl_len t - (p - sl_off t)) with 0 by lia. rewrite app_nil_r.
    rewrite skipn_firstn_comm, firstn_firstn. f_equal. lia.
Qed.

Lemma append_spec grow h s xs h' s' :
  wfs h s -> append grow h s xs = (h', s') ->
  heap_ext h h' /\ wfs h' s' /\ read h' s' = read h s ++ xs /\
  (forall t, wfs h t -> behind s t -> read h' t = read h t) /\
  ((sl_arr s' = sl_arr s /\ sl_off s' = sl_off s /\ sl_cap s' = sl_cap s /\
    sl_len s' = sl_len s + length xs) \/
   (sl_arr s' = length h /\ sl_off s' = 0 /\ sl_len s' = sl_len s + length xs)).
Proof.
  intros [W1 W2] H. unfold append in H.
  assert (RL : length (read h s) = sl_len s).
  { unfold read. rewrite firstn_length, skipn_length. destruct W2 as [W2|[_ W2]]; lia. }
  destruct (sl_len s + length xs <=? sl_cap s) eqn:C.
  - apply Nat.leb_le in C. injection H as <- <-.
    destruct (Nat.eq_dec (sl_cap s) 0) as [W0|W0]; destruct W2 as [W2|[W2 W3]]; try contradiction.
    1,2: clear W2; rename W0 into W2.
    1,2: assert (X : xs = []) by (destruct xs; [reflexivity|simpl in C; lia]); subst xs;
      assert (OW : forall p a, overwrite p [] a = a)
        by (intros p a; unfold overwrite; simpl; rewrite Nat.add_0_r; apply firstn_skipn);
      assert (WH : forall a p, write h a p [] = h)
        by (intros a p; unfold write; clear -OW; revert a; induction h as [|x h IH];
            intros [|a]; simpl; rewrite ?OW, ?IH; reflexivity);
      rewrite WH; (split; [apply heap_ext_refl|]); simpl; rewrite Nat.add_0_r, app_nil_r;
      (split; [split; simpl; [lia|left; exact W2]|]);
      (split; [destruct s; reflexivity|]); (split; [auto|]); left; repeat split; lia.
    + assert (P : sl_off s + sl_len s + length xs <= length (nth (sl_arr s) h [])) by lia.
      pose proof (write_ext h (sl_arr s) (sl_off s + sl_len s) xs P) as X.
      split; [exact X|]. split.
      { apply (wfs_ext _ _ _ X). split; simpl; [lia|]. right. auto. }
      split.
      { unfold read, write. cbn [sl_arr sl_off sl_len]. rewrite nth_upd_nth, Nat.eqb_refl. simpl.
        apply Nat.ltb_lt in W2. rewrite W2. unfold overwrite. set (arr := nth (sl_arr s) h []) in *.
        rewrite skipn_app, firstn_app.
        assert (L1 : length (firstn (sl_off s + sl_len s) arr) = sl_off s + sl_len s)
          by (rewrite firstn_length; lia).
        rewrite skipn_length, L1. replace (sl_off s - (sl_off s + sl_len s)) with 0 by lia.
        cbn [skipn]. replace (sl_len s + length xs - (sl_off s + sl_len s - sl_off s)) with (length xs) by lia.
        rewrite firstn_app, Nat.sub_diag, firstn_all. cbn [firstn]. rewrite app_nil_r.
        rewrite skipn_firstn_comm, firstn_firstn. f_equal. f_equal. lia. }
      split; [|left; repeat split].
      intros t Wt [Bt|Bt]; apply write_read_other; auto; try lia.
      destruct Bt as [Bt|[Bt|Bt]]; [contradiction|auto|auto].
  - destruct (alloc_spec h (read h s ++ xs) _ h' s' H) as (A1 & A2 & A3 & A4 & A5 & A6 & A7).
    split; [exact A1|]. split; [exact A2|]. split; [exact A3|]. split; [auto|].
    right. rewrite A4, A5, A6, app_length, RL. auto.
Qed.
