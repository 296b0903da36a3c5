(** Proofs for C134-C137. *)
From Verif Require Import Base GoStrings GoPath P_Range S_Static P_GoPath M_Static S_Exposed.

(** ** Decoding *)
Lemma ascii_in_all c : In c (map ascii_of_nat (seq 0 256)).
Proof. rewrite <- (ascii_nat_embedding c). apply in_map. apply in_seq. pose proof (nat_ascii_bounded c). lia. Qed.
Lemma hex_value_iff c n : hex_value c n <-> hex_val c = Some (N.of_nat n).
Proof.
  assert (G : forallb (fun c => forallb (fun n => Bool.eqb
     (match nth_error (B"0123456789abcdef") n with Some x => Ascii.eqb x c | None => false end ||
      match nth_error (B"0123456789ABCDEF") n with Some x => Ascii.eqb x c | None => false end)
     (match hex_val c with Some m => (m =? N.of_nat n)%N | None => false end)) (seq 0 16)) (map ascii_of_nat (seq 0 256)) = true)
    by (vm_compute; reflexivity).
  rewrite forallb_forall in G. specialize (G c (ascii_in_all c)). rewrite forallb_forall in G.
  assert (L : forallb (fun c => match hex_val c with Some m => (m <? 16)%N | None => true end) (map ascii_of_nat (seq 0 256)) = true)
    by (vm_compute; reflexivity).
  rewrite forallb_forall in L. specialize (L c (ascii_in_all c)).
  assert (E : forall l, nth_error l n = Some c <-> match nth_error l n with Some x => Ascii.eqb x c | None => false end = true).
  { intros l. destruct (nth_error l n) as [x|]; [|split; discriminate]. rewrite Ascii.eqb_eq. split; congruence. }
  assert (F : hex_val c = Some (N.of_nat n) <-> match hex_val c with Some m => (m =? N.of_nat n)%N | None => false end = true).
  { destruct (hex_val c) as [m|]; [|split; discriminate]. rewrite N.eqb_eq. split; congruence. }
  unfold hex_value. destruct (Nat.lt_ge_cases n 16) as [H|H].
  - specialize (G n). assert (I : In n (seq 0 16)) by (apply in_seq; lia). specialize (G I). apply Bool.eqb_prop in G.
    rewrite !E, F, <- orb_true_iff, G. reflexivity.
  - split.
    + intros [X|X]; (assert (Y : nth_error (A:=ascii) _ n <> None) by (rewrite X; discriminate)); apply nth_error_Some in Y; cbn in Y; lia.
    + intros X. rewrite X in L. apply N.ltb_lt in L. lia.
Qed.
Lemma hex_val_value c m : hex_val c = Some m -> exists n, m = N.of_nat n /\ hex_value c n.
Proof. intros H. exists (N.to_nat m). split; [lia|]. apply hex_value_iff. rewrite H. f_equal. lia. Qed.
Lemma starts_escape_iff c s : starts_escape (c :: s) <-> 
  exists x y s' a b, c = "%"%char /\ s = x :: y :: s' /\ hex_val x = Some a /\ hex_val y = Some b.
Proof.
  split.
  - intros (x & y & s' & a & b & E & Ha & Hb). injection E as -> ->. apply hex_value_iff in Ha, Hb.
    exists x, y, s', (N.of_nat a), (N.of_nat b). auto.
  - intros (x & y & s' & a & b & -> & -> & Ha & Hb). apply hex_val_value in Ha as (a' & _ & Ha), Hb as (b' & _ & Hb).
    exists x, y, s', a', b'. auto.
Qed.
Lemma decode_escape x y s a b : hex_val x = Some a -> hex_val y = Some b ->
  pct_decode ("%"%char :: x :: y :: s) = ch (16 * a + b) :: pct_decode s.
Proof. intros Ha Hb. cbn [pct_decode]. rewrite Ascii.eqb_refl, Ha, Hb. reflexivity. Qed.
Lemma decode_plain c s : ~ starts_escape (c :: s) -> pct_decode (c :: s) = c :: pct_decode s.
Proof.
  intros H. destruct s as [|x [|y s]]; [reflexivity|reflexivity|].
  cbn [pct_decode]. destruct (Ascii.eqb_spec c "%") as [->|N]; [|reflexivity].
  destruct (hex_val x) as [a|] eqn:Ea; [|reflexivity]. destruct (hex_val y) as [b|] eqn:Eb; [|reflexivity].
  exfalso. apply H. apply starts_escape_iff. exists x, y, s, a, b. auto.
Qed.
Lemma starts_escape_dec c s : starts_escape (c :: s) \/ ~ starts_escape (c :: s).
Proof.
  destruct (Ascii.eqb_spec c "%") as [->|N].
  2:{ right. intros (x & y & s' & a & b & E & _). injection E as -> _. contradiction. }
  destruct s as [|x [|y s]]; try (right; intros (x' & y' & s' & a & b & E & _); discriminate).
  destruct (hex_val x) as [a|] eqn:Ea.
  2:{ right. rewrite starts_escape_iff. intros (x' & y' & s' & a & b & _ & E & Ha & Hb). injection E as <- <- <-. congruence. }
  destruct (hex_val y) as [b|] eqn:Eb.
  2:{ right. rewrite starts_escape_iff. intros (x' & y' & s' & a' & b & _ & E & Ha & Hb). injection E as <- <- <-. congruence. }
  left. apply starts_escape_iff. exists x, y, s, a, b. auto.
Qed.
(** induction along the decoding *)
Lemma decode_ind (P : bytes -> Prop) : P [] ->
  (forall x y s a b, hex_val x = Some a -> hex_val y = Some b -> P s -> P ("%"%char :: x :: y :: s)) ->
  (forall c s, ~ starts_escape (c :: s) -> P s -> P (c :: s)) -> forall s, P s.
Proof.
  intros H0 He Hp. assert (G : forall n s, length s <= n -> P s).
  { induction n as [|n IH]; intros s L; [destruct s; [exact H0|cbn in L; lia]|].
    destruct s as [|c s]; [exact H0|]. destruct (starts_escape_dec c s) as [X|X].
    - apply starts_escape_iff in X as (x & y & s' & a & b & -> & -> & Ha & Hb). apply (He x y s' a b Ha Hb). apply IH. cbn in L. lia.
    - apply Hp; [exact X|]. apply IH. cbn in L. lia. }
  intros s. apply (G (length s)). reflexivity.
Qed.
Lemma decodes_decode s : decodes s (pct_decode s).
Proof.
  induction s as [|x y s a b Ha Hb IH|c s N IH] using decode_ind; [constructor| |].
  - rewrite (decode_escape x y s a b Ha Hb). apply hex_val_value in Ha as (a' & -> & Ha), Hb as (b' & -> & Hb).
    replace (16 * N.of_nat a' + N.of_nat b')%N with (N.of_nat (16 * a' + b')) by lia. constructor; assumption.
  - rewrite decode_plain by exact N. constructor; assumption.
Qed.
Lemma decodes_iff s t : decodes s t <-> t = pct_decode s.
Proof.
  split; [|intros ->; apply decodes_decode]. induction 1 as [|x y a b s t Ha Hb _ ->|c s t N _ ->]; [reflexivity| |].
  - apply hex_value_iff in Ha, Hb. rewrite (decode_escape x y s _ _ Ha Hb).
    replace (16 * N.of_nat a + N.of_nat b)%N with (N.of_nat (16 * a + b)) by lia. reflexivity.
  - rewrite decode_plain by exact N. reflexivity.
Qed.
Lemma slash_escape (a b : bytes) c : starts_escape ((c :: a) ++ "/"%char :: b) <-> starts_escape (c :: a).
Proof.
  cbn [app]. rewrite !starts_escape_iff. split; intros (x & y & s & m & n & -> & E & Hx & Hy).
  - destruct a as [|x' [|y' a]]; cbn [app] in E.
    + injection E as <- _. discriminate Hx.
    + injection E as <- <- _. discriminate Hy.
    + injection E as <- <- _. exists x', y', a, m, n. auto.
  - subst a. cbn [app]. exists x, y, (s ++ "/"%char :: b), m, n. auto.
Qed.
Lemma decode_slash (a b : bytes) : pct_decode (a ++ "/"%char :: b) = pct_decode a ++ "/"%char :: pct_decode b.
Proof.
  induction a as [|x y s m n Hx Hy IH|c s N IH] using decode_ind.
  - cbn [app]. rewrite decode_plain; [reflexivity|]. intros (x & y & s' & m & n & E & _). discriminate.
  - cbn [app]. rewrite !(decode_escape _ _ _ m n Hx Hy), IH. reflexivity.
  - change ((c :: s) ++ "/"%char :: b) with (c :: (s ++ "/"%char :: b)). rewrite decode_plain.
    + rewrite IH, decode_plain by exact N. reflexivity.
    + intros X. apply N. apply (slash_escape s b c). exact X.
Qed.
Lemma decode_rooted s : pct_decode ("/"%char :: s) = "/"%char :: pct_decode s.
Proof. exact (decode_slash [] s). Qed.
(** the elements after decoding *)
Lemma decode_elems s : split "/" (pct_decode s) = flat_map (fun e => split "/" (pct_decode e)) (split "/" s).
Proof.
  rewrite <- (join_split s) at 1. pose proof (split_nonempty s) as N.
  induction (split "/" s) as [|e es IH]; [congruence|]. destruct es as [|f es].
  - cbn [join flat_map]. rewrite app_nil_r. reflexivity.
  - change (join "/" (e :: f :: es)) with (e ++ "/"%char :: join "/" (f :: es)).
    rewrite decode_slash, split_app_slash, IH by discriminate. reflexivity.
Qed.
Lemma decode_join es : pct_decode (join "/" es) = join "/" (map pct_decode es).
Proof.
  induction es as [|e es IH]; [reflexivity|]. destruct es as [|f es]; [reflexivity|].
  change (join "/" (e :: f :: es)) with (e ++ "/"%char :: join "/" (f :: es)). rewrite decode_slash, IH. reflexivity.
Qed.
Lemma decode_length s : length (pct_decode s) <= length s /\ (length (pct_decode s) = length s -> no_escape s).
Proof.
  induction s as [|x y s m n Hx Hy [IH _]|c s N [IH IH2]] using decode_ind.
  - split; [apply le_n|intros _; apply no_escape_nil].
  - rewrite (decode_escape _ _ _ m n Hx Hy). cbn [length]. split; [lia|intros X; lia].
  - rewrite decode_plain by exact N. cbn [length]. split; [lia|]. intros E.
    assert (E' : length (pct_decode s) = length s) by lia. specialize (IH2 E').
    intros [|z a] x y b X [Hx Hy]; cbn [app] in X; injection X as -> X.
    + apply N. apply hex_iff in Hx, Hy. rewrite X. apply starts_escape_iff.
      destruct (hex_val x) as [vx|] eqn:Ex; [|congruence]. destruct (hex_val y) as [vy|] eqn:Ey; [|congruence].
      exists x, y, b, vx, vy. auto.
    + exact (IH2 a x y b X (conj Hx Hy)).
Qed.

(** ** Walking *)
Lemma removelast_rev {A} (l : list A) : removelast (rev l) = rev (tl l).
Proof. destruct l as [|x l]; [reflexivity|]. cbn [rev tl]. apply removelast_last. Qed.
Lemma walk_norm es : forall acc, walk (rev acc) es = rev (fold_left norm_step es acc).
Proof.
  induction es as [|e es IH]; intros acc; cbn [walk fold_left]; [reflexivity|].
  unfold norm_step at 2. unfold is_dot. change dot with (B"."). change dotdot with (B"..").
  replace (is_empty e) with (beq e []) by (destruct e; reflexivity).
  destruct (beq e [] || beq e (B".")); [apply IH|]. destruct (beq e (B"..")).
  - rewrite removelast_rev. apply IH.
  - rewrite <- IH. reflexivity.
Qed.
Lemma walk_app es fs : forall here, walk here (es ++ fs) = walk (walk here es) fs.
Proof.
  induction es as [|e es IH]; intros here; cbn [app walk]; [reflexivity|].
  destruct (_ || _); [apply IH|]. destruct (beq e (B"..")); apply IH.
Qed.
Lemma walk_skip e es here : is_dot e = true -> walk here (e :: es) = walk here es.
Proof.
  intros H. cbn [walk]. replace (beq e [] || beq e (B".")) with (is_dot e); [rewrite H; reflexivity|].
  unfold is_dot. destruct e; reflexivity.
Qed.
Lemma walk_good es : Forall good es -> forall here, walk here es = here ++ es.
Proof.
  induction 1 as [|e es (H1 & H2 & H3 & _) _ IH]; intros here; cbn [walk]; [rewrite app_nil_r; reflexivity|].
  rewrite (proj2 (beq_neq e []) H1), (proj2 (beq_neq e (B".")) H2), (proj2 (beq_neq e (B"..")) H3). cbn [orb].
  rewrite IH, <- app_assoc. reflexivity.
Qed.
Lemma walk_all_good es : Forall ns es -> forall here, Forall good here -> Forall good (walk here es).
Proof.
  intros H here G. rewrite <- (rev_involutive here), walk_norm. apply Forall_rev. apply norm_fold_good; [exact H|]. apply Forall_rev. exact G.
Qed.
Lemma clean_norm es : forall acc, Forall good acc -> Forall ns es -> fold_left (clean_step true) es acc = fold_left norm_step es acc.
Proof.
  induction es as [|e es IH]; intros acc G N; cbn [fold_left]; [reflexivity|]. inversion N; subst.
  assert (E : clean_step true acc e = norm_step acc e).
  { unfold clean_step, norm_step. destruct (is_dot e); [reflexivity|]. destruct (beq_spec e dotdot) as [->|]; [|reflexivity].
    destruct G as [|x acc (_ & _ & X & _) _]; [reflexivity|]. rewrite (proj2 (beq_neq x dotdot) X). reflexivity. }
  rewrite E. apply IH; [|assumption]. apply norm_step_good; assumption.
Qed.
Lemma clean_walk s : is_rooted s = true -> path_clean s = "/"%char :: join "/" (walk [] (split "/" s)).
Proof.
  intros R. destruct (clean_rooted s R) as [-> _]. do 2 f_equal. unfold clean_elems.
  rewrite clean_norm; [|constructor|apply split_ns]. symmetry. exact (walk_norm _ []).
Qed.
Lemma final_app a b : final (a ++ "/"%char :: b) = final b.
Proof.
  unfold final. rewrite split_app_slash. pose proof (split_nonempty b). destruct (split "/" b) as [|x l] using rev_ind; [congruence|].
  rewrite app_assoc, !last_last. reflexivity.
Qed.
Lemma final_ns a : ns a -> final a = a.
Proof. intros H. unfold final. rewrite split_one by exact H. reflexivity. Qed.

(** what SetPath makes of a text: the elements, and the last one *)
Lemma set_path_shape s : exists st l, Forall good st /\ ns l /\ l <> dotdot /\
  set_path s = "/"%char :: with_slashes st ++ l /\
  walk st [l] = walk [] (split "/" (pct_decode s)) /\
  (l = final (pct_decode s) \/ l = [] /\ final (pct_decode s) = dotdot).
Proof.
  unfold set_path, normalize_path. set (d := pct_decode (if is_rooted s then tl s else s)).
  assert (Hd : walk [] (split "/" (pct_decode s)) = walk [] (split "/" d) /\ final (pct_decode s) = final d).
  { unfold d. destruct (is_rooted s) eqn:R; [|auto]. destruct (split_rooted s R) as (t & -> & _). cbn [tl].
    rewrite decode_rooted. change ("/"%char :: pct_decode t) with ([] ++ "/"%char :: pct_decode t).
    rewrite split_app_slash, final_app. split; reflexivity. }
  destruct Hd as [-> ->]. pose proof (split_ns d) as Sn. pose proof (split_nonempty d) as Se. unfold final.
  destruct (split "/" d) as [|l inits] using rev_ind; [congruence|]. rewrite rev_app_distr, last_last. cbn [rev app].
  rewrite rev_involutive. apply Forall_app in Sn as [S1 S2]. inversion S2 as [|? ? S3 _]; subst.
  pose proof (norm_fold_good _ S1 [] (Forall_nil _)) as G.
  rewrite walk_app. pose proof (walk_norm inits []) as W. cbn [rev] in W. rewrite W.
  set (st := fold_left norm_step inits []) in *.
  destruct (beq_spec l dotdot) as [->|Nl].
  - exists (rev (tl st)), []. split; [apply Forall_rev; destruct G; [constructor|assumption]|]. split; [intros []|]. split; [discriminate|].
    split; [rewrite app_nil_r; reflexivity|]. split; [|right; split; reflexivity].
    change (walk (rev (tl st)) [[]]) with (rev (tl st)). change (walk (rev st) [dotdot]) with (removelast (rev st)).
    symmetry. apply removelast_rev.
  - exists (rev st), l. split; [apply Forall_rev; exact G|]. split; [exact S3|]. split; [exact Nl|]. split; [reflexivity|].
    split; [reflexivity|left; reflexivity].
Qed.
Lemma set_path_opens s : is_rooted (set_path s) = true /\
  path_clean (set_path s) = "/"%char :: join "/" (walk [] (split "/" (pct_decode s))) /\
  Forall good (walk [] (split "/" (pct_decode s))) /\
  ((exists a, set_path s = a ++ B"/index.html") <-> final (pct_decode s) = B"index.html").
Proof.
  destruct (set_path_shape s) as (st & l & G & N & Nl & E & W & L). rewrite E. split; [reflexivity|].
  assert (Sp : split "/" ("/"%char :: with_slashes st ++ l) = [] :: st ++ [l]).
  { change ("/"%char :: with_slashes st ++ l) with ([] ++ "/"%char :: (with_slashes st ++ l)). rewrite split_app_slash.
    rewrite with_slashes_join, split_join; [reflexivity|destruct st; discriminate|].
    apply Forall_app. split; [apply goods_ns; exact G|repeat constructor; exact N]. }
  split; [|split].
  - rewrite clean_walk by reflexivity. rewrite Sp, <- W. do 2 f_equal. rewrite walk_skip by reflexivity. rewrite walk_app.
    rewrite (walk_good st G). reflexivity.
  - apply walk_all_good; [apply split_ns|constructor].
  - split.
    + intros (a & X). apply (f_equal final) in X. change (B"/index.html") with ("/"%char :: B"index.html") in X.
      rewrite final_app in X. unfold final at 1 in X. rewrite Sp in X.
      change ([] :: st ++ [l]) with (([] :: st) ++ [l]) in X. rewrite last_last in X. change (final (B"index.html")) with (B"index.html") in X.
      destruct L as [L|[L _]]; [rewrite <- L; exact X|rewrite L in X; discriminate X].
    + intros X. destruct L as [L|[_ L]]; [|rewrite L in X; discriminate]. rewrite X in L. subst l.
      destruct st as [|x st] using rev_ind; [exists []; reflexivity|].
      exists ("/"%char :: with_slashes st ++ x). unfold with_slashes. rewrite map_app, concat_app. cbn [map concat].
      rewrite app_nil_r, <- !app_assoc. cbn [app]. rewrite <- !app_assoc. reflexivity.
Qed.

(** ** Clean before decoding, for texts without ".." elements *)
Lemma walk_filter (es : list bytes) : forall here,
  walk here (flat_map (fun e => split "/" (pct_decode e)) (filter (fun e => negb (is_dot e)) es)) =
  walk here (flat_map (fun e => split "/" (pct_decode e)) es).
Proof.
  induction es as [|e es IH]; intros here; [reflexivity|]. cbn [filter flat_map]. destruct (is_dot e) eqn:D; cbn [negb].
  - rewrite IH. assert (X : split "/" (pct_decode e) = [e]).
    { apply orb_true_iff in D as [D|D]; [apply is_empty_true in D|apply beq_eq in D]; subst e; reflexivity. }
    rewrite X. cbn [app]. rewrite walk_skip by exact D. reflexivity.
  - cbn [flat_map]. rewrite !walk_app. apply IH.
Qed.
Lemma split_clean s : ~ In dotdot (split "/" s) ->
  split "/" (path_clean s) = match plain_elems s with
                             | [] => if is_rooted s then [[]; []] else [dot]
                             | es => if is_rooted s then [] :: es else es
                             end.
Proof.
  intros Nd. assert (G : Forall good (plain_elems s)) by (apply filter_good; [apply split_ns|exact Nd]).
  unfold path_clean. rewrite clean_plain by exact Nd. fold (plain_elems s).
  destruct (is_rooted s).
  - change ("/"%char :: join "/" (plain_elems s)) with ([] ++ "/"%char :: join "/" (plain_elems s)). rewrite split_app_slash.
    destruct (plain_elems s) as [|e es]; [reflexivity|]. rewrite split_join; [reflexivity|discriminate|apply goods_ns; exact G].
  - destruct (plain_elems s) as [|e es]; [reflexivity|]. rewrite split_join; [reflexivity|discriminate|apply goods_ns; exact G].
Qed.
Lemma clean_decode s : ~ In dotdot (split "/" s) ->
  walk [] (split "/" (pct_decode (path_clean s))) = walk [] (split "/" (pct_decode s)) /\
  final (pct_decode (path_clean s)) = (if plain_elems s then (if is_rooted s then [] else dot) else final (pct_decode (last (plain_elems s) []))).
Proof.
  intros Nd. rewrite !decode_elems, split_clean by exact Nd. unfold final at 1. rewrite decode_elems, split_clean by exact Nd. split.
  - rewrite <- (walk_filter (split "/" s)). fold (plain_elems s).
    destruct (plain_elems s) as [|e es], (is_rooted s); reflexivity.
  - destruct (plain_elems s) as [|e es] eqn:Ep; [destruct (is_rooted s); reflexivity|].
    assert (X : last (flat_map (fun e => split "/" (pct_decode e)) (if is_rooted s then [] :: e :: es else e :: es)) [] =
                last (flat_map (fun e => split "/" (pct_decode e)) (e :: es)) []).
    { destruct (is_rooted s); [|reflexivity]. cbn [flat_map]. change (split "/" (pct_decode [])) with [@nil ascii].
      cbn [app]. pose proof (split_nonempty (pct_decode e)) as Ne. destruct (split "/" (pct_decode e)); [congruence|]. reflexivity. }
    refine (eq_trans X _). clear X. destruct (exists_last (l := e :: es)) as (l & x & El); [discriminate|]. rewrite El, flat_map_app, last_last.
    cbn [flat_map]. rewrite app_nil_r. unfold final. pose proof (split_nonempty (pct_decode x)) as Ne.
    destruct (split "/" (pct_decode x)) as [|y m] using rev_ind; [congruence|]. rewrite app_assoc, !last_last. reflexivity.
Qed.

(** ** SetPath of a text that is proper after decoding *)
Lemma set_path_decoded s es : es <> [] -> Forall good es -> pct_decode s = join "/" es -> set_path ("/"%char :: s) = "/"%char :: join "/" es.
Proof.
  intros Ne G D. destruct (set_path_shape ("/"%char :: s)) as (st & l & Gs & N & Nl & E & W & L).
  rewrite decode_rooted in W, L. change ("/"%char :: pct_decode s) with ([] ++ "/"%char :: pct_decode s) in W, L.
  rewrite split_app_slash in W. rewrite final_app in L. rewrite D in W, L.
  rewrite split_join in W; [|exact Ne|apply goods_ns; exact G]. cbn [app] in W. change (split "/" []) with [@nil ascii] in W. cbn [app] in W.
  change (walk [] ([] :: es)) with (walk [] es) in W. rewrite (walk_good es G) in W. cbn [app] in W.
  unfold final in L. rewrite split_join in L; [|exact Ne|apply goods_ns; exact G].
  destruct (exists_last Ne) as (es' & x & ->). rewrite last_last in L. apply Forall_app in G as [G1 G2]. inversion G2 as [|? ? Gx _]; subst.
  destruct L as [->|[_ ->]]; [|destruct Gx as (_ & _ & X & _); exfalso; apply X; reflexivity].
  rewrite walk_good in W by exact G2. apply app_inj_tail in W as [-> _]. rewrite E, with_slashes_join. reflexivity.
Qed.
Lemma with_slashes_length l : length (with_slashes l) = fold_right (fun e n => length e + 1 + n) 0 l.
Proof. unfold with_slashes. induction l as [|e l IH]; [reflexivity|]. cbn [map concat fold_right]. rewrite !app_length, IH. reflexivity. Qed.
Lemma slashed_rev l : length (with_slashes (rev l)) = length (with_slashes l).
Proof.
  rewrite !with_slashes_length. induction l as [|e l IH]; [reflexivity|]. cbn [rev fold_right]. rewrite <- IH. clear IH.
  induction (rev l) as [|x r IHr]; cbn [app fold_right]; [lia|]. rewrite IHr. lia.
Qed.
Lemma norm_shorter es : forall acc, length (with_slashes (fold_left norm_step es acc)) <= length (with_slashes es) + length (with_slashes acc).
Proof.
  induction es as [|e es IH]; intros acc; cbn [fold_left]; [cbn; lia|]. specialize (IH (norm_step acc e)).
  rewrite !with_slashes_length in *. cbn [fold_right]. unfold norm_step in *. destruct (is_dot e); [lia|]. destruct (beq e dotdot).
  - destruct acc; cbn [tl fold_right] in *; lia.
  - cbn [fold_right] in *. lia.
Qed.
Lemma set_path_length s : length (set_path ("/"%char :: s)) <= S (length (pct_decode s)).
Proof.
  unfold set_path, normalize_path. cbn [is_rooted tl]. rewrite Ascii.eqb_refl.
  pose proof (join_split (pct_decode s)) as J. pose proof (split_nonempty (pct_decode s)) as Ne.
  destruct (split "/" (pct_decode s)) as [|l inits] using rev_ind; [congruence|]. clear IHinits.
  rewrite rev_app_distr. cbn [rev app]. rewrite rev_involutive.
  rewrite <- J, <- with_slashes_join. pose proof (norm_shorter inits []) as K. change (length (with_slashes [])) with 0 in K.
  destruct (beq l dotdot).
  - cbn [length]. rewrite slashed_rev, app_length. rewrite !with_slashes_length in *. destruct (fold_left norm_step inits []); cbn [tl fold_right] in *; lia.
  - cbn [length]. rewrite !app_length, slashed_rev. lia.
Qed.

(** ** Encoding every byte *)
Definition hexd (n : N) : ascii := nth (N.to_nat n) (B"0123456789abcdef") "0"%char.
Definition enc1 (c : ascii) : bytes := ["%"%char; hexd (bv c / 16); hexd (bv c mod 16)].
Definition enc (s : bytes) : bytes := flat_map enc1 s.
Lemma enc1_ok c : hex_val (hexd (bv c / 16)) = Some (bv c / 16)%N /\ hex_val (hexd (bv c mod 16)) = Some (bv c mod 16)%N /\
  ch (16 * (bv c / 16) + bv c mod 16) = c.
Proof.
  assert (G : forallb (fun c => match hex_val (hexd (bv c / 16)), hex_val (hexd (bv c mod 16)) with
     | Some a, Some b => (a =? bv c / 16)%N && (b =? bv c mod 16)%N && Ascii.eqb (ch (16 * (bv c / 16) + bv c mod 16)) c
     | _, _ => false end) (map ascii_of_nat (seq 0 256)) = true) by (vm_compute; reflexivity).
  rewrite forallb_forall in G. specialize (G c (ascii_in_all c)). cbv beta in G.
  destruct (hex_val (hexd (bv c / 16))) as [a|]; [|discriminate]. destruct (hex_val (hexd (bv c mod 16))) as [b|]; [|discriminate].
  apply andb_true_iff in G as [G G3]. apply andb_true_iff in G as [G1 G2]. apply N.eqb_eq in G1, G2. apply Ascii.eqb_eq in G3.
  subst a b. auto.
Qed.
Lemma decode_enc s : pct_decode (enc s) = s.
Proof.
  induction s as [|c s IH]; [reflexivity|]. destruct (enc1_ok c) as (H1 & H2 & H3). cbn [enc flat_map enc1 app].
  rewrite (decode_escape _ _ _ _ _ H1 H2), H3. fold (enc s). rewrite IH. reflexivity.
Qed.
Lemma hexd_in n : In (hexd n) (B"0123456789abcdef").
Proof.
  unfold hexd. destruct (Nat.lt_ge_cases (N.to_nat n) 16) as [H|H]; [apply nth_In; exact H|].
  rewrite nth_overflow by exact H. left. reflexivity.
Qed.
Lemma enc_good e : e <> [] -> good (enc e).
Proof.
  intros H. destruct e as [|c e]; [congruence|]. split; [discriminate|]. split; [discriminate|]. split; [discriminate|].
  intros X. apply in_flat_map in X as (x & _ & [X|[X|[X|[]]]]); [discriminate| |];
    match type of X with hexd ?n = _ => pose proof (hexd_in n) as Y; rewrite X in Y; vm_compute in Y; intuition discriminate end.
Qed.
Lemma walk_up here : walk here (repeat (B"..") (length here)) = [].
Proof.
  assert (G : forall k here, length here <= k -> walk here (repeat (B"..") k) = []).
  { induction k as [|k IH]; intros h L; [destruct h; [reflexivity|cbn in L; lia]|].
    change (walk h (repeat (B"..") (S k))) with (walk (removelast h) (repeat (B"..") k)). apply IH.
    destruct h as [|x h] using rev_ind; [cbn; lia|]. rewrite removelast_last. rewrite app_length in L. cbn in L. lia. }
  apply G. apply le_n.
Qed.
