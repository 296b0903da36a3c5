(** C116: Context.UniqId. *)
From Verif Require Import Base GoInt M_UniqId P_UniqId P_UniqId2.

(** * C116 The unique id of a request *)
(** The claim: requests that arrive at different nanoseconds or for different paths have
    different ids.  Times between September 2001 and the end of Go's UnixNano in 2262. *)
Definition real_time (t : Z) : Prop := (10 ^ 18 <= t < two63)%Z.
Definition C116_claim : Prop := forall t1 p1 t2 p2, real_time t1 -> real_time t2 ->
  (t1, p1) <> (t2, p2) -> uniq_id t1 p1 <> uniq_id t2 p2.
(** False: the same path in November 2023 and in February 2025. *)
Theorem C116_unique_refuted : ~ C116_claim.
Proof.
  intros H. apply (H 1700000000000000000 (B"/users") 1740000000700000041 (B"/users"))%Z.
  - split; vm_compute; [discriminate|reflexivity].
  - split; vm_compute; [discriminate|reflexivity].
  - discriminate.
  - vm_compute. reflexivity.
Qed.
(** ** Requests for the same path *)
(** Ids differ for any two different times less than 9999947.799996242 seconds (115 days)
    apart.  Missing: requests further apart (see C116_gap_is_exact), different paths (see
    C116_paths_partial). *)
Theorem C116_same_path_partial : forall t1 t2 path, real_time t1 -> real_time t2 ->
  t1 <> t2 -> (Z.abs (t1 - t2) < 9999947799996242)%Z -> uniq_id t1 path <> uniq_id t2 path.
Proof.
  intros t1 t2 path [L1 U1] [L2 U2] Ne Gap H. unfold uniq_id in H.
  assert (T : forall t, (10 ^ 18 <= t)%Z -> (t < two63)%Z -> (10 ^ 18 <= t < 10 ^ 19)%Z).
  { intros t L U. split; [exact L|]. eapply Z.lt_le_trans; [exact U|]. vm_compute. discriminate. }
  pose proof (fmt_length t1 (T t1 L1 U1)) as E1. pose proof (fmt_length t2 (T t2 L2 U2)) as E2.
  pose proof (checksum_middle [] (fmt_int t1) (fmt_int t2) path ltac:(congruence) H) as K. rewrite E1 in K.
  change (10 ^ 18)%Z with 1000000000000000000%Z in *.
  pose proof (collide_far (fmt_int t1) (fmt_int t2) t1 t2 E1 E2 (fmt_val t1 ltac:(lia)) (fmt_val t2 ltac:(lia)) K Ne) as F.
  unfold gap19 in F. lia.
Qed.
(** at that distance ids do collide, whatever the path *)
Theorem C116_gap_is_exact : exists t1 t2, real_time t1 /\ real_time t2 /\ Z.abs (t1 - t2) = 9999947799996242%Z /\
  forall path, uniq_id t1 path = uniq_id t2 path.
Proof.
  exists 8000000040000000200%Z, 7990000092200003958%Z.
  split; [split; vm_compute; [discriminate|reflexivity]|]. split; [split; vm_compute; [discriminate|reflexivity]|].
  split; [reflexivity|]. intros path. unfold uniq_id. rewrite !checksum_feed. unfold feed. rewrite !fold_left_app.
  assert (G : fold_left add_byte (fmt_int 8000000040000000200) all_ones = fold_left add_byte (fmt_int 7990000092200003958) all_ones)
    by (vm_compute; reflexivity).
  rewrite G. reflexivity.
Qed.
(** ** Requests at the same nanosecond *)
(** Ids differ for two paths of the same length that differ only within eight consecutive
    bytes.  Missing: other pairs of paths, of which some collide. *)
Theorem C116_paths_partial : forall t a x y b, length x = length y -> length x <= 8 -> x <> y ->
  uniq_id t (a ++ x ++ b) <> uniq_id t (a ++ y ++ b).
Proof.
  intros t a x y b E L Ne H. apply Ne. unfold uniq_id in H. rewrite !(app_assoc (fmt_int t)) in H.
  exact (burst (fmt_int t ++ a) x y b E L H).
Qed.
Theorem C116_paths_collide : forall t, exists p1 p2, p1 <> p2 /\ uniq_id t p1 = uniq_id t p2.
Proof.
  intros t. exists (B"/item/0000000000000000000"), (B"/item/0040000000700000041"). split; [discriminate|].
  assert (G : forall c, feed (B"0000000000000000000") c = feed (B"0040000000700000041") c).
  { intros c. apply feed_same; [reflexivity|]. vm_compute. reflexivity. }
  assert (E1 : B"/item/0000000000000000000" = B"/item/" ++ B"0000000000000000000") by reflexivity.
  assert (E2 : B"/item/0040000000700000041" = B"/item/" ++ B"0040000000700000041") by reflexivity.
  rewrite E1, E2. unfold uniq_id. rewrite !checksum_feed.
  assert (A : forall s u c, feed (s ++ u) c = feed u (feed s c)) by (intros s u c; apply fold_left_app).
  rewrite !A, G. reflexivity.
Qed.
Example C116_example : real_time 1700000000123456789 /\ real_time 1700000000123456790 /\
  uniq_id 1700000000123456789 (B"/users") <> uniq_id 1700000000123456790 (B"/users") /\
  uniq_id 1700000000123456789 (B"/users") <> uniq_id 1700000000123456789 (B"/login").
Proof.
  split; [split; vm_compute; [discriminate|reflexivity]|]. split; [split; vm_compute; [discriminate|reflexivity]|].
  split; vm_compute; discriminate.
Qed.
Print Assumptions C116_unique_refuted.
Print Assumptions C116_same_path_partial.
Print Assumptions C116_gap_is_exact.
Print Assumptions C116_paths_partial.
Print Assumptions C116_paths_collide.
