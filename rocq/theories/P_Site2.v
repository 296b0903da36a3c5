(** Proofs about M_Pipeline for sites: when the main handler is called. *)
From Verif Require Import Base GoErrors M_Pipeline S_Pipeline P_Pipeline Props_Pipeline.
From Verif Require S_Site.

Lemma main_shape s m c ks c' r : run_shape s m c ks c' r -> In WMain (whos ks) ->
  exists k0 kb k ka, ks = k0 :: kb ++ k :: ka /\ k_who k0 = WInit /\ (forall x, In x kb -> exists i, k_who x = WBefore i) /\ k_who k = WMain /\
    (forall x, In x ka -> exists i, k_who x = WAfter i) /\ c_skip c || skips (k0 :: kb) = false.
Proof.
  intros [k0 kb km ka Es Hi R (nb & Hnb & Wb & _ & _) Hkm (na & Hna & Wa & _) _ Hmc _ _] HM.
  assert (IB : forall x, In x kb -> exists i, k_who x = WBefore i) by (intros x Hx; pose proof (whos_in x kb Hx) as Y; rewrite Wb in Y; apply in_map_iff in Y as (i & Y & _); exists i; auto).
  assert (IA : forall x, In x ka -> exists i, k_who x = WAfter i) by (intros x Hx; pose proof (whos_in x ka Hx) as Y; rewrite Wa in Y; apply in_map_iff in Y as (i & Y & _); exists i; auto).
  destruct Hkm as [->|(k & -> & Wk & _)].
  - exfalso. unfold whos in HM. apply in_map_iff in HM as (x & Wx & Hx). rewrite Es in Hx. destruct Hx as [<-|Hx]; [congruence|].
    cbn [app] in Hx. apply in_app_or in Hx as [Hx|Hx]; [destruct (IB x Hx)|destruct (IA x Hx)]; congruence.
  - exists k0, kb, k, ka. cbn [app] in Es. split; [exact Es|]. split; [exact Hi|]. split; [exact IB|]. split; [exact Wk|]. split; [exact IA|]. apply Hmc. discriminate.
Qed.
Lemma last_cases {A} (l1 l2 : list A) x : l2 <> [] -> (exists l', l1 ++ l2 = l' ++ [x]) -> In x l2.
Proof.
  intros Ne (l' & E). destruct (exists_last Ne) as (l2' & y & ->). rewrite app_assoc in E. apply app_inj_tail in E as [_ ->]. apply in_or_app. right. left. reflexivity.
Qed.
Lemma set_guard s c ks c' r k : run_set s c = (ks, c', r) -> In k ks -> S_Site.beforehand (k_who k) -> S_Site.bars k -> ~ In WMain (whos ks).
Proof.
  intros H Hk Hb Bk HM. destruct (hs_main s) as [m|] eqn:Em.
  2:{ unfold run_set in H. rewrite Em in H. injection H as <- <- <-. destruct Hk. }
  pose proof (run_set_shape s m c ks c' r Em H) as Sh. destruct (main_shape s m c ks c' r Sh HM) as (k0 & kb & km & ka & Es & W0 & IB & Wm & IA & Sk).
  assert (Early : In k (k0 :: kb)).
  { rewrite Es in Hk. destruct Hk as [Hk|Hk]; [left; exact Hk|]. apply in_app_or in Hk as [Hk|[Hk|Hk]]; [right; exact Hk| |].
    - subst k. destruct Hb as [X|[X|[i X]]]; congruence.
    - destruct (IA k Hk) as [i X]. destruct Hb as [Y|[Y|[j Y]]]; congruence. }
  assert (End : (k_who k <> WInit /\ ~ quiet k) \/ k_out k <> HRet None -> False).
  { intros X. apply in_split in Hk as (ks1 & ks2 & E). destruct (ends_unique s m c ks c' r ks1 k ks2 Sh E X) as [-> _].
    assert (L : In k (km :: ka)) by (apply (last_cases (k0 :: kb)); [discriminate|]; exists ks1; rewrite <- E, Es; reflexivity).
    assert (Z : k_who k = WMain \/ exists i, k_who k = WAfter i) by (destruct L as [<-|L]; [auto|right; exact (IA k L)]).
    destruct Hb as [Y|[Y|[j Y]]], Z as [Z|[i Z]]; congruence. }
  destruct Bk as [X|[X|[[i Wi] X]]].
  - apply End. right. exact X.
  - apply orb_false_iff in Sk as [_ Sk]. rewrite skips_false in Sk. exact (Sk k Early X).
  - apply End. left. split; [congruence|]. intros [_ Q].
    pose proof (run_set_runs s c ks c' r H) as R. apply in_split in Hk as (ks1 & ks2 & E). rewrite E in R. apply runs_split in R as (c1 & R1 & R2).
    rewrite (post_stopped c1 k) in Q; [|inversion R2; assumption]. apply orb_false_iff in Q as [_ Q].
    assert (Y : existsb is_stop (k_acts k) = true) by (apply is_stop_asks; destruct X; [left|right]; assumption). congruence.
Qed.
Lemma set_reached s c ks c' r : hs_main s <> None -> run_set s c = (ks, c', r) -> stopped c = false -> c_skip c = false ->
  (forall k, In k ks -> S_Site.beforehand (k_who k) -> S_Site.lets_on k) -> In WMain (whos ks).
Proof.
  intros Hm H St Sk L. destruct (hs_main s) as [m|] eqn:Em; [|congruence].
  destruct (run_set_shape s m c ks c' r Em H) as [k0 kb km ka Es Hi R (nb & Hnb & Wb & _ & Hfull) Hkm (na & Hna & Wa & _) _ _ Hms Hend].
  destruct Hkm as [->|(k & -> & Wk & _)].
  2:{ rewrite Es. unfold whos. cbn [map]. right. rewrite map_app. apply in_or_app. right. left. exact Wk. }
  exfalso. cbn [app] in *.
  assert (IB : forall x, In x kb -> exists i, k_who x = WBefore i) by (intros x Hx; pose proof (whos_in x kb Hx) as Y; rewrite Wb in Y; apply in_map_iff in Y as (i & Y & _); exists i; auto).
  assert (LB : forall x, In x (k0 :: kb) -> S_Site.lets_on x).
  { intros x Hx. apply L; [rewrite Es; destruct Hx as [<-|Hx]; [left; reflexivity|right; apply in_or_app; left; exact Hx]|].
    destruct Hx as [<-|Hx]; [right; left; exact Hi|right; right; exact (IB x Hx)]. }
  assert (NS : c_skip c || skips (k0 :: kb) = false).
  { rewrite Sk. cbn [orb]. apply skips_false. intros x Hx. exact (proj2 (proj2 (proj2 (LB x Hx)))). }
  destruct Hend as [[_ E]|[_ [(ks0 & k & E & _ & En)|(_ & _ & _ & _ & X)]]].
  - destruct (LB k0 (or_introl eq_refl)) as [O _]. destruct E as [[X _]|(e & X & _)]; congruence.
  - destruct ka as [|a ka].
    2:{ rewrite Hms in NS; [discriminate|reflexivity|discriminate]. }
    rewrite app_nil_r in E, Es. assert (Kb : In k kb) by (rewrite E; apply in_or_app; right; left; reflexivity).
    destruct (LB k (or_intror Kb)) as (O & S1 & S2 & _).
    destruct En as [[X _]|[(e & X & _)|(_ & X & _)]]; try congruence.
    rewrite (runs_no_stop c ks c' R St) in X; [discriminate| |rewrite Es; right; exact Kb].
    rewrite Es. intros x Hx [Y|Y]; destruct (LB x Hx) as (_ & N1 & N2 & _); [exact (N1 Y)|exact (N2 Y)].
  - rewrite X in NS; [discriminate|reflexivity].
Qed.

Section Http.
  Variables (s : hset) (ses : option (ctx -> beh)) (path : bytes) (lvl : Z) (sched : list (option err) -> list (option err)).
  Let x := run_http (Some s) ses path lvl sched.
  Lemma calls_split : (exists k, x_calls x = [k] /\ k_who k = WSesInit /\ k_out k <> HRet None) \/
    exists ki c0 ks c2 r tl, x_calls x = ki ++ ks ++ tl /\ run_set s (apply1 c0 (ASetLevel lvl)) = (ks, c2, r) /\
      (ki = [] /\ c0 = new_ctx \/ exists k, ki = [k] /\ k_who k = WSesInit /\ k_out k = HRet None /\ c0 = left_by k /\ k_seen k = new_ctx) /\
      (forall k, In k tl -> k_who k = WWait \/ exists e, k_who k = WLast e).
  Proof.
    pose proof (run_http_shape s ses path lvl sched) as H. cbv zeta in H. fold x in H. destruct H as [(k & E & W & O & _)|(ki & c0 & ks & c2 & r & _ & Hki & Hr & H)].
    - left. exists k. auto.
    - right. exists ki, c0, ks, c2, r. destruct r as [e|]; [destruct (c_aborted c2)|].
      + exists []. destruct H as (-> & _). rewrite app_nil_r. split; [reflexivity|]. split; [exact Hr|]. split; [exact Hki|]. intros k [].
      + destruct H as (kw & Ww & _ & _ & H). destruct (hs_last s).
        * destruct H as (kl & -> & Wl & _). exists [kw; kl]. split; [reflexivity|]. split; [exact Hr|]. split; [exact Hki|]. intros k [<-|[<-|[]]]; eauto.
        * destruct H as (-> & _). exists [kw]. split; [reflexivity|]. split; [exact Hr|]. split; [exact Hki|]. intros k [<-|[]]; eauto.
      + exists []. destruct H as (-> & _). rewrite app_nil_r. split; [reflexivity|]. split; [exact Hr|]. split; [exact Hki|]. intros k [].
  Qed.
  Lemma http_guard k : In k (x_calls x) -> S_Site.beforehand (k_who k) -> S_Site.bars k -> ~ In WMain (whos (x_calls x)).
  Proof.
    intros Hk Hb Bk HM. destruct calls_split as [(k1 & E & W & _)|(ki & c0 & ks & c2 & r & tl & E & Hr & Hki & Ht)].
    - rewrite E in HM. destruct HM as [X|[]]. congruence.
    - rewrite E in Hk, HM. rewrite !whos_app in HM.
      assert (HM' : In WMain (whos ks)).
      { apply in_app_or in HM as [HM|HM]; [destruct Hki as [[-> _]|(k1 & -> & W & _)]; [destruct HM|destruct HM as [X|[]]; congruence]|].
        apply in_app_or in HM as [HM|HM]; [exact HM|]. unfold whos in HM. apply in_map_iff in HM as (z & Wz & Hz). destruct (Ht z Hz) as [X|[e X]]; congruence. }
      apply in_app_or in Hk as [Hk|Hk]; [|apply in_app_or in Hk as [Hk|Hk]].
      + destruct Hki as [[-> _]|(k1 & -> & W & O & Ec & Sn)]; [destruct Hk|]. destruct Hk as [<-|[]].
        destruct Bk as [X|[X|[[i X] _]]]; [exact (X O)| |congruence].
        destruct (hs_main s) as [m|] eqn:Em.
        2:{ unfold run_set in Hr. rewrite Em in Hr. injection Hr as <- _ _. destruct HM'. }
        destruct (main_shape s m _ ks c2 r (run_set_shape s m _ ks c2 r Em Hr) HM') as (y0 & y1 & y2 & y3 & _ & _ & _ & _ & _ & Sk).
        apply orb_false_iff in Sk as [Sk _]. change (c_skip c0 = false) in Sk. rewrite Ec in Sk. unfold left_by in Sk. rewrite apply_skip in Sk.
        apply orb_false_iff in Sk as [_ Sk]. assert (Y : existsb is_skip (k_acts k1) = true) by (apply is_skip_asks; exact X). congruence.
      + exact (set_guard s _ ks c2 r k Hr Hk Hb Bk HM').
      + destruct (Ht k Hk) as [X|[e X]]; destruct Hb as [Y|[Y|[i Y]]]; congruence.
  Qed.
  Lemma http_reached : hs_main s <> None -> (forall k, In k (x_calls x) -> S_Site.beforehand (k_who k) -> S_Site.lets_on k) -> In WMain (whos (x_calls x)).
  Proof.
    intros Hm L. destruct calls_split as [(k1 & E & W & O)|(ki & c0 & ks & c2 & r & tl & E & Hr & Hki & Ht)].
    - exfalso. destruct (L k1) as [X _]; [rewrite E; left; reflexivity|left; exact W|]. exact (O X).
    - rewrite E in L |- *. rewrite !whos_app. apply in_or_app. right. apply in_or_app. left.
      assert (C : stopped c0 = false /\ c_skip c0 = false).
      { destruct Hki as [[-> ->]|(k1 & -> & W & O & -> & Sn)]; [split; reflexivity|]. destruct (L k1) as (_ & S1 & S2 & S3); [left; reflexivity|left; exact W|].
        unfold left_by. rewrite Sn, apply_skip. split.
        - rewrite apply_stopped. cbn [orb]. apply existsb_false_iff. intros a Ha. destruct a; try reflexivity; contradiction.
        - destruct (existsb is_skip (k_acts k1)) eqn:X; [exfalso; apply S3, is_skip_asks; exact X|reflexivity]. }
      destruct C as [C1 C2]. apply (set_reached s _ ks c2 r Hm Hr); [exact C1|exact C2|].
      intros k Hk. apply L. apply in_or_app. right. apply in_or_app. left. exact Hk.
  Qed.
End Http.
