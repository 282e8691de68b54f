From Verif Require Import Base BaseFacts TagModel TagProofs PoolModel PoolProofs HdfModel HdfProofs
  SamplerModel SamplerProofs SamplerSpec SamplerFacts CrashModel CrashProofs AddingFacts.

Section Facts.
Context (E : env) (ps : list (param E)).

(** Ids handed to a pool after the crash: never one that the file knows; those handed out twice all
    belong to the one level that was being scheduled. *)
Lemma crash_then_run f0 ops0 s clk t fuel k plan : reached E ps f0 ops0 s -> plan_samples E s = Ok plan ->
  exists s3, crash_schedule E ps clk t fuel k s = (s3, ONone)
  /\ (forall j g, level s j g -> exists g' more, level s3 j g' /\ g_sched g' = g_sched g ++ more)
  /\ exists l, forall f ops, (forall o, In o ops -> o <> Renew) ->
     exists new, s_handed (run E ps f s3 ops) = s_handed s3 ++ new /\ NoDup new
       /\ forall id, In id new ->
            (forall j g, level s3 j g -> ~ In id (g_sched g))
            /\ (In id (s_handed s3) -> exists n, id = tag l n).
Proof.
  intros Hr Hp. destruct (reached_BInv _ _ _ _ _ Hr) as (gs & lost & HI & _).
  destruct (crash_BInv E ps clk t fuel k s gs lost plan HI Hp)
    as (s2 & s3 & gs3 & lost3 & l & c & E1 & HI3 & HG & newc & Hc1 & Hc2 & Hc3).
  exists s3. ands; auto. exists l. intros f ops Hno.
  destruct (run_new E ps f ops s3 gs3 lost3 HI3 Hno) as (new & H1 & H2 & H3).
  exists new. ands; auto. intros id Hid. destruct (H3 id Hid) as (j & n & m & -> & Hm & Hle). split.
  - intros j' g Hg Hin. destruct (BInv_lev _ _ _ _ _ _ _ HI3 Hg) as (m' & Hm' & _ & Hs & _).
    rewrite Hs in Hin. apply in_map_iff in Hin as (n' & He & Hn'). apply tagn_inj in He as [-> ->].
    apply in_seq in Hn'. rewrite Hm in Hm'. injection Hm' as <-. lia.
  - intros Hin. rewrite Hc1 in Hin. apply in_app_iff in Hin as [Hin|Hin].
    + destruct (reached_HInv _ _ _ _ _ Hr) as [HH _]. apply HH in Hin as (j' & n' & m' & A & B & He).
      apply tagn_inj in He as [<- <-]. exfalso.
      destruct (nsched_level _ _ _ _ _ _ _ HI A) as (g & Hg & Hgl). destruct (HG _ _ Hg) as (g' & more & Hg' & Hs').
      pose proof (level_nsched _ _ _ _ _ _ _ HI3 Hg') as K. rewrite Hm in K. injection K as ->.
      rewrite Hs', app_length in Hle. lia.
    + destruct (Hc2 _ Hin) as (j' & n' & He & m1 & m2 & A & B & C). apply tagn_inj in He as [<- <-].
      pose proof (Hc3 j m Hm) as K. rewrite B in K. injection K as ->.
      destruct (Nat.eqb_spec j l) as [->|N]; [|lia]. exists n. reflexivity.
Qed.

End Facts.
