(** Once the thread that delivers results has ended, outstanding samples stay outstanding. *)
From Verif Require Import Base BaseFacts PermTac TagModel PoolModel HdfModel SamplerModel SamplerSpec SamplerProofs SamplerFacts ParModel ParSpec ParFacts ParProofs.

Section Dead.
Context (E : env) (picks wpicks : nat -> list nat) (escaped : nat -> bool).
Definition dead (s s' : par E) : Prop := alive s = false -> alive s' = false /\ incl (tasks s) (tasks s').
Lemma dead_refl s : dead s s.
Proof. intros H. split; auto. apply incl_refl. Qed.
Lemma dead_trans a b c : dead a b -> dead b c -> dead a c.
Proof. intros H1 H2 H. destruct (H1 H) as [A B]. destruct (H2 A) as [C D]. split; auto. eapply incl_tran; eauto. Qed.
Lemma dead_base s b : dead s (set_base E s b).
Proof. intros H. split; auto. apply incl_refl. Qed.
Hint Resolve dead_refl dead_base : core.
Lemma dead_deliver s i : dead s (deliver E escaped s i).
Proof. intros H. unfold deliver. rewrite H. split; auto. apply incl_refl. Qed.
Lemma dead_fold is : forall s, dead s (fold_left (deliver E escaped) is s).
Proof. induction is as [|i is IH]; intros s; cbn [fold_left]; auto. eapply dead_trans; [apply dead_deliver|apply IH]. Qed.
Lemma dead_tick s : dead s (tick E picks escaped s).
Proof. apply (dead_fold (picks (ticks s)) s). Qed.
Lemma dead_window s : dead s (window E wpicks escaped s).
Proof. apply dead_fold. Qed.
Lemma dead_drain A (get : pool E -> dict (list A)) pb ls : forall acc s, dead s (fst (drain E picks wpicks escaped get pb ls acc s)).
Proof.
  induction ls as [|l ls IH]; intros acc s; cbn [drain fst]; auto. destruct (dlist _ l) as [|x q].
  - eapply dead_trans; [apply dead_tick|apply IH].
  - eapply dead_trans; [|apply IH]. eapply dead_trans; [apply dead_tick|]. eapply dead_trans; [apply dead_window|apply dead_base].
Qed.
Lemma dead_times ls : forall s, dead s (fst (save_times E picks escaped ls s)).
Proof.
  induction ls as [|l ls IH]; intros s; cbn [save_times fst]; auto. destruct (dget _ l) as [[t n]|].
  - destruct (with_group _ _ _ _) as [f [u|e]]; cbn [fst].
    + eapply dead_trans; [apply dead_tick|]. eapply dead_trans; [|apply IH]. apply dead_base.
    + eapply dead_trans; [apply dead_tick|apply dead_base].
  - eapply dead_trans; [apply dead_tick|apply IH].
Qed.
Lemma dead_poll s : dead s (fst (par_poll E picks wpicks escaped s)).
Proof.
  unfold par_poll, par_finished.
  pose proof (dead_drain _ (@queues E) (put_good E) (dkeys (queues (s_pool (base (tick E picks escaped s))))) [] (tick E picks escaped s)) as H1.
  destruct (drain _ _ _ _ _ _ _ _ _) as [s1 ok]. cbn [fst] in H1.
  pose proof (dead_drain _ (@failed_queues E) (put_bad E) (dkeys (failed_queues (s_pool (base (tick E picks escaped s1))))) [] (tick E picks escaped s1)) as H2.
  destruct (drain _ _ _ _ (@failed_queues E) _ _ _ _) as [s2 bad]. cbn [fst] in H2.
  assert (H : dead s (tick E picks escaped s2)).
  { eapply dead_trans; [apply dead_tick|]. eapply dead_trans; [exact H1|]. eapply dead_trans; [apply dead_tick|].
    eapply dead_trans; [exact H2|]. apply dead_tick. }
  destruct (save_samples _ _ _ _) as [f [u|e]]; cbn [fst].
  - match goal with |- context [save_times _ _ _ ?ls ?x] => pose proof (dead_times ls x) as H3; destruct (save_times _ _ _ ls x) as [s3 [v|e]] end;
      cbn [fst] in *; (eapply dead_trans; [exact H|]); (eapply dead_trans; [apply dead_base|exact H3]).
  - eapply dead_trans; [exact H|apply dead_base].
Qed.
Lemma dead_loop clk t fuel : forall i s, dead s (fst (ask_loop (par_poll E picks wpicks escaped) clk t fuel i s)).
Proof.
  induction fuel as [|fuel IH]; intros i s; cbn [ask_loop fst]; auto.
  pose proof (dead_poll s) as H. destruct (par_poll _ _ _ _ s) as [s1 [n|e]]; cbn [fst] in *; auto.
  destruct (_ && _)%bool; auto. destruct (0 <? n)%Z; auto. eapply dead_trans; [exact H|apply IH].
Qed.
Lemma dead_ask clk t fuel s : dead s (fst (par_ask E picks wpicks escaped clk t fuel s)).
Proof. unfold par_ask, ask. destruct t as [t|]; [destruct (Qle_bool t 0); cbn; auto|]; apply dead_loop. Qed.
Lemma dead_schedule s id ls : dead s (par_schedule E s id ls).
Proof. intros H. split; auto. cbn. apply incl_appl, incl_refl. Qed.
Lemma dead_bind A B (m : st (par E) A) (k : A -> st (par E) B) :
  (forall s, dead s (fst (m s))) -> (forall a s, dead s (fst (k a s))) -> forall s, dead s (fst (sbind m k s)).
Proof. intros Hm Hk s. unfold sbind. specialize (Hm s). destruct (m s) as [s1 [a|e]]; cbn [fst] in *; auto. eapply dead_trans; [exact Hm|apply Hk]. Qed.
Lemma dead_one l s : dead s (fst (par_one E picks escaped l s)).
Proof.
  unfold par_one. destruct (nth_error (s_nsched (base s)) l); cbn [fst]; auto. destruct (nth_error (s_sims (base s)) l); cbn [fst]; auto.
  eapply dead_trans; [apply dead_schedule|]. eapply dead_trans; [|apply dead_tick]. apply dead_base.
Qed.
Lemma dead_many l c : forall acc s, dead s (fst (par_many E picks escaped l c acc s)).
Proof. induction c as [|c IH]; intros acc s; cbn [par_many]; [cbn; auto|]. apply dead_bind; auto. apply dead_one. Qed.
Lemma dead_save l ids s : dead s (fst (par_save_sched E l ids s)).
Proof. unfold par_save_sched. destruct (save_scheduled _ _ _ _). cbn [fst]. apply dead_base. Qed.
Lemma dead_levels plan : forall l s, dead s (fst (par_levels E picks escaped l plan s)).
Proof.
  induction plan as [|q plan IH]; intros l s; cbn [par_levels]; [cbn; auto|]. apply dead_bind; [apply dead_many|]. intros ids.
  apply dead_bind; [apply dead_save|]. intros _. apply IH.
Qed.
Lemma dead_samples clk t fuel s : dead s (fst (par_samples E picks wpicks escaped clk t fuel s)).
Proof.
  unfold par_samples. pose proof (dead_ask clk t fuel s) as H. destruct (par_ask _ _ _ _ _ _ _ s) as [s1 [[n|e]|]]; cbn [fst] in *; auto.
  destruct (plan_samples E (base s1)) as [plan|e]; cbn [fst]; auto. pose proof (dead_levels plan 0 s1) as H1.
  destruct (par_levels _ _ _ _ _ s1) as [s2 [u|e]]; cbn [fst] in *; eapply dead_trans; eauto.
Qed.
Lemma dead_renew s : dead s (fst (par_renew E picks escaped s)).
Proof.
  unfold par_renew. destruct (failed_samples _ _) as [d|e]; cbn [fst]; auto. apply dead_bind.
  - induction d as [|[l ids] d IH]; intros s1; cbn [sfor]; [cbn; auto|]. apply dead_bind; [|intros _; exact IH].
    induction ids as [|id ids IH']; intros s2; cbn [sfor]; [cbn; auto|]. apply dead_bind; [|intros _; exact IH'].
    intros s3. unfold par_renew_one. destruct (nth_error _ l); cbn [fst]; auto.
    eapply dead_trans; [apply dead_schedule|]. eapply dead_trans; [|apply dead_tick]. apply dead_base.
  - intros _ s1. unfold par_clear. destruct (clear_failed _ _). cbn [fst]. apply dead_base.
Qed.
Lemma dead_wait clk t af fuel : forall k items plan s, dead s (fst (par_wait E picks wpicks escaped clk t af fuel k items plan s)).
Proof.
  induction fuel as [|fuel IH]; intros k items plan s; cbn [par_wait]; destruct (n_finished _ _) as [fin|e]; cbn [fst]; auto;
    destruct (any_below _ _ _) as [[|]|e]; cbn [fst]; auto.
  pose proof (dead_ask (clk k) t af s) as H. destruct (par_ask _ _ _ _ _ _ _ s) as [s1 [[n|e]|]]; cbn [fst] in *; auto. eapply dead_trans; eauto.
Qed.
Lemma dead_adding clk t af fuel c est s : dead s (fst (par_adding E picks wpicks escaped clk t af fuel c est s)).
Proof.
  unfold par_adding. pose proof (dead_ask (clk 0) t af s) as H. destruct (par_ask _ _ _ _ _ _ _ s) as [s1 [[n|e]|]]; cbn [fst] in *; auto.
  destruct (_ =? _); cbn [fst]; auto. set (plan := planned_vec _ _ _). set (items := greater_items _ _ _).
  assert (H1 : dead s1 (fst (par_scheduled_and_wait E picks wpicks escaped clk t af fuel plan items s1))).
  { unfold par_scheduled_and_wait. destruct (set_level_target E plan (base s1)) as [b [u|e]]; cbn [fst]; auto.
    pose proof (dead_samples (clk 1) t af (set_base E s1 b)) as H2.
    destruct (par_samples _ _ _ _ _ _ _ _) as [s2 [|m|bb|e|]]; cbn [fst] in *; try (eapply dead_trans; [apply dead_base|exact H2]).
    eapply dead_trans; [eapply dead_trans; [apply dead_base|exact H2]|apply dead_wait]. }
  destruct (par_scheduled_and_wait _ _ _ _ _ _ _ _ _ _ _) as [s2 [|m|bb|e|]]; cbn [fst] in *; eapply dead_trans; eauto.
Qed.
Lemma dead_step fuel s o : dead s (fst (par_step E picks wpicks escaped fuel s o)).
Proof.
  destruct o; cbn [par_step]; cbn [fst]; auto.
  - destruct (set_level_target _ _ _) as [b [u|e]]; cbn [fst]; auto.
  - apply dead_samples.
  - match goal with |- context [par_ask _ _ _ _ ?c ?t ?f s] => pose proof (dead_ask c t f s) as H end.
    destruct (par_ask _ _ _ _ _ _ _ s) as [s1 [[n|e]|]]; auto.
  - pose proof (dead_renew s) as H. destruct (par_renew _ _ _ s) as [s1 [u|e]]; auto.
  - apply dead_adding.
Qed.
Lemma dead_run fuel ops : forall s, dead s (par_run E picks wpicks escaped fuel s ops).
Proof. unfold par_run. induction ops as [|o ops IH]; intros s; cbn [fold_left]; auto. eapply dead_trans; [apply dead_step|apply IH]. Qed.
End Dead.

Lemma dead_thread E ps picks wpicks escaped fuel ops (s : par E) : par_reached E ps picks wpicks escaped fuel ops s ->
  alive s = false -> tasks s <> [] ->
  forall fuel' more fuel'' clk, snd (par_step E picks wpicks escaped fuel'' (par_run E picks wpicks escaped fuel' s more) (Ask clk None)) = ORunning.
Proof.
  intros Hr Hd Ht fuel' more fuel'' clk.
  assert (Hr1 : par_reached E ps picks wpicks escaped fuel ops s) by exact Hr.
  destruct (reached_BS _ _ _ _ _ _ _ _ Hr) as (gs & lost & I & _).
  destruct (par_run_S E ps picks wpicks escaped fuel' more _ _ _ I) as (gs' & lost' & I' & _ & _).
  destruct (dead_run E picks wpicks escaped fuel' more s Hd) as [Hd1 Hi1].
  set (s1 := par_run E picks wpicks escaped fuel' s more) in *.
  destruct (dead_step E picks wpicks escaped fuel'' s1 (Ask clk None) Hd1) as [_ Hi2].
  destruct (par_step E picks wpicks escaped fuel'' s1 (Ask clk None)) as [s2 r] eqn:Es. cbn [fst snd] in *.
  destruct (tasks s) as [|t ts] eqn:Et; [congruence|]. assert (Hin : In t (tasks s2)) by (apply Hi2, Hi1; left; auto).
  destruct r as [|n|b|e|]; auto; exfalso.
  - revert Es. cbn [par_step]. destruct (par_ask _ _ _ _ _ _ _ _) as [s3 [[m|e]|]]; discriminate.
  - destruct (ask_returns _ _ _ _ _ _ _ _ _ _ _ _ I' Es) as (gs2 & lost2 & I2 & _ & _ & H).
    pose proof (pk_tasks _ _ _ (sv_pok _ _ _ _ _ _ _ I2)) as P. rewrite Forall_forall in P.
    assert (Hl : ls_level (t_sim t) < length ps) by (apply (task_level E ps); auto).
    destruct (H _ Hl) as (Hh & _). unfold hold, tids in Hh. apply app_eq_nil in Hh as [Hh _]. apply map_eq_nil in Hh.
    assert (Hf : In t (filter (fun t0 => Nat.eqb (ls_level (t_sim t0)) (ls_level (t_sim t))) (tasks s2))) by (apply filter_In; split; auto; apply Nat.eqb_refl).
    rewrite Hh in Hf. contradiction.
  - revert Es. cbn [par_step]. destruct (par_ask _ _ _ _ _ _ _ _) as [s3 [[m|e']|]]; discriminate.
  - revert Es. cbn [par_step]. destruct (ask_S E ps picks wpicks escaped clk None fuel'' s1 _ _ I') as (s3 & _ & _ & r & -> & _ & _ & _ & Hx).
    destruct r as [[m|e']|]; try discriminate. contradiction.
Qed.
