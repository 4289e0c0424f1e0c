(** * The two outcomes of an update call, for whole worlds *)
From Verif Require Import Base Types Codec State Ledger Canister Effects Spec ApiSpec
  Inv Steps World CallFacts CallCases.

Section WithEnv.
Context `{Env}.

Lemma call_inv w now caller c sync :
  reachable w -> ev_ok w (EvCall now caller c sync) ->
  inv now (w_led w) /\ is_u64 now /\ wf_principal caller /\ wf_call c.
Proof.
  intros Hr ((Hclk & Hu) & Hcl & Hwf). split; [|done].
  eapply inv_mono; [exact Hclk|]. by apply reachable_inv.
Qed.

Lemma done_reply_accepted caller c i s resp :
  done_reply caller c i s = Some resp -> rejected resp = false.
Proof. destruct c; simpl; congruence || (intros [= <-]; done). Qed.

(** The message result behind a response *)
Lemma step_call w now caller c sync w' resp :
  step w (EvCall now caller c sync) = (w', resp) ->
  exists s' r, exec_call now (w_cycles w) caller c sync (w_led w) = (s', r)
    /\ w_led w' = s'
    /\ match r with
       | Done resp' => resp = resp' /\ w' = World s' now (w_pend w) (w_next w)
                                        (w_cycles w + accepted_cycles c resp) (w_used w)
       | Waiting p => resp = RespPending (w_next w) (outcall_of p)
                      /\ w' = World s' now (<[w_next w := p]> (w_pend w)) (w_next w + 1)
                                 (w_cycles w - pending_amount p) (w_used w)
       end.
Proof.
  cbn [step]. destruct (exec_call _ _ _ _ _ _) as [s' r]. intros Heq. exists s', r.
  destruct r as [resp'|p]; injection Heq as <- <-; done.
Qed.

Lemma exec_rejected_cycles now avail caller c sync s s' resp :
  exec_call now avail caller c sync s = (s', Done resp) -> rejected resp = true ->
  accepted_cycles c resp = 0.
Proof.
  destruct c; try done. rewrite exec_deposit.
  destruct (dep_decide _ _ _ _) as [[]|[]|]; intros [= <- <-]; done.
Qed.

Lemma step_rejected w now caller c sync w' resp :
  reachable w -> ev_ok w (EvCall now caller c sync) ->
  step w (EvCall now caller c sync) = (w', resp) ->
  rejected resp = true -> unchanged w w'.
Proof.
  intros Hr Hev Hst Hrej. destruct (call_inv _ _ _ _ _ Hr Hev) as (Hi & Hu & Hcl & Hwf).
  apply step_call in Hst as (s' & r & He & Hl & Hm).
  destruct (exec_call_cases _ _ _ _ _ _ _ _ Hi Hu Hcl Hwf He) as [[-> (resp' & -> & _)]|[_ Ha]].
  - destruct Hm as [-> ->]. unfold unchanged; simpl. rewrite (exec_rejected_cycles _ _ _ _ _ _ _ _ He Hrej).
    split_and!; try done. lia.
  - exfalso. destruct Ha.
    + destruct Hm as [-> _]. apply done_reply_accepted in H1. congruence.
    + destruct Hm as [-> _]. done.
    + destruct Hm as [-> _]. congruence.
Qed.

Lemma step_accepted w now caller c sync w' resp :
  reachable w -> ev_ok w (EvCall now caller c sync) ->
  step w (EvCall now caller c sync) = (w', resp) ->
  rejected resp = false ->
  tx_ok now (requested caller c) (w_led w)
  /\ exists r, accepted_call now (w_cycles w) caller c sync (w_led w) (w_led w') r
     /\ match r with
        | Done resp' => resp = resp' /\ w' = World (w_led w') now (w_pend w) (w_next w)
                                         (w_cycles w + accepted_cycles c resp) (w_used w)
        | Waiting p => resp = RespPending (w_next w) (outcall_of p)
                       /\ w' = World (w_led w') now (<[w_next w := p]> (w_pend w)) (w_next w + 1)
                                  (w_cycles w - pending_amount p) (w_used w)
        end.
Proof.
  intros Hr Hev Hst Hrej. destruct (call_inv _ _ _ _ _ Hr Hev) as (Hi & Hu & Hcl & Hwf).
  apply step_call in Hst as (s' & r & He & Hl & Hm). subst s'.
  destruct (exec_call_cases _ _ _ _ _ _ _ _ Hi Hu Hcl Hwf He) as [[_ (resp' & -> & Hr')]|[Hok Ha]].
  - destruct Hm as [-> _]. congruence.
  - split; [done|]. by exists r.
Qed.

(** An accepted call has its transaction recorded. *)
Lemma accepted_block now avail caller c sync s s' r :
  inv now s -> accepted_call now avail caller c sync s s' r ->
  exists rest, blocks s' = blocks s ++ mk_block now (requested caller c) s :: rest.
Proof.
  intros Hi Ha. destruct Ha as [s1 resp -> _|s1 p -> _ _ _|s1 p e s' resp -> _ _ _ _ Hp _].
  - exists []. by rewrite recorded_blocks.
  - exists []. by rewrite recorded_blocks.
  - apply prims_prefix in Hp as [rest Hp]. exists rest. rewrite Hp, recorded_blocks, <- app_assoc. done.
Qed.

End WithEnv.
