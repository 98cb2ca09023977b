(** An owner who has started is answered from then on. *)
From Coq Require Import Sorted.
From Verif Require Import Base BaseProofs LogMathSpec LogTreeModel LogTreeSpec PrefixModel TransMathModel CodecModel CodecSpec AlgModel AlgSpec AlgProofs WatchSpec HandleModel HandleSpec
  StoreModel CommitModel MutateModel MutateSpec ServerModel ClientModel ClientSpec SoundProofs3 TransMathProofs2 AnswerSpec AnswerSpec2 AnswerProofs3 AnswerProofs4 AnswerProofs6.
Open Scope N_scope.
Local Open Scope list_scope.

(** ** Growth *)

Lemma next_positions opening n l : forall vs v, Forall (fun p => pv_pos p = n) (nextVersions opening n l v vs).
Proof. induction vs as [|u vs IH]; intros v; cbn [nextVersions]; [constructor|]. constructor; [reflexivity|apply IH]. Qed.

Lemma now_snoc rs r l : ~ In l (rq_remove r) -> exists new, labelsNow (rs ++ [r]) l = labelsNow rs l ++ new /\ Forall (fun p => pv_pos p = lenN rs) new.
Proof.
  intro F. unfold labelsNow. rewrite after_snoc, last_last. unfold publishes, publish. rewrite N.add_0_l.
  assert (kept (rq_remove r) (last (labelsAfter 0 noLabels rs) noLabels) l = last (labelsAfter 0 noLabels rs) noLabels l) as ->.
  { unfold kept. destruct (existsb (bytes_eqb l) (rq_remove r)) eqn:Ex; [|reflexivity]. apply existsb_exists in Ex as (l' & I & Eq). apply bytes_eqb_eq in Eq. subst l'. contradiction. }
  eexists. split; [reflexivity|]. apply next_positions.
Qed.

Lemma now_app rs l : forall more, Forall (fun r => ~ In l (rq_remove r)) more -> exists new, labelsNow (rs ++ more) l = labelsNow rs l ++ new /\ Forall (fun p => lenN rs <= pv_pos p) new.
Proof.
  induction more as [|r more IH] using rev_ind; intros F.
  - exists []. rewrite !app_nil_r. split; [reflexivity|constructor].
  - apply Forall_app in F as (F1 & F2). destruct (IH F1) as (new & E & G). apply Forall_inv in F2. destruct (now_snoc (rs ++ more) r l F2) as (new2 & E2 & G2).
    exists (new ++ new2). rewrite app_assoc, E2, E, app_assoc. split; [reflexivity|]. apply Forall_app. split; [exact G|]. eapply Forall_impl; [|exact G2]. cbn. intros p ->. unfold lenN. rewrite app_length. lia.
Qed.

Lemma by_app rs l more x : Forall (fun r => ~ In l (rq_remove r)) more -> x < lenN rs -> versionsBy (rs ++ more) l x = versionsBy rs l x.
Proof.
  intros F Hx. destruct (now_app rs l more F) as (new & E & G). unfold versionsBy. rewrite E, filter_app, app_length.
  assert (filter (fun p => pv_pos p <=? x) new = []) as ->; [|cbn; lia].
  clear -G Hx. induction G as [|p new Hp G IH]; [reflexivity|]. cbn [filter]. destruct (N.leb_spec (pv_pos p) x); [lia|exact IH].
Qed.

(** ** The log as seen by the owner *)

Definition noRequest : request := {| rq_order := []; rq_now := 0; rq_add := []; rq_remove := []; rq_opening := fun _ _ => [] |}.
Definition seenLog (rs : list request) (l : bytes) : hlog :=
  {| h_n := lenN rs; h_ts := fun x => rq_now (nth (N.to_nat x) rs noRequest); h_g := fun x => (Z.of_nat (versionsBy rs l x) - 1)%Z |}.

Lemma seen_describes rs l : AnswerSpec.describes (seenLog rs l) rs l.
Proof. split; [reflexivity|]. split; [|reflexivity]. intros x r E. cbn. f_equal. now apply nth_error_nth. Qed.

Section Run.
Variable f : bytes -> bytes.
Variable hs : N.
Hypothesis Hf : forall x, lenN (f x) = hs.
Hypothesis Hhs : 0 < hs <= 32.
Variable c : pubConfig.
Variable vrf : bytes -> bytes * bytes.
Variable Ls : list bytes.
Hypothesis HV : vrfGood hs vrf Ls.
Variable sign : bytes -> res bytes.

Theorem started_answered t rs l now last start answer : runs (full f) hs c vrf sign Ls t rs -> rs <> [] -> In l Ls -> clockFine c now (latest rs) -> optSize (lenN rs) last ->
  serverOwnerInit (full f) hs c vrf now (serverOf t) {| iq_last := last; iq_label := l; iq_start := start |} = Ok answer ->
  forall t' more now' last' es up, runs (full f) hs c vrf sign Ls t' (rs ++ more) -> Forall (fun r => ~ In l (rq_remove r)) (rs ++ more) -> lenN (labelsNow (rs ++ more) l) < 2 ^ 31 ->
  clockFine c now' (latest (rs ++ more)) -> optSize (lenN (rs ++ more)) last' -> goodPairs (rs ++ more) l es ->
  let o := {| os_starting := start; os_verAt := claimed (ir_versions answer) 0; os_upcoming := up |} in
  (os_verAt o + Z.of_nat (List.length up) < Z.of_nat (List.length (labelsNow (rs ++ more) l)))%Z ->
  exists answer', serverOwnerMonitor (full f) hs c vrf now' (serverOf t')
    {| oq_last := last'; oq_label := l; oq_entries := es; oq_start := start; oq_greatest := ownerGreatest o |} = Ok answer'.
Proof.
  intros R NE Hl Cl OP Ea t' more now' last' es up R' Fr Hb Cl' OP' G o Hup.
  pose proof Fr as Fr2. apply Forall_app in Fr2 as (F1 & F2). destruct (now_app rs l more F2) as (new & En & _).
  assert (Hb1 : lenN (labelsNow rs l) < 2 ^ 31) by (rewrite En in Hb; unfold lenN in *; rewrite app_length in Hb; lia).
  destruct (init_answered f hs Hf Hhs c vrf Ls HV sign now t rs l R NE Hl F1 Hb1 Cl (seenLog rs l) last start (seen_describes rs l) OP) as (I1 & I2).
  destruct (proj1 I1 (ex_intro _ answer Ea)) as (D & _). destruct (I2 answer Ea) as (xs & (ys & -> & _) & _ & C). specialize (C 0%nat start eq_refl). cbn [seenLog h_g] in C.
  assert (Hst : start < lenN rs).
  { apply DIn_range in D; [cbn [seenLog h_n] in D; lia|]. cbn [seenLog h_n]. destruct rs; [contradiction|]. unfold lenN. cbn [List.length]. lia. }
  apply (owner_state_answered f hs Hf Hhs c vrf Ls HV sign now' t' (rs ++ more) l R') with (o := o); try assumption.
  - destruct rs; [contradiction|discriminate].
  - split; [cbn [o os_starting]; unfold lenN in *; rewrite app_length; lia|]. split; [|exact Hup]. cbn [o os_starting os_verAt]. rewrite by_app by assumption. symmetry. exact C.
Qed.
End Run.
