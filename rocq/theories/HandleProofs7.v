(** An honest server convinces the client: every algorithm in turn. *)
From Coq Require Import Sorted.
From Verif Require Import Base BaseProofs LogMathModel NodeMathProofs LogMathProofs TransMathModel TransMathSpec TransMathProofs TransMathProofs2 LogTreeModel LogTreeSpec PrefixModel PrefixSpec LaddersModel LaddersProofs CodecModel AlgModel AlgSpec AlgProofs AlgProofs2 AlgProofs3 AlgProofs4 LogChunkModel LogChunkSpec HandleModel HandleSpec HandleProofs HandleProofs2 HandleProofs3 HandleProofs4 HandleProofs5 HandleProofs6.
Open Scope N_scope.

(** ** Coverage *)

Definition touched (evs : list event) (x : N) : Prop := exists e, In e evs /\ touches x e.

Lemma touched_app e1 e2 x : touched e1 x \/ touched e2 x -> touched (e1 ++ e2) x.
Proof. intros [(e & I & T)|(e & I & T)]; exists e; split; auto; apply in_app_iff; auto. Qed.

Lemma touched_cons e evs x : touches x e \/ touched evs x -> touched (e :: evs) x.
Proof. intros [T|(e' & I & T)]; [exists e|exists e']; cbn; auto. Qed.

Section Cov.
Variable L : hlog.
Local Notation nn := (h_n L).
Local Notation ts := (h_ts L).
Variable c : pubConfig.
Hypothesis Hn : 1 <= nn < 2 ^ 64.

Lemma run_all xs s : Forall (fun x => x < nn) xs -> run (honest L) (getAllTs xs) s = (Ok tt, s, map (fun x => EvTs x (Ok (ts x))) xs).
Proof.
  induction 1 as [|x t Hx F IH]; [reflexivity|]. cbn [getAllTs]. rewrite (run_getTs L) by auto. rewrite IH. reflexivity.
Qed.

Lemma run_view now m xs s : match m with Some k => k <= nn | None => True end -> updateViewPath nn m = Ok xs -> Forall (fun x => x < nn) xs ->
  exists r evs, run (honest L) (updateView c now nn m) s = (r, s, evs) /\ forall x, In x xs -> touched evs x.
Proof.
  intros Hm Ex F. unfold updateView. replace (match m with Some m0 => nn <? m0 | None => false end) with false by (destruct m; auto; symmetry; apply N.ltb_ge; auto).
  destruct (N.eqb_spec nn 0); [lia|]. rewrite Ex. cbn [lift pbind]. rewrite run_bind, run_all by auto. cbn [andThen]. rewrite sub1_64 by auto. rewrite (run_getTs L) by lia.
  assert (HT : forall e x, In x xs -> touched (map (fun y => EvTs y (Ok (ts y))) xs ++ e) x).
  { intros e x I. apply touched_app. left. exists (EvTs x (Ok (ts x))). split; [|reflexivity]. apply in_map_iff. eauto. }
  destruct (_ && _); [cbn; eauto|]. destruct (_ && _); cbn; eauto.
Qed.

(** The frontier of a subtree. *)
Lemma run_rightmost_loop fuel : forall r a len fr s, SRange nn a len -> a + len = nn -> SFront a len fr ->
  match run (honest L) (rightmost_loop c fuel nn r (sroot a len)) s with
  | (Ok o, s', evs) => s' = s /\ exists a' len' l fr', o = Some (sroot a' len') /\ SRange nn a' len' /\ a' + len' = nn /\ SFront a' len' fr' /\ fr = l ++ fr' /\ forall x, In x l -> touched evs x
  | (Fail _, _, _) => False
  | _ => True
  end.
Proof.
  induction fuel as [|f IH]; intros r a len fr s R E F; [exact I|]. cbn [rightmost_loop]. rewrite sub1_64 by auto.
  pose proof (nav_len nn a len Hn R) as (L1 & L2 & L3).
  destruct (N.eqb_spec (sroot a len) (nn - 1)).
  { cbn. split; auto. exists a, len, [], fr. repeat split; auto. intros x []. }
  assert (Hr : lsize len + 1 < len) by (unfold sroot in *; lia).
  rewrite (run_getTs L) by (apply (nav_lt nn a len Hn R)). destruct (negb _).
  { cbn. split; auto. exists a, len, [], fr. repeat split; auto. intros x []. }
  rewrite (nav_right nn a len Hn R Hr). cbn [lift pbind].
  inversion F as [a1 len1 EL|a1 len1 rest Hr' F']; subst; [lia|].
  assert (R' : SRange nn (sroot a len + 1) (len - lsize len - 1)) by (constructor; auto).
  assert (E' : sroot a len + 1 + (len - lsize len - 1) = nn) by (unfold sroot in *; lia).
  specialize (IH r _ _ _ s R' E' F'). destruct (run _ _ s) as [[[o|m|m|] s'] evs]; cbn; auto.
  destruct IH as (-> & a' & len' & l & fr' & -> & RR & EE & FF & -> & T). split; auto.
  exists a', len', (sroot a len :: l), fr'. repeat split; auto. intros x [<-|I]; apply touched_cons; [left; reflexivity|right; auto].
Qed.

Lemma run_greatest_loop ver fuel : forall a len fr t s, SRange nn a len -> a + len = nn -> SFront a len fr ->
  match run (honest L) (greatest_loop fuel ver nn (sroot a len) t) s with
  | (Ok _, s', evs) => forall x, In x fr -> touched evs x
  | _ => True
  end.
Proof.
  induction fuel as [|f IH]; intros a len fr t s R E F; [exact I|]. cbn [greatest_loop]. rewrite sub1_64 by auto.
  pose proof (nav_len nn a len Hn R) as (L1 & L2 & L3). pose proof (nav_lt nn a len Hn R) as Hx.
  rewrite run_bind. cbn [getLadder run honest pLadder]. rewrite (proj2 (N.ltb_lt _ _) Hx). cbn [addEv andThen run].
  destruct (_ =? 1)%Z; [exact I|].
  destruct (N.eqb_spec (sroot a len) (nn - 1)) as [E1|E1]; cbn [negb].
  - assert (len = lsize len + 1) by (unfold sroot in *; lia).
    destruct (_ && _); [exact I|]. destruct (negb _); [exact I|]. cbn. inversion F; subst; [|lia]. intros x [<-|[]]. apply touched_cons. left. reflexivity.
  - assert (Hr : lsize len + 1 < len) by (unfold sroot in *; lia). rewrite (nav_right nn a len Hn R Hr). cbn [lift pbind].
    inversion F as [a1 len1 EL|a1 len1 rest Hr' F']; subst; [lia|].
    assert (R' : SRange nn (sroot a len + 1) (len - lsize len - 1)) by (constructor; auto).
    assert (E' : sroot a len + 1 + (len - lsize len - 1) = nn) by (unfold sroot in *; lia).
    match goal with |- context[run _ (greatest_loop f ver nn _ ?t') ?s'] => specialize (IH _ _ _ t' s' R' E' F'); destruct (run _ (greatest_loop f ver nn _ t') s') as [[[o|m|m|] s2] evs]; cbn; auto end.
    intros x [<-|I]; apply touched_cons; [left; reflexivity|right; auto].
Qed.

Lemma run_greatest ver s fr : frontier nn = Ok fr ->
  match run (honest L) (greatestVersionSearch c ver nn) s with
  | (Ok _, s', evs) => forall x, In x fr -> touched evs x
  | _ => True
  end.
Proof.
  intros EF. destruct (c10_frontier nn Hn) as (fr' & EF' & SF). rewrite EF in EF'. injection EF' as <-.
  unfold greatestVersionSearch. destruct (N.eqb_spec nn 0); [lia|]. rewrite run_bind, run_catch, run_bind. unfold rightmostDistinguished.
  destruct (N.eqb_spec nn 0); [lia|]. rewrite sub1_64 by auto. rewrite (run_getTs L) by lia. destruct (c09_entries nn Hn) as (-> & _).
  destruct (negb _).
  - cbn [run addEv andThen orElse app]. pose proof (run_greatest_loop ver 66 0 nn fr None s (SR_root nn) ltac:(lia) SF) as H.
    destruct (run _ (greatest_loop _ _ _ _ _) s) as [[[o|m|m|] s2] evs]; cbn; auto. intros x I. apply touched_cons. auto.
  - pose proof (run_rightmost_loop 66 (ts (nn - 1)) 0 nn fr s (SR_root nn) ltac:(lia) SF) as H.
    destruct (run _ (rightmost_loop _ _ _ _ _) s) as [[[o|m|m|] s2] evs]; cbn [addEv andThen orElse run app]; auto; [|contradiction].
    destruct H as (-> & a' & len' & l & fr' & -> & RR & EE & FF & -> & T).
    pose proof (run_greatest_loop ver 66 a' len' fr' None s RR EE FF) as H.
    destruct (run _ (greatest_loop _ _ _ _ _) s) as [[[o|m|m|] s3] evs3]; cbn; auto.
    intros x I. apply touched_cons. right. apply touched_app. apply in_app_iff in I. destruct I; [left; apply touched_app; auto|right; auto].
Qed.

End Cov.

Section Fin.
Variable f : bytes -> bytes.
Variable hs : N.
Variable W : world.
Hypothesis HF : faithful f hs W.
Hypothesis Hf : forall x, List.length (f x) = N.to_nat hs.
Hypothesis Hsmall : (N.to_nat hs <= 32)%nat.
Hypothesis Hpos : 0 < hs.
Local Notation n := (lenN (w_entries W)).
Local Notation L := (observed W).
Variable c : pubConfig.
Variable now : N.

Lemma Hnn : 1 <= h_n L < 2 ^ 64.
Proof. destruct HF as ((H & _) & _). exact H. Qed.

(** The entries of the frontier are either kept or fetched. *)
Lemma view_covers m ret fr : match m with Some k => 1 <= k <= n | None => True end -> keeps W m ret -> advances n m -> frontier n = Ok fr ->
  forall s r s' evs, run (honest L) (updateView c now n m) s = (r, s', evs) -> forall x, In x fr -> In x (map fst ret) \/ touched evs x.
Proof.
  intros Hm (TE & KP) AD EF s r s' evs ER x I. pose proof Hnn as Hn. change (h_n L) with n in Hn.
  destruct (c10_frontier n Hn) as (fr' & EF' & SF). rewrite EF in EF'. injection EF' as <-. assert (FL : Forall (fun y => y < n) fr) by (apply (SFront_lt L Hn 0 n fr SF)).
  destruct m as [k|].
  - destruct (c10_partial n k Hm ltac:(lia)) as (old & new & xs & E1 & E2 & E3 & F & _ & Hnil & Hc & _). rewrite EF in E2. injection E2 as <-.
    assert (F' : Forall (fun y => y < n) xs) by (eapply Forall_impl; [|exact F]; cbn; lia).
    destruct (run_view L c Hn now (Some k) xs s (proj2 Hm) E3 F') as (r' & evs' & ER' & T). change (h_n L) with n in ER'. rewrite ER in ER'. injection ER' as <- <- <-.
    assert (HC : k = n \/ xs <> []).
    { destruct AD as [->|AD]; [auto|]. specialize (AD fr EF). destruct (N.eq_dec k n); [auto|]. right. rewrite Hnil. tauto. }
    destruct (Hc HC x I) as [H|H]; [left; eapply KP; eauto|right; auto].
  - destruct (run_view L c Hn now None fr s Logic.I EF) as (r' & evs' & ER' & T); [exact FL|]. change (h_n L) with n in ER'. rewrite ER in ER'. injection ER' as <- <- <-. auto.
Qed.

Lemma run_fst {A} (p : prog A) : exists s' evs, run (honest L) p 0 = (honestAnswer W p, s', evs).
Proof. unfold honestAnswer. destruct (run (honest L) p 0) as [[r s'] evs]. cbn. eauto. Qed.

(** The general form: the view is updated, then [p] runs. *)
Lemma convince {A} (p : prog A) ret m nP :
  (forall s r s' evs, run (honest L) p s = (r, s', evs) -> smooth L tracker0 evs) ->
  keeps W (option_map fst m) ret ->
  (advances n (option_map fst m) \/
   forall fr s a s' evs, frontier n = Ok fr -> run (honest L) p s = (Ok a, s', evs) -> forall x, In x fr -> touched evs x) ->
  let q := pbind (updateView c now n (option_map fst m)) (fun _ => p) in
  (advances n (option_map fst m) \/ exists a, honestAnswer W q = Ok a) ->
  convincing f hs W q (honestAnswer W q) ret m nP.
Proof.
  intros SM KP CV q RS leaves root FL HM Hm OP. pose proof Hnn as Hn. change (h_n L) with n in Hn.
  destruct (c10_frontier n Hn) as (fr & EF & _).
  destruct (run_fst q) as (s' & evs & ER).
  refine (exchange f hs W HF Hf Hsmall Hpos q _ s' evs ret m nP fr ER _ (proj1 KP) EF _ leaves root FL HM Hm OP).
  - unfold q in ER. rewrite run_bind in ER.
    destruct (pre_run L (updateView c now n (option_map fst m)) tracker0 _ 0 (pre_updateView L c Hn now (option_map fst m) tracker0)) as (r1 & s1 & e1 & tr & E1 & S1 & Q1).
    change (h_n L) with n in E1. rewrite E1 in ER. destruct r1 as [u|e|e|]; cbn in ER.
    + destruct (run (honest L) p s1) as [[r2 s2] e2] eqn:E2. injection ER as _ _ <-. apply S1. rewrite Q1. eapply SM. exact E2.
    + injection ER as _ _ <-. specialize (S1 [] I). now rewrite app_nil_r in S1.
    + injection ER as _ _ <-. specialize (S1 [] I). now rewrite app_nil_r in S1.
    + injection ER as _ _ <-. specialize (S1 [] I). now rewrite app_nil_r in S1.
  - assert (Hm' : match option_map fst m with Some k => 1 <= k <= n | None => True end) by (destruct m as [[k old]|]; cbn; auto; tauto).
    intros x Hx. unfold q in ER. rewrite run_bind in ER. destruct (run (honest L) (updateView c now n (option_map fst m)) 0) as [[r1 s1] e1] eqn:E1.
    assert (AdvCase : advances n (option_map fst m) -> In x (map fst ret) \/ touched e1 x).
    { intros AD. eapply view_covers; eauto. }
    assert (Sub : forall y, touched e1 y -> touched evs y).
    { intros y T. destruct r1 as [u|e|e|]; cbn in ER; [destruct (run (honest L) p s1) as [[r2 s2] e2]|..]; injection ER as _ _ <-; auto. apply touched_app. auto. }
    destruct CV as [AD|CV]; [destruct (AdvCase AD) as [H|H]; [auto|right; apply Sub, H]|].
    destruct RS as [AD|[a RS]]; [destruct (AdvCase AD) as [H|H]; [auto|right; apply Sub, H]|].
    fold q in ER. rewrite RS in ER. destruct r1 as [u|e|e|]; cbn in ER; try discriminate.
    destruct (run (honest L) p s1) as [[r2 s2] e2] eqn:E2. cbn in ER. injection ER as -> <- <-. right. apply touched_app. right. eapply CV; eauto.
Qed.

Lemma pre_smooth {A} (p : prog A) Q : pre L p tracker0 Q -> forall s r s' evs, run (honest L) p s = (r, s', evs) -> smooth L tracker0 evs.
Proof.
  intros P s r s' evs E. destruct (pre_run L p tracker0 Q s P) as (r1 & s1 & e1 & tr & E1 & S1 & _). rewrite E in E1. injection E1 as <- <- <-.
  specialize (S1 [] I). now rewrite app_nil_r in S1.
Qed.

Lemma HLog : okLog L.
Proof. exact (proj1 HF). Qed.

Theorem c66_greatest ver ret m nP : ver < 2 ^ 31 - 1 -> keeps W (option_map fst m) ret ->
  let p := pbind (updateView c now n (option_map fst m)) (fun _ => greatestVersionSearch c ver n) in
  advances n (option_map fst m) \/ (exists a, honestAnswer W p = Ok a) ->
  convincing f hs W p (honestAnswer W p) ret m nP.
Proof.
  intros Hv KP p HA. apply convince; auto.
  - apply (pre_smooth _ _ (pre_greatest L HLog c Hnn ver Hv)).
  - right. intros fr s a s' evs EF ER. pose proof (run_greatest L c Hnn ver s fr EF) as H. change (h_n L) with n in H. rewrite ER in H. exact H.
Qed.

Theorem c66_fixed ver ret m nP : ver < 2 ^ 31 - 1 -> keeps W (option_map fst m) ret -> advances n (option_map fst m) ->
  let p := pbind (updateView c now n (option_map fst m)) (fun _ => fixedVersionSearch c ver n) in
  convincing f hs W p (honestAnswer W p) ret m nP.
Proof.
  intros Hv KP HA p. apply convince; auto. apply (pre_smooth _ _ (pre_fixed L HLog c Hnn ver Hv)).
Qed.

Theorem c66_contact mo ret m nP : mo_size mo = n ->
  (forall ptrs x v, mo_contact mo = Some ptrs -> mget ptrs x = Some v -> x < n /\ (Z.of_N v <= h_g L x)%Z) ->
  keeps W (option_map fst m) ret -> advances n (option_map fst m) ->
  let p := pbind (updateView c now n (option_map fst m)) (fun _ => contactMonitor c mo) in
  convincing f hs W p (honestAnswer W p) ret m nP.
Proof.
  intros Em HC KP HA p. apply convince; auto. apply (pre_smooth _ _ (pre_contact L HLog c Hnn mo tracker0 Em HC)).
Qed.

Theorem c66_init mo starting vers ret m nP : mo_size mo = n -> Forall (fun v => v < 2 ^ 31 - 1) vers ->
  keeps W (option_map fst m) ret -> advances n (option_map fst m) ->
  let p := pbind (updateView c now n (option_map fst m)) (fun _ => ownerInit c mo starting vers) in
  convincing f hs W p (honestAnswer W p) ret m nP.
Proof.
  intros Em HV KP HA p. apply convince; auto. apply (pre_smooth _ _ (pre_ownerInit L c Hnn mo starting vers tracker0 Em HV)).
Qed.

Lemma sorted_app (l1 l2 : list N) : StronglySorted N.le (l1 ++ l2) -> StronglySorted N.le l1 /\ StronglySorted N.le l2.
Proof.
  induction l1 as [|x l1 IH]; cbn; intros H; [split; [constructor|auto]|]. apply StronglySorted_inv in H as [H F]. apply Forall_app in F as [F1 _].
  destruct (IH H). split; auto. constructor; auto.
Qed.

Lemma countLe_zero x l : countLe x l = 0%nat <-> Forall (fun p => x < p) l.
Proof.
  unfold countLe. induction l as [|y l IH]; cbn; [split; auto|]. destruct (N.leb_spec y x); cbn.
  - split; [discriminate|]. intros F. inversion F. lia.
  - rewrite IH. split; [constructor; auto|intros F; now inversion F].
Qed.

Theorem c66_owner mo os known later ret m nP : mo_size mo = n -> mo_owner mo = Some os -> w_index W = known ++ later -> tracks known os ->
  keeps W (option_map fst m) ret -> advances n (option_map fst m) ->
  let p := pbind (updateView c now n (option_map fst m)) (fun _ => ownerMonitor c mo) in
  convincing f hs W p (honestAnswer W p) ret m nP.
Proof.
  intros Em Eo EI TK KP HA p. assert (SS : StronglySorted N.le (w_index W)) by apply HF. rewrite EI in SS. destruct (sorted_app _ _ SS) as [S1 S2].
  apply convince; auto. intros s r s' evs ER.
  assert (Hle : forall x, x < h_n L -> (ver known x <= h_g L x)%Z).
  { intros x _. unfold ver. cbn. rewrite EI, countLe_app. lia. }
  assert (Hlt : forall x y, x <= y < h_n L -> (ver known x < h_g L x)%Z -> (ver known y < h_g L y)%Z).
  { intros x y Hxy. unfold ver. cbn. rewrite EI, !countLe_app. intros H. assert (countLe y later <> 0%nat); [|lia]. intros Z.
    assert (countLe x later = 0%nat); [|lia]. apply countLe_zero in Z. apply countLe_zero. eapply Forall_impl; [|exact Z]. cbn. lia. }
  destruct (om_smooth L HLog c Hnn known S1 Hle Hlt mo os s Em Eo TK) as (r1 & s1 & e1 & E1 & SM). rewrite ER in E1. injection E1 as <- <- <-. apply SM.
Qed.

Lemma countLe_all x l : Forall (fun p => p <= x) l -> countLe x l = List.length l.
Proof. unfold countLe. induction 1 as [|y l H F IH]; auto. cbn. rewrite (proj2 (N.leb_le _ _) H). cbn. auto. Qed.

Lemma sorted_le_last (l : list N) : StronglySorted N.le l -> Forall (fun p => p <= List.last l 0) l.
Proof.
  induction 1 as [|x l H IH F]; constructor.
  - destruct l as [|y l]; [cbn; lia|]. rewrite Forall_forall in F. apply F. apply (last_In (y :: l) 0). discriminate.
  - destruct l as [|y l]; [constructor|]. exact IH.
Qed.

Theorem c66_update mo os known k later pos ret m nP : mo_size mo = n -> mo_owner mo = Some os ->
  w_index W = known ++ repeat pos k ++ later -> Forall (fun p => pos < p) later -> tracks known os ->
  (List.length (additionalOf os (Z.of_nat k)) <= 1)%nat ->
  keeps W (option_map fst m) ret -> advances n (option_map fst m) ->
  let p := pbind (updateView c now n (option_map fst m)) (fun _ => update c mo pos (Z.of_nat k)) in
  convincing f hs W p (honestAnswer W p) ret m nP.
Proof.
  intros Em Eo EI Fl TK HA KP AD p. assert (SS : StronglySorted N.le (w_index W)) by apply HF. rewrite EI in SS. destruct (sorted_app _ _ SS) as [S1 S2].
  pose proof (tracks_greatest known os TK) as EG. pose proof (tracks_last known os S1 TK) as EL.
  assert (KL : forall x, lastUpdate os < x -> countLe x known = List.length known).
  { intros x Hx. apply countLe_all. eapply Forall_impl; [|apply sorted_le_last; exact S1]. cbn. lia. }
  apply convince; auto. apply (pre_smooth _ (fun _ _ => True)).
  destruct (N.lt_ge_cases (lastUpdate os) pos) as [Lt|Ge].
  - apply (pre_update L HLog c Hnn mo os pos (Z.of_nat k) Em Eo); [lia| | |exact HA].
    + intros x Hx. cbn. rewrite EI, !countLe_app, KL by lia.
      replace (countLe x (repeat pos k)) with 0%nat by (symmetry; apply countLe_zero, Forall_forall; intros y I; apply repeat_spec in I; lia).
      replace (countLe x later) with 0%nat by (symmetry; apply countLe_zero; eapply Forall_impl; [|exact Fl]; cbn; lia). lia.
    + intros _. cbn. rewrite EI, !countLe_app, KL by lia. rewrite (countLe_all pos (repeat pos k)) by (apply Forall_forall; intros y I; apply repeat_spec in I; lia).
      replace (countLe pos later) with 0%nat by (symmetry; apply countLe_zero; exact Fl). rewrite repeat_length. lia.
  - unfold update. rewrite Eo. destruct (_ <=? _); [exact I|]. rewrite (proj2 (N.leb_le _ _) Ge). exact I.
Qed.

End Fin.
