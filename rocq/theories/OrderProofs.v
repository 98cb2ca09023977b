(** Proofs for C96 and C97. *)
From Coq Require Import Permutation.
From Verif Require Import Base BaseProofs LogTreeModel LogTreeSpec TransMathModel TransMathSpec TransMathProofs TransMathProofs2 PrefixModel CodecModel CodecSpec AlgModel AlgProofs4 HandleModel StoreModel StoreProofs ServerModel ClientModel ClientProofs
  CalmSpec CalmProofs CalmProofs2 CalmProofs3 CalmProofs4 GuardProofs4 GuardProofs5 GuardProofs6 OrderSpec.
Open Scope N_scope.
Local Open Scope list_scope.

(** [y] is reached from [x] by steps to the nearest ancestor on the right. *)
Inductive up (n : N) : N -> N -> Prop :=
| up_here x : up n x x
| up_more x p t y : rightDirectPath x n = Ok (p :: t) -> up n p y -> up n x y.

Lemma path_right x n d : rightDirectPath x n = Ok d -> Forall (fun y => x < y) d.
Proof.
  unfold rightDirectPath. generalize (troot n) as r, x at 1. generalize 66%nat as fuel. revert d. intros d fuel. revert d.
  induction fuel as [|f IH]; intros d r y E; [discriminate|]. cbn [rightDirectPath_loop] in E. destruct (y =? r); [injection E as <-; constructor|].
  apply bind_ok in E as (y' & _ & E). apply bind_ok in E as (d' & Q & E). apply IH in Q. injection E as <-.
  destruct (N.ltb_spec x y'); [constructor; auto|exact Q].
Qed.

Lemma up_spec n x y : 1 <= n < 2 ^ 64 -> x < n -> up n x y -> y = x \/ x < y /\ sanc n x y.
Proof.
  intros Hn Hx U. revert Hx. induction U as [x|x p t y E U IH]; intro Hx; [now left|]. right.
  destruct (c11_right n x) as (d & E' & M & _); [exact Hn|exact Hx|]. rewrite E in E'. injection E' as <-.
  destruct (proj1 (M p) (or_introl eq_refl)) as [S L].
  assert (Hp : p < n) by (apply (sanc_anc _ x _) in S; [apply S|unfold two64; change (2 ^ 64) with 18446744073709551616 in Hn; lia|exact Hx]).
  destruct (IH Hp) as [->|[L' S']]; [auto|]. split; [lia|]. exact (sanc_trans n x p y Hn S S').
Qed.

Lemma mget_mdel (m : list (N * N)) x y : mget (mdel m x) y = if y =? x then None else mget m y.
Proof.
  induction m as [|[k v] t IH]; [now destruct (y =? x)|]. unfold mdel in *. cbn [filter fst mget]. destruct (N.eqb_spec k x) as [->|Nk]; cbn [negb].
  - rewrite IH. destruct (y =? x); reflexivity.
  - cbn [mget]. rewrite IH. destruct (N.eqb_spec y k) as [->|]; [|reflexivity]. destruct (N.eqb_spec k x); [contradiction|reflexivity].
Qed.

(** [m'] is what remains of [m]. *)
Definition remains (n : N) (m m' : list (N * N)) : Prop :=
  (forall x v, mget m' x = Some v -> mget m x = Some v) /\
  forall x v, mget m x = Some v -> exists y v', up n x y /\ mget m' y = Some v' /\ v <= v'.
Lemma remains_refl n m : remains n m m.
Proof. split; [auto|]. intros x v E. exists x, v. split; [constructor|]. split; [exact E|lia]. Qed.
Lemma up_trans n x y z : up n x y -> up n y z -> up n x z.
Proof. intro U. revert z. induction U; intros z V; [exact V|]. econstructor; eauto. Qed.
Lemma remains_trans n a b d : remains n a b -> remains n b d -> remains n a d.
Proof.
  intros [A1 A2] [B1 B2]. split; [auto|]. intros x v E. destruct (A2 x v E) as (y & w & U & G & L). destruct (B2 y w G) as (z & u & U' & G' & L').
  exists z, u. split; [eapply up_trans; eauto|]. split; [exact G'|lia].
Qed.

Lemma round_remains n xs : forall m md m' md', simplifyRound n xs m md = Ok (m', md') -> remains n m m'.
Proof.
  induction xs as [|x t IH]; intros m md m' md' E; cbn [simplifyRound] in E; [injection E as <- <-; apply remains_refl|].
  destruct (mget m x) as [ver|] eqn:G; [|eauto]. apply bind_ok in E as (path & P & E). destruct path as [|p path]; [eauto|].
  destruct (mget m p) as [par|] eqn:Gp; [|eauto]. destruct (N.ltb_spec par ver); [eauto|]. eapply remains_trans; [|eapply IH; exact E].
  pose proof (path_right _ _ _ P) as F. inversion F as [|? ? Lp _]; subst. split.
  - intros y v Q. rewrite mget_mdel in Q. destruct (y =? x); [discriminate|exact Q].
  - intros y v Q. destruct (N.eqb_spec y x) as [->|Ny].
    + rewrite G in Q. injection Q as <-. exists p, par. split; [econstructor; [exact P|constructor]|]. rewrite mget_mdel. destruct (N.eqb_spec p x); [lia|]. split; [exact Gp|lia].
    + exists y, v. split; [constructor|]. rewrite mget_mdel. destruct (N.eqb_spec y x); [contradiction|]. split; [exact Q|lia].
Qed.
Lemma loop_remains n visit fuel : forall i m m', simplifyLoop fuel visit i n m = Ok m' -> remains n m m'.
Proof.
  induction fuel as [|f IH]; intros i m m' E; [discriminate|]. cbn [simplifyLoop] in E. apply bind_ok in E as ([m1 md] & R & E). apply round_remains in R.
  destruct md; [|injection E as <-; exact R]. eapply remains_trans; [exact R|eauto].
Qed.

Lemma setPath_keeps path ver : forall m x m' x', setPath path ver m x = (m', x') ->
  (forall y v, mget m y = Some v -> exists v', mget m' y = Some v' /\ v <= v') /\
  (forall y v, mget m' y = Some v -> mget m y = Some v \/ (In y path /\ v = ver)) /\
  match path with [] => True | y :: _ => exists v', mget m' y = Some v' /\ ver <= v' end.
Proof.
  induction path as [|p t IH]; intros m x m' x' E; cbn [setPath] in E.
  - injection E as <- <-. split; [intros y v Q; exists v; split; [exact Q|lia]|]. split; [auto|exact I].
  - destruct (mget m p) as [w|] eqn:G.
    + destruct (N.ltb_spec ver w).
      * injection E as <- <-. split; [intros y v Q; exists v; split; [exact Q|lia]|]. split; [auto|]. exists w. split; [exact G|lia].
      * destruct (IH _ _ _ _ E) as (A & B & _). split; [|split].
        -- intros y v Q. destruct (N.eqb_spec y p) as [->|Ny].
           ++ rewrite G in Q. injection Q as <-. destruct (A p ver (mget_mput_eq _ _ _)) as (v' & V & L). exists v'. split; [exact V|lia].
           ++ apply A. rewrite mget_mput_neq; [exact Q|congruence].
        -- intros y v Q. destruct (B y v Q) as [Q'|[I ->]]; [|right; split; [now right|reflexivity]]. destruct (N.eqb_spec y p) as [->|Ny].
           ++ rewrite mget_mput_eq in Q'. injection Q' as <-. right. split; [now left|reflexivity].
           ++ rewrite mget_mput_neq in Q' by congruence. now left.
        -- exact (A p ver (mget_mput_eq _ _ _)).
    + destruct (IH _ _ _ _ E) as (A & B & _). split; [|split].
        -- intros y v Q. destruct (N.eqb_spec y p) as [->|Ny]; [congruence|]. apply A. rewrite mget_mput_neq; [exact Q|congruence].
        -- intros y v Q. destruct (B y v Q) as [Q'|[I ->]]; [|right; split; [now right|reflexivity]]. destruct (N.eqb_spec y p) as [->|Ny].
           ++ rewrite mget_mput_eq in Q'. injection Q' as <-. right. split; [now left|reflexivity].
           ++ rewrite mget_mput_neq in Q' by congruence. now left.
        -- exact (A p ver (mget_mput_eq _ _ _)).
Qed.

Lemma update_keeps visit es x n ver es' x' : 1 <= n < 2 ^ 64 -> x < n -> NoDup (map fst es) -> updateContactState visit es x n ver = Ok (es', x') ->
  lookedFor n es' x ver /\
  (forall y v, In (y, v) es -> y < n -> lookedFor n es' y v) /\
  (forall y v, In (y, v) es' -> In (y, v) es \/ (v = ver /\ (y = x \/ x < y /\ sanc n x y))).
Proof.
  intros Hn Hx ND E. unfold updateContactState in E. destruct (c11_right n x Hn Hx) as (path & P & Mp & _). rewrite P in E. cbn [bind] in E.
  destruct (setPath (x :: path) ver (contactPtrs es) x) as [m t] eqn:S. apply bind_ok in E as (m' & R & E). apply bind_ok in E as (es1 & C & E). injection E as <- <-.
  unfold simplifyMonitoringMap in R. apply loop_remains in R as [R1 R2]. apply setPath_keeps in S as (S1 & S2 & (w & S3 & S4)).
  assert (G : forall y v, mget m' y = Some v <-> In (y, v) es1).
  { intros y v. rewrite (contactStruct_in _ _ C). split; [eauto|]. intros (q & [= <-] & Q). exact Q. }
  assert (K : forall y v w, y < n -> mget m y = Some w -> v <= w -> lookedFor n es1 y v).
  { intros y v u Hy Q L. destruct (R2 y u Q) as (z & u' & U & Z & L'). exists z, u'. split; [apply G; exact Z|]. split; [apply up_spec; auto|lia]. }
  split; [eapply K; eauto|]. split.
  - intros y v I Hy. apply (GuardProofs4.contactPtrs_in 0 (fun b => (b, b)) [] (fun _ _ => True) es ND) in I. destruct (S1 y v I) as (u & Q & L). eapply K; eauto.
  - intros y v I. apply G, R1, S2 in I. destruct I as [I|[[<-|I] ->]]; [left; apply (GuardProofs4.contactPtrs_in 0 (fun b => (b, b)) [] (fun _ _ => True) es ND); exact I|right; auto|].
    right. split; [reflexivity|]. right. apply Mp in I. tauto.
Qed.

Section Client.
Variable H : bytes -> option bytes.
Variable hs : N.
Variable c : pubConfig.
Variable now : N.
Variable vrfVerify : bytes -> bytes -> option bytes.
Variable sigVerify leafVerify audVerify : bytes -> bytes -> bool.

(** What the order decides. *)
Lemma update_position visit visit' es x n ver r r' : updateContactState visit es x n ver = Ok r -> updateContactState visit' es x n ver = Ok r' -> snd r = snd r'.
Proof.
  unfold updateContactState. intros E E'. apply bind_ok in E as (p & P & E). rewrite P in E'. cbn [bind] in E'. destruct (setPath _ _ _ _) as [m t].
  apply bind_ok in E as (m1 & _ & E). apply bind_ok in E as (e1 & _ & E). apply bind_ok in E' as (m2 & _ & E'). apply bind_ok in E' as (e2 & _ & E'). injection E as <-. injection E' as <-. reflexivity.
Qed.

Lemma putLabel_parts k s l ls t k' : putLabelState k s l ls t = Ok k' ->
  (exists raw, clientStateMarshal s (cs_entries s) = Ok raw /\ k_state k' = Some raw) /\
  ((cl_contact ls = [] /\ cl_owner ls = None /\ k_labels k' = bdel (k_labels k) l) \/
   exists raw, labelStateMarshal ls = Ok raw /\ k_labels k' = bput (k_labels k) l (raw, t)).
Proof.
  unfold putLabelState. intro E. apply bind_ok in E as (raw & S & E).
  destruct (cl_contact ls) eqn:C, (cl_owner ls) eqn:O; try (apply bind_ok in E as (rl & L & E)); injection E as <-; cbn [k_state k_labels]; split; eauto.
Qed.
Lemma putState_parts k s k' : putState k s = Ok k' -> k_labels k' = k_labels k /\ exists raw, clientStateMarshal s (cs_entries s) = Ok raw /\ k_state k' = Some raw.
Proof. unfold putState. intro E. apply bind_ok in E as (raw & S & E). injection E as <-. eauto. Qed.
Lemma retained_parts contact owner vm ls : updateRetainedVersions contact owner vm = Ok ls -> cl_contact ls = contact /\ cl_owner ls = owner.
Proof. unfold updateRetainedVersions. intro E. do 3 (apply bind_ok in E as (? & _ & E)). injection E as <-. auto. Qed.

Lemma search_kept visit k st req resp k' : hs = N.of_nat (pc_hs c) -> (255 <= 8 * pc_hs c)%nat -> usableState st -> sq_last req = getLast (Some st) -> okSearchResponse c (sq_version req) resp ->
  optok smallVersion (sq_version req) -> optok smallVersion (sr_version resp) ->
  clientSearch H hs c now vrfVerify sigVerify leafVerify audVerify visit k (Some st) req resp = Ok k' ->
  exists v ver x, checkSearch H hs c now vrfVerify leafVerify (Some st) req resp = Ok (v, ver, x) /\
  ((k_labels k' = k_labels k /\ (pc_mode c <> ContactMonitoring \/ exists d v', execV H hs (rightmostDistinguished c (v_n v)) v = Ok (Some d, v') /\ x <= d)) \/
   (pc_mode c = ContactMonitoring /\ forall d v', execV H hs (rightmostDistinguished c (v_n v)) v = Ok (Some d, v') -> d < x) /\
   exists ls ls' raw pos, getLabelState hs k (sq_label req) = Ok ls /\ labelStateMarshal ls' = Ok raw /\ bget (k_labels k') (sq_label req) = Some (raw, pos) /\
     (forall l, l <> sq_label req -> bget (k_labels k') l = bget (k_labels k) l) /\ cl_owner ls' = cl_owner ls /\
     (NoDup (map fst (cl_contact ls)) ->
      lookedFor (v_n v) (cl_contact ls') x ver /\
      (forall y u, In (y, u) (cl_contact ls) -> y < v_n v -> lookedFor (v_n v) (cl_contact ls') y u) /\
      (forall y u, In (y, u) (cl_contact ls') -> In (y, u) (cl_contact ls) \/ (u = ver /\ (y = x \/ x < y /\ sanc (v_n v) x y))))).
Proof.
  intros Hhs Hc [U1 U2] El Or S1 S2 E. unfold clientSearch in E. apply bind_ok in E as ([[v ver] x] & C & E). exists v, ver, x. split; [exact C|].
  assert (B : v_n v < 2 ^ 64 /\ x < v_n v).
  { pose proof (checkSearch_nice H hs c now vrfVerify sigVerify leafVerify audVerify Hhs Hc (Some st) req resp Or) as B. rewrite C in B. cbn [nice] in B. rewrite El in B.
    destruct B as (UV & _ & Bx); auto; [intros kk [= <-]; unfold two64 in U2; change (2 ^ 64) with 18446744073709551616; lia|]. split; [apply UV|exact Bx]. }
  apply bind_ok in E as (s & F & E). destruct (negb _) eqn:Mo; [left; split; [apply (putState_parts _ _ _ E)|left; now apply negb_true_iff, N.eqb_neq in Mo]|].
  apply negb_false_iff, N.eqb_eq in Mo. apply bind_ok in E as ([d v'] & X & E).
  assert (Nv : v_n v' = v_n v) by (unfold execV in X; apply bind_ok in X as (a & _ & X); injection X as _ <-; reflexivity).
  destruct (match d with Some _ => _ | None => _ end) eqn:Dx.
  { left. split; [apply (putState_parts _ _ _ E)|right]. destruct d as [d|]; [|discriminate]. exists d, v'. split; [exact X|]. now apply N.leb_le in Dx. }
  assert (Side : pc_mode c = ContactMonitoring /\ forall d v', execV H hs (rightmostDistinguished c (v_n v)) v = Ok (Some d, v') -> d < x).
  { split; [exact Mo|]. intros d0 v0 X0. rewrite X in X0. injection X0 as -> _. now apply N.leb_gt in Dx. }
  apply bind_ok in E as (ls & L & E). apply bind_ok in E as (v1 & _ & E). apply bind_ok in E as ([contact t] & UC & E). apply bind_ok in E as (ls' & UR & E).
  apply retained_parts in UR as [Rc Ro]. rewrite Nv in UC. destruct B as [B1 B2].
  assert (W : NoDup (map fst (cl_contact ls)) -> lookedFor (v_n v) (cl_contact ls') x ver /\
      (forall y u, In (y, u) (cl_contact ls) -> y < v_n v -> lookedFor (v_n v) (cl_contact ls') y u) /\
      (forall y u, In (y, u) (cl_contact ls') -> In (y, u) (cl_contact ls) \/ (u = ver /\ (y = x \/ x < y /\ sanc (v_n v) x y)))).
  { intro ND. rewrite Rc. apply (update_keeps visit _ x (v_n v) ver contact t); auto. lia. }
  apply putLabel_parts in E as [_ [(Z & _ & K)|(raw & M & K)]].
  - exfalso. rewrite Rc in Z. subst contact. unfold updateContactState in UC. destruct (c11_right (v_n v) x) as (path & P & _); [unfold ok64; lia|exact B2|]. rewrite P in UC. cbn [bind] in UC.
    destruct (setPath _ _ _ _) as [m t'] eqn:S. apply setPath_keeps in S as (_ & _ & (w & S3 & _)). apply bind_ok in UC as (m' & R & UC). apply bind_ok in UC as (es1 & Cs & UC). injection UC as -> _.
    unfold simplifyMonitoringMap in R. apply loop_remains in R as [_ R2]. destruct (R2 _ _ S3) as (y & w' & _ & G & _).
    assert (I : In (y, w') (cl_contact ls')) by (apply (contactStruct_in _ _ Cs); eauto). rewrite Z in I. destruct I.
  - right. split; [exact Side|]. exists ls, ls', raw, t. split; [exact L|]. split; [exact M|]. rewrite K. split; [rewrite bget_bput, bytes_eqb_refl; reflexivity|]. split; [|auto]. intros l Hl. rewrite bget_bput. destruct (bytes_eqb l (sq_label req)) eqn:Eq; [|reflexivity]. apply bytes_eqb_eq in Eq. contradiction.
Qed.

Lemma search_orders visit visit' k st req resp k1 k2 :
  clientSearch H hs c now vrfVerify sigVerify leafVerify audVerify visit k st req resp = Ok k1 ->
  clientSearch H hs c now vrfVerify sigVerify leafVerify audVerify visit' k st req resp = Ok k2 ->
  k_state k1 = k_state k2 /\ (forall l, l <> sq_label req -> bget (k_labels k1) l = bget (k_labels k2) l) /\
  (forall raw pos raw' pos', bget (k_labels k1) (sq_label req) = Some (raw, pos) -> bget (k_labels k2) (sq_label req) = Some (raw', pos') -> pos = pos').
Proof.
  unfold clientSearch. intros E E'. apply bind_ok in E as ([[v ver] x] & C & E). rewrite C in E'. cbn [bind] in E'. apply bind_ok in E as (s & F & E). rewrite F in E'. cbn [bind] in E'.
  assert (P : forall a b, putState k s = Ok a -> putState k s = Ok b -> k_state a = k_state b /\ (forall l, l <> sq_label req -> bget (k_labels a) l = bget (k_labels b) l) /\
    (forall raw pos raw' pos', bget (k_labels a) (sq_label req) = Some (raw, pos) -> bget (k_labels b) (sq_label req) = Some (raw', pos') -> pos = pos')).
  { intros a b A B. rewrite A in B. injection B as <-. split; [reflexivity|]. split; [reflexivity|]. intros. congruence. }
  destruct (negb _); [apply P; auto|].
  apply bind_ok in E as ([d v'] & X & E). rewrite X in E'. cbn [bind] in E'. destruct (match d with Some _ => _ | None => _ end); [apply P; auto|].
  apply bind_ok in E as (ls & L & E). rewrite L in E'. cbn [bind] in E'. apply bind_ok in E as (v1 & V & E). rewrite V in E'. cbn [bind] in E'.
  apply bind_ok in E as (r & R & E). apply bind_ok in E' as (r' & R' & E'). pose proof (update_position _ _ _ _ _ _ _ _ R R') as Q. destruct r as [e t], r' as [e' t']. cbn [snd] in Q. subst t'.
  apply bind_ok in E as (l1 & _ & E). apply bind_ok in E' as (l2 & _ & E'). apply putLabel_parts in E as [(r1 & M1 & ->) E]. apply putLabel_parts in E' as [(r2 & M2 & ->) E'].
  split; [congruence|].
  assert (Bd : forall l, bget (bdel (k_labels k) (sq_label req)) l = if bytes_eqb l (sq_label req) then None else bget (k_labels k) l) by (intro; apply bget_bdel).
  destruct E as [(_ & _ & ->)|(r3 & _ & ->)], E' as [(_ & _ & ->)|(r4 & _ & ->)]; (split; [intros l Hl|intros a p a' p']); rewrite ?Bd, ?bget_bput, ?bytes_eqb_refl; try congruence;
    destruct (bytes_eqb l (sq_label req)) eqn:Eq; try reflexivity; apply bytes_eqb_eq in Eq; contradiction.
Qed.
End Client.
