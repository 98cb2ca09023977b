(** Lemmas: canonical tries; [addRemove] updates the trie a node represents. *)
From Verif Require Import Base BaseProofs LogTreeSpec PrefixModel PrefixSpec PrefixProofs.
From Coq Require Import Sorting.Permutation Sorting.Sorted.

(** ** Canonical tries *)

Lemma Canon_In hs p t : Canon hs p t -> forall x, In x (contents t) ->
  List.length (fst x) = hs /\ List.length (snd x) = hs /\ prefixOf p (bits (fst x)).
Proof.
  revert p. induction t as [|k c|l IHl r IHr]; intros p C x I; cbn in *; [contradiction| |].
  - destruct I as [<-|[]]. exact C.
  - destruct C as [Cl [Cr _]]. apply in_app_or in I. destruct I as [I|I].
    + destruct (IHl _ Cl x I) as [A [B D]]. repeat split; auto. apply prefixOf_shorter in D. exact D.
    + destruct (IHr _ Cr x I) as [A [B D]]. repeat split; auto. apply prefixOf_shorter in D. exact D.
Qed.

Lemma Canon_TN_depth hs p l r : Canon hs p (TN l r) -> (List.length p < 8 * hs)%nat.
Proof.
  intros C. pose proof C as [Cl [Cr Cn]]. cbn in Cn.
  destruct (contents l ++ contents r) as [|x rest] eqn:E; [cbn in Cn; lia|].
  assert (I : In x (contents l ++ contents r)) by (rewrite E; left; reflexivity).
  apply in_app_or in I. destruct I as [I|I].
  - destruct (Canon_In _ _ _ Cl x I) as [A [_ P]]. apply prefixOf_len in P. rewrite bits_len, app_length in P. cbn in P. lia.
  - destruct (Canon_In _ _ _ Cr x I) as [A [_ P]]. apply prefixOf_len in P. rewrite bits_len, app_length in P. cbn in P. lia.
Qed.

Lemma Canon_NoDup hs p t : Canon hs p t -> NoDup (map fst (contents t)).
Proof.
  revert p. induction t as [|k c|l IHl r IHr]; intros p C; cbn in *; [constructor|repeat constructor; auto|].
  destruct C as [Cl [Cr _]]. rewrite map_app.
  assert (D : forall k, In k (map fst (contents l)) -> ~ In k (map fst (contents r))).
  { intros k I J. apply in_map_iff in I. destruct I as [x [<- I]]. apply in_map_iff in J. destruct J as [y [E J]].
    destruct (Canon_In _ _ _ Cl x I) as [_ [_ P]]. destruct (Canon_In _ _ _ Cr y J) as [_ [_ Q]].
    rewrite E in Q. apply prefix_bit_inv in P. apply prefix_bit_inv in Q. congruence. }
  specialize (IHl _ Cl). specialize (IHr _ Cr).
  revert IHl D. generalize (map fst (contents l)) as a. intro a.
  induction a as [|k a IH]; intros N D; cbn; [exact IHr|]. inversion N; subst. constructor.
  - intro I. apply in_app_or in I. destruct I as [I|I]; [contradiction|]. apply (D k (or_introl eq_refl) I).
  - apply IH; auto. intros k' I. apply D. right. exact I.
Qed.

Lemma two_members {A} (l : list A) x y : x <> y -> In x l -> In y l -> (2 <= List.length l)%nat.
Proof.
  intros N I J. destruct l as [|a [|b l]]; cbn in *; try tauto; [|lia].
  destruct I as [<-|[]]. destruct J as [<-|[]]. congruence.
Qed.

Lemma NoDup_two {A} (l : list A) : NoDup l -> (2 <= List.length l)%nat -> exists x y, x <> y /\ In x l /\ In y l.
Proof.
  intros N L. destruct l as [|a [|b l]]; cbn in L; try lia. exists a, b. inversion N; subst.
  repeat split; [intros ->; apply H1; left; reflexivity|left; reflexivity|right; left; reflexivity].
Qed.

Lemma Canon_two hs p l r : Canon hs p (TN l r) -> exists x y, fst x <> fst y /\ In x (contents (TN l r)) /\ In y (contents (TN l r)).
Proof.
  intros C. pose proof (Canon_NoDup _ _ _ C) as N. destruct C as [_ [_ L]].
  destruct (NoDup_two _ N) as [a [b [D [I J]]]].
  { rewrite map_length. exact L. }
  apply in_map_iff in I. destruct I as [x [<- I]]. apply in_map_iff in J. destruct J as [y [<- J]]. eauto.
Qed.

Lemma Canon_bit hs p l r x : Canon hs p (TN l r) -> In x (contents (TN l r)) ->
  In x (contents (if bitAt (fst x) (List.length p) then r else l)).
Proof.
  intros [Cl [Cr _]] I. cbn in I. apply in_app_or in I. destruct I as [I|I].
  - destruct (Canon_In _ _ _ Cl x I) as [_ [_ P]]. rewrite (prefix_bit_inv _ _ _ P). exact I.
  - destruct (Canon_In _ _ _ Cr x I) as [_ [_ P]]. rewrite (prefix_bit_inv _ _ _ P). exact I.
Qed.

(** The canonical trie is determined by its contents. *)
Lemma Canon_unique hs t1 : forall p t2, Canon hs p t1 -> Canon hs p t2 ->
  (forall x, In x (contents t1) <-> In x (contents t2)) -> t1 = t2.
Proof.
  induction t1 as [|k c|l IHl r IHr]; intros p t2 C1 C2 E.
  - destruct t2 as [|k c|l r]; [reflexivity| |].
    + exfalso. apply (E (k, c)). left. reflexivity.
    + destruct (Canon_two _ _ _ _ C2) as [x [_ [_ [I _]]]]. exfalso. apply (E x). exact I.
  - destruct t2 as [|k' c'|l r].
    + exfalso. apply (E (k, c)). left. reflexivity.
    + assert (I : In (k, c) (contents (TL k' c'))) by (apply E; left; reflexivity).
      destruct I as [I|[]]. injection I as -> ->. reflexivity.
    + destruct (Canon_two _ _ _ _ C2) as [x [y [D [I J]]]]. apply E in I. apply E in J.
      destruct I as [<-|[]]. destruct J as [<-|[]]. congruence.
  - destruct t2 as [|k' c'|l' r'].
    + destruct (Canon_two _ _ _ _ C1) as [x [_ [_ [I _]]]]. exfalso. apply (E x). exact I.
    + destruct (Canon_two _ _ _ _ C1) as [x [y [D [I J]]]]. apply E in I. apply E in J.
      destruct I as [<-|[]]. destruct J as [<-|[]]. congruence.
    + pose proof C1 as [Cl [Cr _]]. pose proof C2 as [Cl' [Cr' _]]. f_equal.
      * apply (IHl _ _ Cl Cl'). intro x. split; intro I.
        -- assert (J : In x (contents (TN l' r'))) by (apply E; cbn; apply in_or_app; left; exact I).
           apply (Canon_bit _ _ _ _ _ C2) in J. destruct (Canon_In _ _ _ Cl x I) as [_ [_ P]].
           rewrite (prefix_bit_inv _ _ _ P) in J. exact J.
        -- assert (J : In x (contents (TN l r))) by (apply E; cbn; apply in_or_app; left; exact I).
           apply (Canon_bit _ _ _ _ _ C1) in J. destruct (Canon_In _ _ _ Cl' x I) as [_ [_ P]].
           rewrite (prefix_bit_inv _ _ _ P) in J. exact J.
      * apply (IHr _ _ Cr Cr'). intro x. split; intro I.
        -- assert (J : In x (contents (TN l' r'))) by (apply E; cbn; apply in_or_app; right; exact I).
           apply (Canon_bit _ _ _ _ _ C2) in J. destruct (Canon_In _ _ _ Cr x I) as [_ [_ P]].
           rewrite (prefix_bit_inv _ _ _ P) in J. exact J.
        -- assert (J : In x (contents (TN l r))) by (apply E; cbn; apply in_or_app; right; exact I).
           apply (Canon_bit _ _ _ _ _ C1) in J. destruct (Canon_In _ _ _ Cr' x I) as [_ [_ P]].
           rewrite (prefix_bit_inv _ _ _ P) in J. exact J.
Qed.

(** ** Nodes representing tries *)

Section Rep.
Variable H : bytes -> option bytes.
Variable hs : nat.
(** What an external node stands for. *)
Variable X : list bool -> bytes -> tileId -> trie -> Prop.
Hypothesis HX : forall p h i t, X p h i t -> thash H hs t = Some h.

Inductive Rep : list bool -> node -> trie -> Prop :=
| R_E p : Rep p Empty TE
| R_L p v c : Rep p (Leaf v c) (TL v c)
| R_P p l r h id tl tr :
    Rep (p ++ [false]) l tl -> Rep (p ++ [true]) r tr ->
    (forall hh, h = Some hh -> thash H hs (TN tl tr) = Some hh) ->
    (forall i hh, id = Some i -> thash H hs (TN tl tr) = Some hh -> X p hh i (TN tl tr)) ->
    Rep p (Parent l r h id) (TN tl tr)
| R_X p h i t : X p h i t -> Rep p (External h i) t.

Lemma Rep_hash p n t : Rep p n t -> nodeHash H hs n = of_opt "hash input outside the table" (thash H hs t).
Proof.
  induction 1 as [p|p v c|p l r h id tl tr _ IHl _ IHr Hh _|p h i t HXt].
  - reflexivity.
  - reflexivity.
  - destruct h as [hh|]; cbn [nodeHash].
    + rewrite (Hh hh eq_refl). reflexivity.
    + rewrite IHl, IHr. cbn [thash]. destruct (thash H hs tl) as [a|]; [|reflexivity]. cbn.
      destruct (thash H hs tr) as [b|]; reflexivity.
  - cbn. rewrite (HX _ _ _ _ HXt). reflexivity.
Qed.

Lemma total_thash t : total H -> exists h, thash H hs t = Some h.
Proof.
  intros TH. induction t as [|k c|l [a IHl] r [b IHr]]; cbn; [eauto|apply TH|]. rewrite IHl, IHr. apply TH.
Qed.

(** No external node on the path [bs]. *)
Fixpoint resolved (n : node) (bs : list bool) : Prop :=
  match n with
  | External _ _ => False
  | Parent l r _ _ => match bs with [] => False | b :: bs' => resolved (if b then r else l) bs' end
  | _ => True
  end.

(** Every parent node without id is on the path of one of the keys. *)
Fixpoint hasIds (n : node) (p : list bool) (K : list bytes) : Prop :=
  match n with
  | Parent l r _ id =>
      (id = None -> exists k, In k K /\ prefixOf p (bits k)) /\
      hasIds l (p ++ [false]) K /\ hasIds r (p ++ [true]) K
  | _ => True
  end.

Lemma hasIds_mono n : forall p K K', hasIds n p K -> (forall k, In k K -> prefixOf p (bits k) -> In k K') -> hasIds n p K'.
Proof.
  induction n as [|v c|l IHl r IHr h id|h i]; intros p K K' A M; auto. destruct A as [A1 [A2 A3]].
  split; [|split].
  - intros E. destruct (A1 E) as [k [I P]]. exists k. split; auto.
  - apply (IHl _ K); auto. intros k I P. apply M; auto. apply prefixOf_shorter in P. exact P.
  - apply (IHr _ K); auto. intros k I P. apply M; auto. apply prefixOf_shorter in P. exact P.
Qed.

Definition XTN : Prop := forall p h i t, X p h i t -> exists a b, t = TN a b.

Lemma Rep_leaf p v c t : Rep p (Leaf v c) t -> t = TL v c.
Proof. intros R; inversion R; reflexivity. Qed.
Lemma Rep_empty p t : Rep p Empty t -> t = TE.
Proof. intros R; inversion R; reflexivity. Qed.

Lemma simplify_ok p l r tl tr :
  Rep (p ++ [false]) l tl -> Rep (p ++ [true]) r tr -> Canon hs (p ++ [false]) tl -> Canon hs (p ++ [true]) tr ->
  XTN \/ (2 <= List.length (contents tl ++ contents tr))%nat ->
  exists t, Rep p (simplify l r) t /\ Canon hs p t /\ contents t = contents tl ++ contents tr.
Proof.
  intros Rl Rr Cl Cr B. unfold simplify.
  assert (PN : (2 <= List.length (contents tl ++ contents tr))%nat ->
     exists t, Rep p (Parent l r None None) t /\ Canon hs p t /\ contents t = contents tl ++ contents tr).
  { intros L. exists (TN tl tr). split; [|split; [cbn; auto|reflexivity]].
    constructor; auto; intros; discriminate. }
  destruct l as [|lv lc|? ? ? ?|? ?]; destruct r as [|rv rc|? ? ? ?|? ?]; cbn [isLeafN isEmptyN andb];
    try (apply Rep_empty in Rl; subst); try (apply Rep_empty in Rr; subst);
    try (apply Rep_leaf in Rl; subst); try (apply Rep_leaf in Rr; subst).
  - exists TE. repeat split; constructor.
  - exists (TL rv rc). split; [constructor|]. split; [|reflexivity]. cbn in *. destruct Cr as [A [A' P]].
    repeat split; auto. apply prefixOf_shorter in P. exact P.
  - apply PN. inversion Rr; subst. destruct Cr as [_ [_ L]]. cbn in *. exact L.
  - apply PN. destruct B as [B|B]; [|exact B]. inversion Rr; subst. match goal with Q : X _ _ _ _ |- _ => destruct (B _ _ _ _ Q) as [a [b ->]] end.
    destruct Cr as [_ [_ L]]. cbn in *. exact L.
  - exists (TL lv lc). split; [constructor|]. split; [|reflexivity]. cbn in *. destruct Cl as [A [A' P]].
    repeat split; auto. apply prefixOf_shorter in P. exact P.
  - apply PN. cbn. lia.
  - apply PN. inversion Rr; subst. destruct Cr as [_ [_ L]]. cbn in *. lia.
  - apply PN. destruct B as [B|B]; [|exact B]. inversion Rr; subst. match goal with Q : X _ _ _ _ |- _ => destruct (B _ _ _ _ Q) as [a [b ->]] end.
    destruct Cr as [_ [_ L]]. cbn in *. lia.
  - apply PN. inversion Rl; subst. destruct Cl as [_ [_ L]]. rewrite app_length. cbn in *. lia.
  - apply PN. inversion Rl; subst. destruct Cl as [_ [_ L]]. rewrite app_length. cbn in *. lia.
  - apply PN. inversion Rl; subst. destruct Cl as [_ [_ L]]. rewrite app_length. cbn in *. lia.
  - apply PN. inversion Rl; subst. destruct Cl as [_ [_ L]]. rewrite app_length. cbn in *. lia.
  - apply PN. destruct B as [B|B]; [|exact B]. inversion Rl; subst. match goal with Q : X _ _ _ _ |- _ => destruct (B _ _ _ _ Q) as [a [b ->]] end.
    destruct Cl as [_ [_ L]]. rewrite app_length. cbn in *. lia.
  - apply PN. destruct B as [B|B]; [|exact B]. inversion Rl; subst. match goal with Q : X _ _ _ _ |- _ => destruct (B _ _ _ _ Q) as [a [b ->]] end.
    destruct Cl as [_ [_ L]]. rewrite app_length. cbn in *. lia.
  - apply PN. destruct B as [B|B]; [|exact B]. inversion Rl; subst. match goal with Q : X _ _ _ _ |- _ => destruct (B _ _ _ _ Q) as [a [b ->]] end.
    destruct Cl as [_ [_ L]]. rewrite app_length. cbn in *. lia.
  - apply PN. destruct B as [B|B]; [|exact B]. inversion Rl; subst. match goal with Q : X _ _ _ _ |- _ => destruct (B _ _ _ _ Q) as [a [b ->]] end.
    destruct Cl as [_ [_ L]]. rewrite app_length. cbn in *. lia.
Qed.

(** Conditions on the lists of entries below path [p]. *)
Definition addOK (p : list bool) (add : list entry) : Prop :=
  StronglySorted (kle fst) add /\ NoDup (map fst add) /\
  Forall (fun e : entry => List.length (fst e) = hs /\ List.length (snd e) = hs /\ prefixOf p (bits (fst e))) add.
Definition remOK (p : list bool) (rem : list bytes) : Prop :=
  StronglySorted (kle (fun x => x)) rem /\
  Forall (fun k : bytes => List.length k = hs /\ prefixOf p (bits k)) rem.

Definition goodRes (r : res node) (P : node -> Prop) : Prop :=
  (exists n, r = Ok n /\ P n) \/ (exists m, r = Fail m /\ ~ total H).

Lemma goodRes_bind x f P Q : goodRes x P -> (forall n, P n -> goodRes (f n) Q) -> goodRes (bind x f) Q.
Proof. intros [[n [-> A]]|[m [-> A]]] F; [apply F; exact A|right; exists m; auto]. Qed.

Lemma goodRes_impl x (P Q : node -> Prop) : goodRes x P -> (forall n, P n -> Q n) -> goodRes x Q.
Proof. intros [[n [E A]]|B] F; [left; eauto|right; exact B]. Qed.

Lemma filter_map {A B} (g : B -> bool) (f : A -> B) l : filter g (map f l) = map f (filter (fun x => g (f x)) l).
Proof. induction l as [|a l IH]; [reflexivity|]. cbn. destruct (g (f a)); cbn; rewrite IH; reflexivity. Qed.

Lemma NoDup_filter' {A} (g : A -> bool) l : NoDup l -> NoDup (filter g l).
Proof. apply NoDup_filter. Qed.

Lemma addOK_child p add b : (List.length p < 8 * hs)%nat -> addOK p add ->
  addOK (p ++ [b]) (filter (fun e => if b then bitOf fst (List.length p) e else negb (bitOf fst (List.length p) e)) add).
Proof.
  intros L [S [D F]]. split; [apply sorted_filter; exact S|]. split.
  - replace (map fst (filter (fun e => if b then bitOf fst (List.length p) e else negb (bitOf fst (List.length p) e)) add))
      with (filter (fun k => if b then bitAt k (List.length p) else negb (bitAt k (List.length p))) (map fst add))
      by (rewrite filter_map; reflexivity).
    apply NoDup_filter. exact D.
  - rewrite Forall_forall in *. intros e I. apply filter_In in I. destruct I as [I B].
    destruct (F e I) as [A1 [A2 A3]]. repeat split; auto.
    pose proof (prefix_bit_step p (fst e) A3) as P. unfold bitOf in B.
    destruct b; destruct (bitAt (fst e) (List.length p)); try discriminate B; apply P; lia.
Qed.

Lemma remOK_child p rem b : (List.length p < 8 * hs)%nat -> remOK p rem ->
  remOK (p ++ [b]) (filter (fun e => if b then bitOf (fun x => x) (List.length p) e else negb (bitOf (fun x => x) (List.length p) e)) rem).
Proof.
  intros L [S F]. split; [apply sorted_filter; exact S|].
  rewrite Forall_forall in *. intros e I. apply filter_In in I. destruct I as [I B].
  destruct (F e I) as [A1 A3]. split; auto.
  pose proof (prefix_bit_step p e A3) as P. unfold bitOf in B.
  destruct b; destruct (bitAt e (List.length p)); try discriminate B; apply P; lia.
Qed.

Lemma skipn_nth {A} (l : list A) d x : (d < List.length l)%nat -> skipn d l = nth d l x :: skipn (S d) l.
Proof.
  revert l. induction d as [|d IH]; intros [|a l] L; cbn in L; try lia; [reflexivity|].
  change (skipn (S d) (a :: l)) with (skipn d l). rewrite IH by lia. reflexivity.
Qed.

Lemma skipn_bit k d : (d < 8 * List.length k)%nat -> skipn d (bits k) = bitAt k d :: skipn (S d) (bits k).
Proof. intros L. unfold bitAt. apply skipn_nth. rewrite bits_len. exact L. Qed.

Definition newContents (add : list entry) (rem : list bytes) (old : list (bytes * bytes)) (x : bytes * bytes) : Prop :=
  In x add \/ (In x old /\ ~ In (fst x) rem).

Definition stepOK (f : nat) : Prop := forall p t n add rem,
  (f + List.length p = 8 * hs + 1)%nat -> (List.length p <= 8 * hs)%nat -> Canon hs p t -> Rep p n t -> addOK p add -> remOK p rem ->
  (forall k, In k (map fst add ++ rem) -> resolved n (skipn (List.length p) (bits k))) ->
  hasIds n p (map fst add ++ rem) ->
  (forall x e, In x (contents t) -> In e add -> fst x = fst e -> In (fst x) rem) ->
  XTN \/ rem = [] ->
  goodRes (addRemove H hs f n add rem (List.length p))
    (fun n' => exists t', Rep p n' t' /\ Canon hs p t' /\ forall x, In x (contents t') <-> newContents add rem (contents t) x).

Definition parentStep (f : nat) (l r : node) (add : list entry) (rem : list bytes) (depth : nat) : res node :=
  let* (la, ra) := splitAt fst add depth in
  let* (lr, rr) := splitAt (fun x => x) rem depth in
  let* l' := addRemove H hs f l la lr (S depth) in
  let* r' := addRemove H hs f r ra rr (S depth) in
  Ok (simplify l' r').

Definition emptyStep (f : nat) (add : list entry) (depth : nat) : res node :=
  match add with
  | [] => Ok Empty
  | [e] => Ok (Leaf (fst e) (snd e))
  | _ => parentStep f Empty Empty add [] depth
  end.

Lemma addRemove_S f n add rem depth : addRemove H hs (S f) n add rem depth =
  match add, rem with
  | [], [] =>
      match n with
      | Parent l r h id =>
          let* hp := nodeHash H hs n in
          match id with
          | None => Panic "nil pointer dereference"
          | Some i => Ok (External hp i)
          end
      | _ => Ok n
      end
  | _, _ =>
      match n with
      | Empty => emptyStep f add depth
      | Leaf v c =>
          if existsb (bytes_eqb v) rem then emptyStep f add depth
          else match add with
               | [] => Ok n
               | _ =>
                   let* b := getBit v depth in
                   if b then parentStep f Empty (Leaf v c) add [] depth else parentStep f (Leaf v c) Empty add [] depth
               end
      | Parent l r _ _ => parentStep f l r add rem depth
      | External _ _ => Panic "unexpected node type found"
      end
  end.
Proof. reflexivity. Qed.

Lemma In_filter_key (rem : list bytes) d b k :
  In k (filter (fun e => if b : bool then bitOf (fun x => x) d e else negb (bitOf (fun x => x) d e)) rem) <->
  In k rem /\ bitAt k d = b.
Proof.
  rewrite filter_In. unfold bitOf. destruct b; destruct (bitAt k d); cbn [negb]; intuition congruence.
Qed.

Lemma In_filter_entry (add : list entry) d b e :
  In e (filter (fun e => if b : bool then bitOf fst d e else negb (bitOf fst d e)) add) <->
  In e add /\ bitAt (fst e) d = b.
Proof.
  rewrite filter_In. unfold bitOf. destruct b; destruct (bitAt (fst e) d); cbn [negb]; intuition congruence.
Qed.

Lemma In_keys_filter (add : list entry) rem d (b : bool) k :
  In k (map fst (filter (fun e => if b then bitOf fst d e else negb (bitOf fst d e)) add)
        ++ filter (fun e => if b then bitOf (fun x => x) d e else negb (bitOf (fun x => x) d e)) rem) <->
  In k (map fst add ++ rem) /\ bitAt k d = b.
Proof.
  rewrite !in_app_iff, In_filter_key, !in_map_iff. split.
  - intros [[e [<- I]]|[I B]]; [apply In_filter_entry in I; destruct I; split; eauto|tauto].
  - intros [[[e [<- I]]|I] B]; [left; exists e; rewrite In_filter_entry; auto|right; auto].
Qed.

Lemma parent_ok f (IH : stepOK f) p tl tr l r add rem :
  (S f + List.length p = 8 * hs + 1)%nat -> (List.length p < 8 * hs)%nat ->
  Canon hs (p ++ [false]) tl -> Canon hs (p ++ [true]) tr ->
  Rep (p ++ [false]) l tl -> Rep (p ++ [true]) r tr -> addOK p add -> remOK p rem ->
  (forall k, In k (map fst add ++ rem) -> resolved (if bitAt k (List.length p) then r else l) (skipn (S (List.length p)) (bits k))) ->
  hasIds l (p ++ [false]) (map fst add ++ rem) -> hasIds r (p ++ [true]) (map fst add ++ rem) ->
  (forall x e, In x (contents tl ++ contents tr) -> In e add -> fst x = fst e -> In (fst x) rem) ->
  XTN \/ (rem = [] /\ exists x y, x <> y /\ newContents add rem (contents tl ++ contents tr) x
                               /\ newContents add rem (contents tl ++ contents tr) y) ->
  goodRes (parentStep f l r add rem (List.length p))
    (fun n' => exists t', Rep p n' t' /\ Canon hs p t' /\
       forall x, In x (contents t') <-> newContents add rem (contents tl ++ contents tr) x).
Proof.
  intros Hf Lp Cl Cr Rl Rr Aok Rok Res Il Ir New B. unfold parentStep.
  pose proof Aok as [As [Ad Af]]. pose proof Rok as [Rs Rf].
  rewrite (splitAt_ok fst (List.length p) p add eq_refl As).
  2:{ rewrite Forall_forall in *. intros e I. destruct (Af e I) as [E [_ P]]. split; [exact P|lia]. }
  cbn [bind]. rewrite (splitAt_ok (fun x => x) (List.length p) p rem eq_refl Rs).
  2:{ rewrite Forall_forall in *. intros e I. destruct (Rf e I) as [E P]. split; [exact P|lia]. }
  cbn [bind].
  set (la := filter (fun a : bytes * bytes => negb (bitOf fst (List.length p) a)) add).
  set (ra := filter (bitOf fst (List.length p)) add).
  set (lr := filter (fun a : bytes => negb (bitOf (fun x => x) (List.length p) a)) rem).
  set (rr := filter (bitOf (fun x => x) (List.length p)) rem).
  assert (Ela : forall e, In e la <-> In e add /\ bitAt (fst e) (List.length p) = false) by (intro e; apply (In_filter_entry add _ false)).
  assert (Era : forall e, In e ra <-> In e add /\ bitAt (fst e) (List.length p) = true) by (intro e; apply (In_filter_entry add _ true)).
  assert (Elr : forall e, In e lr <-> In e rem /\ bitAt e (List.length p) = false) by (intro e; apply (In_filter_key rem _ false)).
  assert (Err : forall e, In e rr <-> In e rem /\ bitAt e (List.length p) = true) by (intro e; apply (In_filter_key rem _ true)).
  assert (Kl : forall k, In k (map fst la ++ lr) <-> In k (map fst add ++ rem) /\ bitAt k (List.length p) = false) by (intro k; apply (In_keys_filter add rem _ false)).
  assert (Kr : forall k, In k (map fst ra ++ rr) <-> In k (map fst add ++ rem) /\ bitAt k (List.length p) = true) by (intro k; apply (In_keys_filter add rem _ true)).
  assert (Al : addOK (p ++ [false]) la) by (apply (addOK_child p add false Lp Aok)).
  assert (Ar : addOK (p ++ [true]) ra) by (apply (addOK_child p add true Lp Aok)).
  assert (Rol : remOK (p ++ [false]) lr) by (apply (remOK_child p rem false Lp Rok)).
  assert (Ror : remOK (p ++ [true]) rr) by (apply (remOK_child p rem true Lp Rok)).
  clearbody la ra lr rr.
  assert (Ls : forall b, List.length (p ++ [b]) = S (List.length p)) by (intro; rewrite app_length; cbn; lia).
  assert (Bl : XTN \/ lr = []).
  { destruct B as [B|[-> _]]; [left; exact B|right]. destruct lr as [|k lr]; [reflexivity|].
    destruct (proj1 (Elr k) (or_introl eq_refl)) as [[] _]. }
  assert (Br : XTN \/ rr = []).
  { destruct B as [B|[-> _]]; [left; exact B|right]. destruct rr as [|k rr]; [reflexivity|].
    destruct (proj1 (Err k) (or_introl eq_refl)) as [[] _]. }
  apply goodRes_bind with (fun n' => exists t', Rep (p ++ [false]) n' t' /\ Canon hs (p ++ [false]) t' /\ forall x, In x (contents t') <-> newContents la lr (contents tl) x).
  { rewrite <- (Ls false). apply IH; auto.
    - rewrite Ls. lia.
    - rewrite Ls. lia.
    - intros k I. apply Kl in I. destruct I as [I E]. rewrite Ls. specialize (Res k I). rewrite E in Res. exact Res.
    - apply (hasIds_mono _ _ _ _ Il). intros k I P. apply Kl. split; [exact I|]. apply (prefix_bit_inv _ _ _ P).
    - intros x e Ix Ie E. apply Ela in Ie. apply Elr. split; [apply (New x e); [apply in_or_app; left; exact Ix|tauto|exact E]|].
      destruct (Canon_In _ _ _ Cl x Ix) as [_ [_ P]]. apply (prefix_bit_inv _ _ _ P). }
  intros l' [tl' [Rl' [Cl' El']]].
  apply goodRes_bind with (fun n' => exists t', Rep (p ++ [true]) n' t' /\ Canon hs (p ++ [true]) t' /\ forall x, In x (contents t') <-> newContents ra rr (contents tr) x).
  { rewrite <- (Ls true). apply IH; auto.
    - rewrite Ls. lia.
    - rewrite Ls. lia.
    - intros k I. apply Kr in I. destruct I as [I E]. rewrite Ls. specialize (Res k I). rewrite E in Res. exact Res.
    - apply (hasIds_mono _ _ _ _ Ir). intros k I P. apply Kr. split; [exact I|]. apply (prefix_bit_inv _ _ _ P).
    - intros x e Ix Ie E. apply Era in Ie. apply Err. split; [apply (New x e); [apply in_or_app; right; exact Ix|tauto|exact E]|].
      destruct (Canon_In _ _ _ Cr x Ix) as [_ [_ P]]. apply (prefix_bit_inv _ _ _ P). }
  intros r' [tr' [Rr' [Cr' Er']]].
  assert (EQ : forall x, In x (contents tl' ++ contents tr') <-> newContents add rem (contents tl ++ contents tr) x).
  { intro x. rewrite in_app_iff, El', Er'. unfold newContents. rewrite in_app_iff, Ela, Era, Elr, Err. split.
    - intros [[[I _]|[I N]]|[[I _]|[I N]]]; [left; exact I| |left; exact I|]; right; (split; [tauto|]); intro J; apply N; (split; [exact J|]).
      + destruct (Canon_In _ _ _ Cl x I) as [_ [_ P]]. apply (prefix_bit_inv _ _ _ P).
      + destruct (Canon_In _ _ _ Cr x I) as [_ [_ P]]. apply (prefix_bit_inv _ _ _ P).
    - intros [I|[[I|I] N]].
      + destruct (bitAt (fst x) (List.length p)) eqn:E; [right|left]; left; auto.
      + left. right. split; [exact I|]. intros [J _]. exact (N J).
      + right. right. split; [exact I|]. intros [J _]. exact (N J). }
  destruct (simplify_ok p l' r' tl' tr' Rl' Rr' Cl' Cr') as [t' [Rt [Ct Et]]].
  { destruct B as [B|[_ [x [y [D [Nx Ny]]]]]]; [left; exact B|right]. apply EQ in Nx. apply EQ in Ny.
    apply (two_members _ x y D Nx Ny). }
  left. exists (simplify l' r'). split; [reflexivity|]. exists t'. split; [exact Rt|]. split; [exact Ct|].
  intro x. rewrite Et. apply EQ.
Qed.

Lemma addOK_depth p e1 e2 rest : addOK p (e1 :: e2 :: rest) -> (List.length p < 8 * hs)%nat.
Proof.
  intros [S [D F]]. inversion F as [|? ? [A1 [A2 A3]] F2]; subst. inversion F2 as [|? ? [B1 [B2 B3]] F3]; subst.
  destruct (Nat.lt_ge_cases (List.length p) (8 * List.length (fst e1))) as [L|L]; [exact L|exfalso].
  inversion D; subst. apply H2. left.
  apply bits_inj. pose proof (prefixOf_len _ _ A3) as L1. rewrite bits_len in L1.
  rewrite (prefixOf_firstn _ _ A3) in B3. destruct B3 as [q Q]. destruct A3 as [q' Q'].
  pose proof (f_equal (@List.length bool) Q) as E. rewrite app_length, firstn_length, !bits_len in E.
  pose proof (f_equal (@List.length bool) Q') as E'. rewrite app_length, !bits_len in E'.
  rewrite firstn_all2 in Q by (rewrite bits_len; lia).
  destruct q as [|? q]; [|cbn in E; lia]. rewrite app_nil_r in Q. exact Q.
Qed.

Lemma empty_ok f (IH : stepOK f) p add : (S f + List.length p = 8 * hs + 1)%nat -> addOK p add ->
  goodRes (emptyStep f add (List.length p))
    (fun n' => exists t', Rep p n' t' /\ Canon hs p t' /\ forall x, In x (contents t') <-> In x add).
Proof.
  intros Hf Aok. destruct add as [|e1 [|e2 rest]]; cbn [emptyStep].
  - left. exists Empty. split; [reflexivity|]. exists TE. repeat split; try constructor; auto.
  - left. exists (Leaf (fst e1) (snd e1)). split; [reflexivity|]. exists (TL (fst e1) (snd e1)).
    destruct Aok as [_ [_ F]]. inversion F as [|? ? [A1 [A2 A3]] _]; subst.
    split; [constructor|]. split; [cbn; auto|]. intro x. destruct e1. cbn. tauto.
  - pose proof (addOK_depth _ _ _ _ Aok) as L.
    eapply goodRes_impl; [apply (parent_ok f IH p TE TE Empty Empty (e1 :: e2 :: rest) [])|]; auto.
    + cbn; auto.
    + cbn; auto.
    + constructor.
    + constructor.
    + split; constructor.
    + intros k _. destruct (bitAt k (List.length p)); exact I.
    + exact I.
    + exact I.
    + right. split; [reflexivity|]. exists e1, e2. split; [|split; left; [left|right; left]; reflexivity].
      destruct Aok as [_ [D _]]. inversion D; subst. intros ->. apply H2. left. reflexivity.
    + intros n [t' [R [C E]]]. exists t'. split; [exact R|]. split; [exact C|]. intro x. rewrite E. unfold newContents. cbn. tauto.
Qed.

Lemma leaf_add_depth p v e add : List.length v = hs -> prefixOf p (bits v) -> addOK p (e :: add) -> v <> fst e ->
  (List.length p < 8 * hs)%nat.
Proof.
  intros Lv Pv [S [D F]] N. inversion F as [|? ? [A1 [A2 A3]] _]; subst.
  pose proof (prefixOf_len _ _ Pv) as L. rewrite bits_len in L.
  destruct (Nat.eq_dec (List.length p) (8 * List.length v)) as [E|E]; [|lia]. exfalso. apply N. apply bits_inj.
  destruct Pv as [q Q]. destruct A3 as [q' Q'].
  pose proof (f_equal (@List.length bool) Q) as E1. rewrite app_length, !bits_len in E1.
  pose proof (f_equal (@List.length bool) Q') as E2. rewrite app_length, !bits_len in E2.
  destruct q; [|cbn in E1; lia]. destruct q'; [|cbn in E2; lia]. congruence.
Qed.

Theorem addRemove_ok f : stepOK f.
Proof.
  induction f as [|f IH]; intros p t n add rem Hf Lp Ct Rt Aok Rok Res Ids New B; [lia|].
  rewrite addRemove_S.
  assert (Keep : add = [] -> rem = [] -> forall n', Rep p n' t -> goodRes (Ok n')
     (fun n' => exists t', Rep p n' t' /\ Canon hs p t' /\ forall x, In x (contents t') <-> newContents add rem (contents t) x)).
  { intros -> -> n' R'. left. exists n'. split; [reflexivity|]. exists t. split; [exact R'|]. split; [exact Ct|].
    intro x. unfold newContents. cbn. tauto. }
  assert (Main : map fst add ++ rem <> [] -> goodRes
      match n with
      | Empty => emptyStep f add (List.length p)
      | Leaf v c =>
          if existsb (bytes_eqb v) rem then emptyStep f add (List.length p)
          else match add with
               | [] => Ok n
               | _ =>
                   let* b := getBit v (List.length p) in
                   if b then parentStep f Empty (Leaf v c) add [] (List.length p) else parentStep f (Leaf v c) Empty add [] (List.length p)
               end
      | Parent l r _ _ => parentStep f l r add rem (List.length p)
      | External _ _ => Panic "unexpected node type found"
      end
      (fun n' => exists t', Rep p n' t' /\ Canon hs p t' /\ forall x, In x (contents t') <-> newContents add rem (contents t) x)).
  { intros NE. destruct n as [|v c|l r h id|h i].
    - apply Rep_empty in Rt. subst t. eapply goodRes_impl; [apply (empty_ok f IH p add Hf Aok)|].
      intros n [t' [R [C E]]]. exists t'. split; [exact R|]. split; [exact C|]. intro x. rewrite E. unfold newContents. cbn. tauto.
    - apply Rep_leaf in Rt. subst t. destruct (existsb (bytes_eqb v) rem) eqn:Ex.
      + apply existsb_exists in Ex. destruct Ex as [k [Ik Ek]]. apply bytes_eqb_eq in Ek. subst k.
        eapply goodRes_impl; [apply (empty_ok f IH p add Hf Aok)|].
        intros n [t' [R [C E]]]. exists t'. split; [exact R|]. split; [exact C|]. intro x. rewrite E. unfold newContents. cbn.
        split; [tauto|]. intros [I|[[<-|[]] N]]; [exact I|contradiction].
      + assert (Nv : ~ In v rem).
        { intro I. assert (existsb (bytes_eqb v) rem = true); [|congruence]. apply existsb_exists. exists v. split; [exact I|apply bytes_eqb_refl]. }
        destruct add as [|e add].
        * left. exists (Leaf v c). split; [reflexivity|]. exists (TL v c). split; [constructor|]. split; [exact Ct|].
          intro x. unfold newContents. cbn. split; [intros [<-|[]]; right; split; [left; reflexivity|exact Nv]|tauto].
        * pose proof Ct as [Lv [Lc Pv]].
          assert (Ne : v <> fst e).
          { intros E. apply Nv. apply (New (v, c) e); [left; reflexivity|left; reflexivity|exact E]. }
          pose proof (leaf_add_depth p v e add Lv Pv Aok Ne) as L.
          rewrite getBit_bitAt by (rewrite Lv; exact L). cbn [bind].
          pose proof (prefix_bit_step p v Pv) as Pb. rewrite Lv in Pb. specialize (Pb L).
          assert (Rok0 : remOK p []) by (split; constructor).
          assert (Two : exists x y, x <> y /\ newContents (e :: add) [] [(v, c)] x /\ newContents (e :: add) [] [(v, c)] y).
          { exists e, (v, c). split; [intros ->; apply Ne; reflexivity|]. split; [left; left; reflexivity|].
            right. split; [left; reflexivity|intros []]. }
          assert (Fin : forall n' t', Rep p n' t' -> Canon hs p t' -> (forall x, In x (contents t') <-> newContents (e :: add) [] [(v, c)] x) ->
             exists t'', Rep p n' t'' /\ Canon hs p t'' /\ forall x, In x (contents t'') <-> newContents (e :: add) rem (contents (TL v c)) x).
          { intros n' t' R' C' E'. exists t'. split; [exact R'|]. split; [exact C'|]. intro x. rewrite E'. unfold newContents. cbn.
            split; [intros [A|[[<-|[]] _]]; [left; exact A|right; split; [left; reflexivity|exact Nv]]|tauto]. }
          assert (New0 : forall x e0, In x [(v, c)] -> In e0 (e :: add) -> fst x = fst e0 -> In (fst x) []).
          { intros x e0 [<-|[]] I0 E0. apply Nv. apply (New (v, c) e0); [left; reflexivity|exact I0|exact E0]. }
          destruct (bitAt v (List.length p)).
          -- eapply goodRes_impl; [apply (parent_ok f IH p TE (TL v c) Empty (Leaf v c) (e :: add) [])|]; auto; try solve [constructor | exact I | cbn; auto].
             ++ intros k _. destruct (bitAt k (List.length p)); exact I.
             ++ intros n' [t' [R' [C' E']]]. apply (Fin n' t' R' C' E').
          -- eapply goodRes_impl; [apply (parent_ok f IH p (TL v c) TE (Leaf v c) Empty (e :: add) [])|]; auto; try solve [constructor | exact I | cbn; auto].
             ++ intros k _. destruct (bitAt k (List.length p)); exact I.
             ++ intros n' [t' [R' [C' E']]]. apply (Fin n' t' R' C' E').
    - inversion Rt as [| |? ? ? ? ? tl tr Rl Rr Hh Hi|]; subst. pose proof (Canon_TN_depth _ _ _ _ Ct) as L.
      pose proof Ct as [Cl [Cr C2]]. destruct Ids as [_ [Il Ir]].
      apply (parent_ok f IH p tl tr l r add rem); auto.
      + intros k I. specialize (Res k I). rewrite skipn_bit in Res.
        * cbn [resolved] in Res. destruct (bitAt k (List.length p)); exact Res.
        * assert (Lk : List.length k = hs); [|rewrite Lk; exact L].
          apply in_app_or in I. destruct Aok as [_ [_ F]]. destruct Rok as [_ F']. rewrite Forall_forall in F, F'.
          destruct I as [I|I]; [apply in_map_iff in I; destruct I as [e [<- I]]; apply (F e I)|apply (F' k I)].
      + destruct B as [B|B]; [left; exact B|right]. split; [exact B|]. subst rem.
        destruct (Canon_two _ _ _ _ Ct) as [x [y [D [Ix Iy]]]]. exists x, y. split; [congruence|].
        split; right; (split; [assumption|intros []]).
    - exfalso. destruct (map fst add ++ rem) as [|k K]; [congruence|]. apply (Res k (or_introl eq_refl)). }
  destruct add as [|e add]; [destruct rem as [|k rem]|].
  - destruct n as [|v c|l r h id|h i]; try (apply Keep; auto; fail).
    rewrite (Rep_hash _ _ _ Rt). destruct (thash H hs t) as [hh|] eqn:Eh.
    + cbn [of_opt bind]. destruct id as [i|].
      * apply Keep; auto. constructor. inversion Rt as [| |? ? ? ? ? tl tr Rl Rr Hh Hi|]; subst. apply Hi; auto.
      * exfalso. destruct Ids as [A _]. destruct (A eq_refl) as [k [[] _]].
    + right. cbn. eexists. split; [reflexivity|]. intro TT. destruct (total_thash t TT) as [q Q]. congruence.
  - apply Main. cbn. congruence.
  - apply Main. cbn. congruence.
Qed.
End Rep.
