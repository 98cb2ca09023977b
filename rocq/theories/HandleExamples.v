(** A concrete server for the examples and refutations in HandleProperties.v: seven log entries, one label with eight
    versions. *)
From Coq Require Import Sorted.
From Verif Require Import Base BaseProofs LogMathModel TransMathModel TransMathSpec LogTreeModel LogTreeSpec LogTreeProofs3 LogChunkModel LogChunkSpec LogChunkProofs6 LogChunkProofs7 PrefixModel PrefixSpec PrefixProofs PrefixExamples LaddersModel CodecModel AlgModel AlgSpec AlgProofs AlgProofs4 AlgExamples HandleModel HandleSpec HandleProofs4.
Open Scope N_scope.

Definition exKey (v : N) : bytes := n2b 170 :: rev (be 31 v).
Definition exCom (v : N) : bytes := be 32 (v + 1000).

(** What is added to the prefix tree: every entry publishes a version of some other label, and the given ones of ours. *)
Definition exAdd (x : N) (ws : list N) : list PrefixModel.entry := (kk 1 x, cc x) :: map (fun w => (exKey w, exCom w)) ws.
Definition exAdds : list (list PrefixModel.entry) :=
  [exAdd 0 []; exAdd 1 [0; 1]; exAdd 2 []; exAdd 3 []; exAdd 4 [2]; exAdd 5 [3; 4; 5; 6; 7]; exAdd 6 []].
Definition exIndex : list N := [1; 1; 4; 5; 5; 5; 5; 5].

Fixpoint build (s : store) (ver : N) (adds : list (list PrefixModel.entry)) : option (list bytes * store) :=
  match adds with
  | [] => Some ([], s)
  | a :: t =>
      match mutate (full toy32) 32 s ver a [] with
      | Ok (root, _, _, s') => match build s' (ver + 1) t with Some (roots, s'') => Some (root :: roots, s'') | None => None end
      | _ => None
      end
  end.
Fixpoint maps (m : kvmap) (adds : list (list PrefixModel.entry)) : list kvmap :=
  match adds with [] => [] | a :: t => let m' := PrefixSpec.update m a [] in m' :: maps m' t end.

Lemma build_hist adds : forall s past m h roots s', Forall (fun a => a <> [] /\ lenN a < two32) adds -> lenN past + lenN adds < two64 ->
  hist toy32 32 s (past ++ [(m, h)]) -> build s (lenN past) adds = Some (roots, s') ->
  hist toy32 32 s' ((past ++ [(m, h)]) ++ combine (maps m adds) roots) /\ List.length roots = List.length adds.
Proof.
  induction adds as [|a adds IH]; intros s past m h roots s' F Hl HI E; cbn [build maps] in *.
  - injection E as <- <-. cbn. rewrite app_nil_r. auto.
  - destruct (mutate _ _ _ _ _ _) as [[[[root proof] coms] s1]| | |] eqn:Em; try discriminate.
    destruct (build s1 (lenN past + 1) adds) as [[roots1 s2]|] eqn:Eb; [|discriminate]. injection E as <- <-.
    inversion F as [|? ? [Fa Fl] F']; subst. unfold lenN in Hl. cbn [List.length] in Hl.
    assert (El : lenN (past ++ [(m, h)]) = lenN past + 1) by (unfold lenN; rewrite app_length; cbn; lia).
    assert (HI' : hist toy32 32 s1 ((past ++ [(m, h)]) ++ [(PrefixSpec.update m a [], root)])).
    { eapply hist_step; [exact HI| | | |exact Em]; [unfold lenN in *; lia|auto|]. change (lenN (@nil bytes)) with 0. lia. }
    rewrite <- El in Eb. destruct (IH s1 (past ++ [(m, h)]) (PrefixSpec.update m a []) root roots1 s2 F') as [A B]; auto.
    { rewrite El. unfold lenN in *. lia. }
    cbn [combine]. split; [|cbn; lia]. replace ((past ++ [(m, h)]) ++ (PrefixSpec.update m a [], root) :: combine (maps (PrefixSpec.update m a []) adds) roots1)
      with (((past ++ [(m, h)]) ++ [(PrefixSpec.update m a [], root)]) ++ combine (maps (PrefixSpec.update m a []) adds) roots1) by (rewrite <- !app_assoc; reflexivity). exact A.
Qed.

Definition exBuilt := Eval vm_compute in build [] 0 exAdds.
Definition exRoots : list bytes := match exBuilt with Some (r, _) => r | None => [] end.
Definition exPrefixDb : store := match exBuilt with Some (_, s) => s | None => [] end.
Lemma exBuilt_ok : build [] 0 exAdds = Some (exRoots, exPrefixDb).
Proof. vm_cast_no_check (eq_refl (Some (exRoots, exPrefixDb))). Qed.

Definition exEntries : list logEntry := Eval vm_compute in
  map (fun x => {| le_ts := 10 * (x + 1); le_root := nth (N.to_nat x) exRoots [] |}) [0; 1; 2; 3; 4; 5; 6].
Definition exLeaves : list bytes := Eval vm_compute in map (fun e => get [] (logEntryHash (full toy32) e)) exEntries.
Definition exLog := Eval vm_compute in
  get (0, [], []) (foldM (fun s e => let* (fs, st) := treeAppend (full toy32) 32 (snd s) (fst (fst s)) e in Ok (fst (fst s) + 1, fs, st)) exLeaves (0, [], [])).

Definition exWorld : world := {|
  w_entries := exEntries; w_index := exIndex; w_key := exKey; w_com := exCom;
  w_entriesDb x := match nth_error exEntries (N.to_nat x) with Some e => Some (get [] (logEntryMarshal e)) | None => None end;
  w_logDb := snd exLog; w_prefixDb := exPrefixDb |}.

Lemma below7 x : x < 7 -> In x [0; 1; 2; 3; 4; 5; 6].
Proof. intros H. cbn. lia. Qed.

Lemma exKey_inj v w : v < 2 ^ 32 -> w < 2 ^ 32 -> exKey v = exKey w -> v = w.
Proof.
  intros Hv Hw E. unfold exKey in E. apply (f_equal (@List.tl byte)) in E. cbn [tl] in E. apply (f_equal (@rev byte)) in E. rewrite !rev_involutive in E. apply be_inj in E; auto;
    (eapply N.lt_le_trans; [eassumption|]; discriminate).
Qed.

Lemma exKey_eqb v w : v < 2 ^ 32 -> w < 2 ^ 32 -> bytes_eqb (exKey v) (exKey w) = (v =? w).
Proof.
  intros Hv Hw. destruct (N.eqb_spec v w) as [->|N]; [apply bytes_eqb_refl|]. apply bytes_eqb_neq. intros E. apply N. now apply exKey_inj.
Qed.

Lemma exAdd_look v x ws : v < 2 ^ 32 -> Forall (fun w => w < 2 ^ 32) ws -> assoc (exAdd x ws) (exKey v) = if existsb (N.eqb v) ws then Some (exCom v) else None.
Proof.
  intros Hv F. unfold exAdd. cbn [assoc]. replace (bytes_eqb (exKey v) (kk 1 x)) with false.
  2:{ symmetry. apply bytes_eqb_neq. intros E. apply (f_equal (fun l => match l with b :: _ => b2n b | [] => 0 end)) in E. unfold exKey, kk in E. cbn [app] in E. vm_compute in E. discriminate. }
  induction F as [|w ws Hw F IH]; [reflexivity|]. cbn [map assoc existsb]. rewrite exKey_eqb by auto. destruct (N.eqb_spec v w) as [->|]; [reflexivity|exact IH].
Qed.

Lemma nth_combine {A B} (a : list A) (b : list B) i x y : nth_error a i = Some x -> nth_error b i = Some y -> nth_error (combine a b) i = Some (x, y).
Proof. revert b i. induction a as [|a0 a IH]; intros [|b0 b] [|i]; cbn; try discriminate; [congruence|apply IH]. Qed.

