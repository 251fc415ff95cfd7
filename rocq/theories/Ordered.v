(** * [evaluate] with the ordered collections of the code

    Evaluate.v uses finite maps and sets without an order where the code has `BTreeMap` and
    `BTreeSet` (src/verify.rs:28, 156, 178, 183, 219), whose results depend on `Ord` of the
    keys; that is why [RgbSeal] requires `Ord` of seals (src/seals.rs:68).  Here the same
    procedure works on sorted lists searched with a comparison function.  Simplification:
    the search is linear, that of a B-tree is not; the order of the keys found and kept is
    the same when the comparison is a total order. *)
From Verif Require Export Refine StrictCodec.
From stdpp Require Import sorting.
From Coq Require Import Lia.

(** ** Lists sorted by a comparison *)
Section collections.
Context {K V : Type} (cmp : K -> K -> comparison).

(** `Ord`: a total order which agrees with equality. *)
Record lawful_order : Prop := {
  cmp_eq : forall x y, cmp x y = Eq <-> x = y;
  cmp_opp : forall x y, cmp y x = CompOpp (cmp x y);
  cmp_trans : forall x y z, cmp x y = Lt -> cmp y z = Lt -> cmp x z = Lt
}.

(** `BTreeSet::insert`: an element equal to one already in the set is not added. *)
Fixpoint set_insert (x : K) (l : list K) : list K :=
  match l with
  | [] => [x]
  | y :: l' => match cmp x y with
               | Lt => x :: l
               | Eq => l
               | Gt => y :: set_insert x l'
               end
  end.
(** `extend`, `collect` *)
Definition set_extend (l : list K) (xs : list K) : list K := foldl (fun l x => set_insert x l) l xs.
(** `BTreeSet::contains`, `is_subset` *)
Fixpoint set_contains (x : K) (l : list K) : bool :=
  match l with
  | [] => false
  | y :: l' => match cmp x y with Lt => false | Eq => true | Gt => set_contains x l' end
  end.
Definition set_is_subset (l l' : list K) : bool := forallb (fun x => set_contains x l') l.

(** `BTreeMap::insert`: the value of a key already in the map is replaced. *)
Fixpoint map_insert (k : K) (v : V) (l : list (K * V)) : list (K * V) :=
  match l with
  | [] => [(k, v)]
  | (k', v') :: l' => match cmp k k' with
                      | Lt => (k, v) :: l
                      | Eq => (k', v) :: l'
                      | Gt => (k', v') :: map_insert k v l'
                      end
  end.
Definition map_extend (l : list (K * V)) (xs : list (K * V)) : list (K * V) :=
  foldl (fun l x => map_insert x.1 x.2 l) l xs.
(** `BTreeMap::remove` *)
Fixpoint map_remove (k : K) (l : list (K * V)) : option (V * list (K * V)) :=
  match l with
  | [] => None
  | (k', v') :: l' => match cmp k k' with
                      | Lt => None
                      | Eq => Some (v', l')
                      | Gt => match map_remove k l' with
                              | None => None
                              | Some (v, r) => Some (v, (k', v') :: r)
                              end
                      end
  end.
End collections.

(** `Ord` of a pair: the second components are compared when the first are equal. *)
Definition pair_cmp {X Y} (cmp1 : X -> X -> comparison) (cmp2 : Y -> Y -> comparison)
    (x y : X * Y) : comparison :=
  match cmp1 x.1 y.1 with Eq => cmp2 x.2 y.2 | c => c end.

(** `Ord` of byte strings: lexicographic. *)
Fixpoint bytes_cmp (l l' : bytes) : comparison :=
  match l, l' with
  | [], [] => Eq
  | [], _ :: _ => Lt
  | _ :: _, [] => Gt
  | b :: r, b' :: r' => match N.compare b b' with Eq => bytes_cmp r r' | c => c end
  end.
(** The derived `Ord` of `Opid`, `CellAddr` (operation id, then position) and `AuthToken` of
    `ultrasonic`. *)
Definition opid_cmp (o o' : Opid) : comparison := bytes_cmp (opid_bytes o) (opid_bytes o').
Definition addr_cmp (a a' : CellAddr) : comparison :=
  match opid_cmp (cell_opid a) (cell_opid a') with
  | Eq => N.compare (cell_pos a) (cell_pos a')
  | c => c
  end.
Definition token_cmp (t t' : AuthToken) : comparison := N.compare (auth_token_value t) (auth_token_value t').

Section evaluate.
Context {P : SealProtocol} {U : Ultrasonic} (A : ContractApi P U) {E : Type}.
(** `Ord` of addresses, of seals and of tokens *)
Context (acmp : CellAddr -> CellAddr -> comparison) (scmp : Seal P -> Seal P -> comparison)
        (tcmp : AuthToken -> AuthToken -> comparison).

Notation VError := (VerificationError P U E).
Notation Calls := (list (call P U)).
Notation SealMap := (list (CellAddr * Seal P)).
Notation "'let!' x := m 'in' k" := (bind A m (fun x => k))
  (at level 200, x pattern, m at level 100, k at level 200, right associativity).

(** ** src/verify.rs:173-183 *)
Definition defined_set (op : Operation) : list AuthToken :=
  set_extend tcmp [] (cell_auth <$> op_destructible_out op).
Definition reported_set (defs : gmap N (SealDef P)) : list AuthToken :=
  set_extend tcmp [] ((fun e => auth_token P e.2) <$> sorted_entries defs).

(** ** src/verify.rs:195-202 *)
Fixpoint collect_ordered (ins : list Input) (seals : SealMap) (closed : list (Seal P))
    : M A (E:=E) (list (Seal P) * SealMap) :=
  match ins with
  | [] => ret A (closed, seals)
  | input :: ins' =>
      match map_remove acmp (input_addr input) seals with
      | None => throw A (SealUnknown (input_addr input))
      | Some (seal, seals) => collect_ordered ins' seals (closed ++ [seal])
      end
  end.

(** ** src/verify.rs:219-223, 232-237, over the entries in ascending order *)
Definition complete_pairs (opid : Opid) (defs : gmap N (SealDef P)) : list (CellAddr * Seal P) :=
  omap (fun e => match to_src P e.2 with
                 | Some s => Some (MkCellAddr opid e.1, s)
                 | None => None
                 end) (sorted_entries defs).
Definition resolved_pairs (opid : Opid) (defs : gmap N (SealDef P)) (wid : WitnessId P)
    : list (CellAddr * Seal P) :=
  omap (fun e => match to_src P e.2 with
                 | Some _ => None
                 | None => Some (MkCellAddr opid e.1, resolve P e.2 wid)
                 end) (sorted_entries defs).

(** ** src/verify.rs:219-243: `seal_sources` is a `BTreeSet` of pairs *)
Definition close_ordered (opid : Opid) (b : OperationSeals P) (closed : list (Seal P))
    : M A (E:=E) SealMap :=
  let sources := set_extend (pair_cmp acmp scmp) [] (complete_pairs opid (defined_seals b)) in
  match witness b with
  | Some w =>
      let msg := message_from P (opid_bytes opid) in
      match witness_closes w closed msg with
      | Err e => throw A (SealsNotClosed (pub_id P (published w)) opid e)
      | Ok _ =>
          let wid := pub_id P (published w) in
          let sources := set_extend (pair_cmp acmp scmp) sources
                           (resolved_pairs opid (defined_seals b) wid) in
          let! _ := mutate A (CallApplyWitness opid w) (fun c => apply_witness A c opid w) in
          ret A sources
      end
  | None =>
      match closed with
      | [] => ret A sources
      | _ :: _ => throw A (NoWitness opid)
      end
  end.

(** ** src/verify.rs:162-254.  The sets in the error value (SealsDefinitionMismatch) are
    compared as sets. *)
Definition process_ordered (cid : ContractId) (kid : CodexId) (is_genesis : bool)
    (seals : SealMap) (b : OperationSeals P) : M A (E:=E) SealMap :=
  let! op :=
    (if is_genesis then
       if decide (contract_id_bytes (op_contract_id (operation b)) = codex_id_bytes kid)
       then ret A (with_contract_id cid (operation b))
       else throw A NoCodexCommitment
     else ret A (operation b)) in
  let opid := opid_of U op in
  let defined := defined_set op in
  let reported := reported_set (defined_seals b) in
  let! _ :=
    (if set_is_subset tcmp reported defined then ret A tt
     else throw A (SealsDefinitionMismatch opid (list_to_set reported) (list_to_set defined)
                     (seal_texts (defined_seals b)))) in
  let! (closed, seals) := collect_ordered (op_destructible_in op) seals [] in
  let! verified := verify_unless_known A cid op opid in
  let! sources := close_ordered opid b closed in
  let seals := map_extend acmp seals sources in
  let! _ :=
    (if is_genesis then ret A tt
     else match verified with
          | Some v => mutate A (CallApplyOperation v) (fun c => apply_operation A c v)
          | None => ret A tt
          end) in
  let! _ :=
    (if decide (defined_seals b = ∅) then ret A tt
     else mutate A (CallApplySeals opid (defined_seals b))
                 (fun c => apply_seals A c opid (defined_seals b))) in
  ret A seals.

(** ** src/verify.rs:151-258 *)
Fixpoint ordered_loop (R : ReadOperation P E) (fuel : nat) (cid : ContractId) (kid : CodexId)
    (is_genesis : bool) (seals : SealMap) (r : Reader R) (s : Contract A * Calls)
    : (Contract A * Calls) * Reader R * option (result VError unit) :=
  match fuel with
  | O => (s, r, None)
  | S fuel =>
      let '(c, t) := s in
      let s := (c, t ++ [CallRead]) in
      match read_operation R r with
      | (r', Err e) => (s, r', Some (Err (Stream e)))
      | (r', Ok None) => (s, r', Some (Ok tt))
      | (r', Ok (Some b)) =>
          match process_ordered cid kid is_genesis seals b s with
          | (s', Err e) => (s', r', Some (Err e))
          | (s', Ok seals') => ordered_loop R fuel cid kid false seals' r' s'
          end
      end
  end.
Definition evaluate_ordered (R : ReadOperation P E) (fuel : nat) (c : Contract A) (r : Reader R)
    : (Contract A * Calls) * Reader R * option (result VError unit) :=
  ordered_loop R fuel (contract_id A c) (codex_id U (codex A c)) true [] r (c, [CallContractId; CallCodex]).
End evaluate.

(** ** Facts *)
Section facts.
Context {K V : Type} (cmp : K -> K -> comparison) (Hcmp : lawful_order cmp).
Notation lt x y := (cmp x y = Lt).

Lemma cmp_refl x : cmp x x = Eq.
Proof. by apply (cmp_eq cmp Hcmp). Qed.
Lemma cmp_gt x y : cmp x y = Gt -> cmp y x = Lt.
Proof. intros H. by rewrite (cmp_opp cmp Hcmp), H. Qed.

Lemma set_insert_elem x y l : y ∈ set_insert cmp x l <-> y = x \/ y ∈ l.
Proof.
  induction l as [|z l IH]; cbn; [by rewrite elem_of_list_singleton, elem_of_nil; naive_solver|].
  destruct (cmp x z) eqn:Hc.
  - apply (cmp_eq cmp Hcmp) in Hc as ->. rewrite elem_of_cons. naive_solver.
  - rewrite !elem_of_cons. naive_solver.
  - rewrite !elem_of_cons, IH. naive_solver.
Qed.
Lemma set_insert_sorted x l :
  StronglySorted (fun x y => lt x y) l -> StronglySorted (fun x y => lt x y) (set_insert cmp x l).
Proof.
  induction 1 as [|z l Hs IH Hz]; cbn; [by repeat constructor|].
  destruct (cmp x z) eqn:Hc.
  - by constructor.
  - constructor; [by constructor|]. constructor; [done|].
    eapply Forall_impl; [exact Hz|]. intros y Hy. by eapply (cmp_trans cmp Hcmp).
  - constructor; [done|]. rewrite list.Forall_forall in *. intros y [->|Hy]%set_insert_elem.
    + by apply cmp_gt.
    + by apply Hz.
Qed.
Lemma set_extend_elem l xs y : y ∈ set_extend cmp l xs <-> y ∈ xs \/ y ∈ l.
Proof.
  unfold set_extend. revert l. induction xs as [|x xs IH]; intros l; cbn.
  - rewrite elem_of_nil. naive_solver.
  - rewrite IH, set_insert_elem, elem_of_cons. naive_solver.
Qed.
Lemma set_extend_sorted l xs :
  StronglySorted (fun x y => lt x y) l -> StronglySorted (fun x y => lt x y) (set_extend cmp l xs).
Proof.
  unfold set_extend. revert l. induction xs as [|x xs IH]; intros l Hl; cbn; [done|].
  by apply IH, set_insert_sorted.
Qed.
Lemma set_contains_iff x l :
  StronglySorted (fun x y => lt x y) l -> set_contains cmp x l = true <-> x ∈ l.
Proof.
  induction 1 as [|z l Hs IH Hz]; cbn; [by rewrite elem_of_nil|].
  rewrite elem_of_cons. destruct (cmp x z) eqn:Hc.
  - apply (cmp_eq cmp Hcmp) in Hc. naive_solver.
  - split; [done|]. intros [->|Hx]; [by rewrite cmp_refl in Hc|].
    rewrite list.Forall_forall in Hz. pose proof (cmp_trans cmp Hcmp _ _ _ Hc (Hz x Hx)) as H.
    by rewrite cmp_refl in H.
  - rewrite IH. split; [by right|]. intros [->|?]; [by rewrite cmp_refl in Hc|done].
Qed.
Lemma set_is_subset_iff l l' :
  StronglySorted (fun x y => lt x y) l' -> set_is_subset cmp l l' = true <-> l ⊆ l'.
Proof.
  intros Hs. unfold set_is_subset. rewrite forallb_forall. split.
  - intros H x Hx. apply set_contains_iff; [done|]. apply H. by apply elem_of_list_In.
  - intros H x Hx. apply set_contains_iff; [done|]. apply H. by apply elem_of_list_In.
Qed.
End facts.

(** A set of pairs with distinct first components never compares the second ones. *)
Section pairs.
Context {K V : Type} (cmp : K -> K -> comparison) (Hcmp : lawful_order cmp)
  (scmp : V -> V -> comparison).

Lemma pair_insert_perm x l :
  x.1 ∉ l.*1 -> set_insert (pair_cmp cmp scmp) x l ≡ₚ x :: l.
Proof.
  induction l as [|z l IH]; cbn; [done|]. intros [Hne Hn]%not_elem_of_cons.
  unfold pair_cmp. destruct (cmp x.1 z.1) eqn:Hc.
  - by apply (cmp_eq cmp Hcmp) in Hc.
  - done.
  - rewrite IH by done. apply Permutation_swap.
Qed.
Lemma pair_extend_perm l xs :
  NoDup (l ++ xs).*1 -> set_extend (pair_cmp cmp scmp) l xs ≡ₚ l ++ xs.
Proof.
  unfold set_extend. revert l. induction xs as [|x xs IH]; intros l Hnd; cbn; [by rewrite app_nil_r|].
  assert (x.1 ∉ l.*1) as Hx.
  { rewrite fmap_app in Hnd. apply NoDup_app in Hnd as (_ & Hd & _). intros Hin. apply (Hd _ Hin).
    cbn. by left. }
  assert (set_insert (pair_cmp cmp scmp) x l ++ xs ≡ₚ l ++ x :: xs) as Hp.
  { rewrite pair_insert_perm by done. cbn. apply Permutation_middle. }
  rewrite IH; [done|]. by rewrite Hp.
Qed.
End pairs.

Section seal_map.
Context {V : Type} (cmp : CellAddr -> CellAddr -> comparison) (Hcmp : lawful_order cmp).

(** The sorted list [l] represents the finite map [m]. *)
Definition represents (l : list (CellAddr * V)) (m : gmap CellAddr V) : Prop :=
  StronglySorted (fun x y => cmp x.1 y.1 = Lt) l /\ forall a v, (a, v) ∈ l <-> m !! a = Some v.

Lemma represents_nil : represents [] ∅.
Proof. split; [constructor|]. intros a v. by rewrite lookup_empty, elem_of_nil. Qed.

Lemma map_insert_elem k (v : V) l x :
  StronglySorted (fun x y => cmp x.1 y.1 = Lt) l ->
  x ∈ map_insert cmp k v l <-> x = (k, v) \/ (x.1 <> k /\ x ∈ l).
Proof.
  induction 1 as [|[k' v'] l Hs IH Hz]; cbn.
  { rewrite elem_of_list_singleton, elem_of_nil. naive_solver. }
  assert (forall y, y ∈ l -> cmp k k' = Eq \/ cmp k k' = Lt -> y.1 <> k) as Hne.
  { intros y Hy Hc Hk. subst k. rewrite list.Forall_forall in Hz. specialize (Hz _ Hy). cbn in Hz.
    destruct Hc as [Hc|Hc].
    - apply (cmp_eq cmp Hcmp) in Hc. rewrite Hc, (cmp_refl cmp Hcmp) in Hz. done.
    - pose proof (cmp_trans cmp Hcmp _ _ _ Hc Hz) as Hr. by rewrite (cmp_refl cmp Hcmp) in Hr. }
  destruct (cmp k k') eqn:Hc.
  - pose proof Hc as ->%(cmp_eq cmp Hcmp). rewrite !elem_of_cons. split.
    + intros [->|Hx]; [by left|right]. split; [by apply Hne; [|left]|by right].
    + intros [->|[H1 [->|H2]]]; [by left|done|by right].
  - rewrite !elem_of_cons. split.
    + intros [->|[->|Hx]]; [by left|right|right].
      * split; [|by left]. cbn. intros ->. by rewrite (cmp_refl cmp Hcmp) in Hc.
      * split; [by apply Hne; [|right]|by right].
    + naive_solver.
  - rewrite !elem_of_cons, IH. split.
    + intros [->|[->|[Hx Hl]]]; [right|by left|right].
      * split; [|by left]. cbn. intros ->. by rewrite (cmp_refl cmp Hcmp) in Hc.
      * split; [done|by right].
    + naive_solver.
Qed.
Lemma map_insert_sorted k (v : V) l :
  StronglySorted (fun x y => cmp x.1 y.1 = Lt) l ->
  StronglySorted (fun x y => cmp x.1 y.1 = Lt) (map_insert cmp k v l).
Proof.
  induction 1 as [|[k' v'] l Hs IH Hz]; cbn; [by repeat constructor|].
  destruct (cmp k k') eqn:Hc.
  - by constructor.
  - constructor; [by constructor|]. constructor; [done|].
    eapply Forall_impl; [exact Hz|]. intros y Hy. by eapply (cmp_trans cmp Hcmp).
  - constructor; [done|]. rewrite list.Forall_forall in *. intros y Hy.
    apply map_insert_elem in Hy as [->|[_ Hy]]; [|by apply Hz|done].
    cbn. by apply (cmp_gt cmp Hcmp).
Qed.
Lemma map_insert_represents k (v : V) l m :
  represents l m -> represents (map_insert cmp k v l) (<[k := v]> m).
Proof.
  intros [Hs Hl]. split; [by apply map_insert_sorted|]. intros a x.
  rewrite (map_insert_elem _ _ _ _ Hs), lookup_insert_Some, Hl. cbn. naive_solver.
Qed.
Lemma map_extend_represents l m xs :
  represents l m -> represents (map_extend cmp l xs) (foldl (fun m e => <[e.1 := e.2]> m) m xs).
Proof.
  unfold map_extend. revert l m. induction xs as [|x xs IH]; intros l m H; cbn; [done|].
  apply IH. by apply map_insert_represents.
Qed.
Lemma map_remove_represents k l m :
  represents l m ->
  match map_remove cmp k l with
  | None => m !! k = None
  | Some (v, r) => m !! k = Some v /\ represents r (delete k m)
  end.
Proof.
  intros [Hs Hl].
  assert (match map_remove cmp k l with
          | None => forall v, (k, v) ∉ l
          | Some (v, r) => (k, v) ∈ l /\ StronglySorted (fun x y => cmp x.1 y.1 = Lt) r /\
                           forall x, x ∈ r <-> x.1 <> k /\ x ∈ l
          end) as H.
  { clear Hl m. induction Hs as [|[k' v'] l Hs IH Hz]; cbn.
    { intros v Hv. by apply elem_of_nil in Hv. }
    assert (forall y, y ∈ l -> cmp k k' = Eq \/ cmp k k' = Lt -> y.1 <> k) as Hne.
    { intros y Hy Hc Hk. subst k. rewrite list.Forall_forall in Hz. specialize (Hz _ Hy). cbn in Hz.
      destruct Hc as [Hc|Hc].
      - apply (cmp_eq cmp Hcmp) in Hc. rewrite Hc, (cmp_refl cmp Hcmp) in Hz. done.
      - pose proof (cmp_trans cmp Hcmp _ _ _ Hc Hz) as Hr. by rewrite (cmp_refl cmp Hcmp) in Hr. }
    destruct (cmp k k') eqn:Hc.
    - pose proof Hc as ->%(cmp_eq cmp Hcmp). split; [by left|]. split; [done|].
      intros x. rewrite elem_of_cons. split.
      + intros Hx. split; [by apply Hne; [|left]|by right].
      + intros [Hx [->|Hin]]; done.
    - intros v [Heq|Hin]%elem_of_cons.
      + injection Heq as -> _. by rewrite (cmp_refl cmp Hcmp) in Hc.
      + apply (Hne _ Hin); [by right|done].
    - destruct (map_remove cmp k l) as [[v r]|].
      + destruct IH as (H1 & H2 & H3). split; [by right|]. split.
        * constructor; [done|]. rewrite list.Forall_forall in *. intros y Hy. apply Hz. by apply H3.
        * intros x. rewrite !elem_of_cons, H3. split.
          -- intros [->|[Hx Hin]]; [|by auto]. split; [|by left]. cbn. intros ->.
             by rewrite (cmp_refl cmp Hcmp) in Hc.
          -- naive_solver.
      + intros v [Heq|Hin]%elem_of_cons.
        * injection Heq as -> _. by rewrite (cmp_refl cmp Hcmp) in Hc.
        * by apply (IH v). }
  destruct (map_remove cmp k l) as [[v r]|].
  - destruct H as (H1 & H2 & H3). split; [by apply Hl|]. split; [done|].
    intros a x. rewrite H3, Hl, lookup_delete_Some. cbn. naive_solver.
  - apply eq_None_not_Some. intros [v Hv]. apply (H v). by apply Hl.
Qed.
End seal_map.

(** ** The orders of the code are lawful *)
Lemma N_compare_trans x y z : N.compare x y = Lt -> N.compare y z = Lt -> N.compare x z = Lt.
Proof. rewrite !N.compare_lt_iff. lia. Qed.
Lemma bytes_cmp_lawful : lawful_order bytes_cmp.
Proof.
  split.
  - intros x. induction x as [|b x IH]; intros [|b' y]; cbn; try done.
    destruct (N.compare b b') eqn:Hc.
    + apply N.compare_eq_iff in Hc as ->. rewrite IH. split; [by intros ->|by intros [= ->]].
    + split; [done|]. intros [= -> ->]. by rewrite N.compare_refl in Hc.
    + split; [done|]. intros [= -> ->]. by rewrite N.compare_refl in Hc.
  - intros x. induction x as [|b x IH]; intros [|b' y]; cbn; try done.
    rewrite (N.compare_antisym b b'). destruct (N.compare b b'); cbn; done.
  - intros x. induction x as [|b x IH]; intros [|b' y] [|b'' z]; cbn; try done.
    destruct (N.compare b b') eqn:H1; [|intros _|done].
    + apply N.compare_eq_iff in H1 as ->. destruct (N.compare b' b''); [apply IH|done|done].
    + destruct (N.compare b' b'') eqn:H2; [|intros _|done].
      * apply N.compare_eq_iff in H2 as ->. by rewrite H1.
      * by rewrite (N_compare_trans _ _ _ H1 H2).
Qed.
Lemma addr_cmp_lawful : lawful_order addr_cmp.
Proof.
  pose proof bytes_cmp_lawful as [B1 B2 B3]. unfold addr_cmp, opid_cmp. split.
  - intros [[o] p] [[o'] p']; cbn. destruct (bytes_cmp o o') eqn:Hc.
    + apply B1 in Hc as ->. rewrite N.compare_eq_iff. split; [by intros ->|by intros [= ->]].
    + split; [done|]. intros [= -> ->]. by rewrite (proj2 (B1 o' o')) in Hc.
    + split; [done|]. intros [= -> ->]. by rewrite (proj2 (B1 o' o')) in Hc.
  - intros [[o] p] [[o'] p']; cbn. rewrite (B2 o o'). destruct (bytes_cmp o o'); cbn; [apply N.compare_antisym|done|done].
  - intros [[o] p] [[o'] p'] [[o''] p'']; cbn.
    destruct (bytes_cmp o o') eqn:H1; [|intros _|done].
    + apply B1 in H1 as ->. destruct (bytes_cmp o' o''); [apply N_compare_trans|done|done].
    + destruct (bytes_cmp o' o'') eqn:H2; [|intros _|done].
      * apply B1 in H2 as ->. by rewrite H1.
      * by rewrite (B3 _ _ _ H1 H2).
Qed.
Lemma token_cmp_lawful : lawful_order token_cmp.
Proof.
  unfold token_cmp. split.
  - intros [x] [y]; cbn. rewrite N.compare_eq_iff. split; [by intros ->|by intros [= ->]].
  - intros [x] [y]; cbn. apply N.compare_antisym.
  - intros [x] [y] [z]; cbn. apply N_compare_trans.
Qed.

(** ** The two procedures agree *)
Section agree.
Context {P : SealProtocol} {U : Ultrasonic} (A : ContractApi P U) {E : Type}.
Context (acmp : CellAddr -> CellAddr -> comparison) (scmp : Seal P -> Seal P -> comparison)
        (tcmp : AuthToken -> AuthToken -> comparison).
Context (Hacmp : lawful_order acmp) (Htcmp : lawful_order tcmp).
Notation VError := (VerificationError P U E).

(** The same new contract and log; both fail with the same error, or succeed with related
    results. *)
Definition alike {X Y} (R : X -> Y -> Prop)
    (o : (Contract A * list (call P U)) * result VError X)
    (o' : (Contract A * list (call P U)) * result VError Y) : Prop :=
  o.1 = o'.1 /\ match o.2, o'.2 with
                | Ok x, Ok y => R x y
                | Err e, Err e' => e = e'
                | _, _ => False
                end.
Lemma alike_bind {X X' Y Y'} (R : X -> X' -> Prop) (Q : Y -> Y' -> Prop) m m' f f' s :
  alike R (m s) (m' s) -> (forall x x' s, R x x' -> alike Q (f x s) (f' x' s)) ->
  alike Q (bind A m f s) (bind A m' f' s).
Proof.
  intros [H1 H2] Hf. unfold bind. destruct (m s) as [s1 [x|e]], (m' s) as [s2 [x'|e']]; cbn in *;
    try done; subst.
  by apply Hf.
Qed.
Lemma alike_refl {X} (m : M A (E:=E) X) s : alike eq (m s) (m s).
Proof. split; [done|]. by destruct (m s).2. Qed.

Lemma defined_set_spec op : list_to_set (defined_set tcmp op) = defined_tokens op.
Proof.
  apply set_eq. intros x. unfold defined_set, defined_tokens.
  rewrite !elem_of_list_to_set, (set_extend_elem tcmp Htcmp), elem_of_nil. naive_solver.
Qed.
Lemma reported_set_spec (defs : gmap N (SealDef P)) :
  list_to_set (reported_set tcmp defs) = reported_tokens defs.
Proof.
  apply set_eq. intros x. unfold reported_set, reported_tokens.
  rewrite !elem_of_list_to_set, (set_extend_elem tcmp Htcmp), elem_of_nil, sorted_entries_perm.
  naive_solver.
Qed.
Lemma subset_spec op (defs : gmap N (SealDef P)) :
  set_is_subset tcmp (reported_set tcmp defs) (defined_set tcmp op) = true <->
  reported_tokens defs ⊆ defined_tokens op.
Proof.
  rewrite (set_is_subset_iff tcmp Htcmp).
  - rewrite <-reported_set_spec, <-defined_set_spec. split.
    + intros H x. rewrite !elem_of_list_to_set. apply H.
    + intros H x Hx. specialize (H x). rewrite !elem_of_list_to_set in H. by apply H.
  - apply (set_extend_sorted tcmp Htcmp). constructor.
Qed.

Lemma collect_alike ins seals m closed s :
  represents acmp seals m ->
  alike (fun x y => x.1 = y.1 /\ represents acmp x.2 y.2)
    (collect_ordered A acmp ins seals closed s) (collect_closed A ins m closed s).
Proof.
  revert seals m closed. induction ins as [|i ins IH]; intros seals m closed Hr; cbn [collect_ordered collect_closed].
  { by split. }
  pose proof (map_remove_represents acmp Hacmp (input_addr i) seals m Hr) as H.
  destruct (map_remove acmp (input_addr i) seals) as [[v r]|].
  - destruct H as [-> H]. by apply IH.
  - rewrite H. by split.
Qed.

Lemma pairs_perm opid (defs : gmap N (SealDef P)) :
  complete_pairs opid defs ≡ₚ complete_sources opid defs.
Proof. unfold complete_pairs, complete_sources. by rewrite sorted_entries_perm. Qed.
Lemma pairs_perm' opid (defs : gmap N (SealDef P)) wid :
  resolved_pairs opid defs wid ≡ₚ resolved_sources opid defs wid.
Proof. unfold resolved_pairs, resolved_sources. by rewrite sorted_entries_perm. Qed.

Lemma complete_nodup opid (defs : gmap N (SealDef P)) :
  NoDup (complete_sources opid defs).*1.
Proof.
  unfold complete_sources. pose proof (NoDup_fst_map_to_list defs) as H.
  induction (map_to_list defs) as [|[p d] l IH]; cbn; [constructor|].
  cbn in H. apply list.NoDup_cons in H as [Hp H]. destruct (to_src P d); cbn; [|by apply IH].
  constructor; [|by apply IH]. intros ((a & v) & Ha & Hin)%elem_of_list_fmap. cbn in Ha. subst a.
  apply elem_of_list_omap in Hin as ((p' & d') & Hin & Heq).
  cbn in Heq. destruct (to_src P d'); [|done]. apply (inj Some) in Heq. injection Heq as -> _. apply Hp. by apply (elem_of_list_fmap_1 fst _ (p, d')).
Qed.
Lemma sources_nodup opid (defs : gmap N (SealDef P)) wid :
  NoDup (complete_sources opid defs ++ resolved_sources opid defs wid).*1.
Proof.
  pose proof (NoDup_fst_map_to_list defs) as Hnd. unfold complete_sources, resolved_sources.
  induction (map_to_list defs) as [|[p d] l IH]; cbn; [constructor|].
  cbn in Hnd. apply list.NoDup_cons in Hnd as [Hp Hnd]. specialize (IH Hnd).
  match type of IH with NoDup ?L => assert (MkCellAddr opid p ∉ L) as Hn end.
  { intros ((a & v) & Ha & Hin)%elem_of_list_fmap. cbn in Ha. subst a.
    apply elem_of_app in Hin as [Hin|Hin]; apply elem_of_list_omap in Hin as ((p' & d') & Hin & Heq);
      cbn in Heq; destruct (to_src P d'); try done; apply (inj Some) in Heq; injection Heq as -> _;
      apply Hp; by apply (elem_of_list_fmap_1 fst _ (p, d')). }
  destruct (to_src P d); cbn.
  - constructor; done.
  - rewrite fmap_app. cbn. rewrite <-Permutation_middle. rewrite fmap_app in Hn, IH. by constructor.
Qed.

Lemma close_alike opid b closed s :
  alike (fun x y => NoDup y.*1 /\ x ≡ₚ y)
    (close_ordered A acmp scmp opid b closed s) (close_and_resolve A opid b closed s).
Proof.
  assert (set_extend (pair_cmp acmp scmp) [] (complete_pairs opid (defined_seals b)) ≡ₚ
          complete_sources opid (defined_seals b)) as Hc.
  { rewrite (pair_extend_perm acmp Hacmp); cbn.
    - apply pairs_perm.
    - rewrite pairs_perm. apply complete_nodup. }
  unfold close_ordered, close_and_resolve. destruct (witness b) as [w|].
  - destruct (witness_closes w closed (message_from P (opid_bytes opid))) as [u|e]; [|by split].
    unfold bind, mutate, ret. destruct s as [c t]. split; [done|]. cbn. split; [apply sources_nodup|].
    rewrite (pair_extend_perm acmp Hacmp).
    + by rewrite Hc, pairs_perm'.
    + rewrite Hc, pairs_perm'. apply sources_nodup.
  - destruct closed; [|by split]. split; [done|]. cbn. split; [apply complete_nodup|done].
Qed.

Lemma represents_unique (l : list (CellAddr * Seal P)) m m' :
  represents acmp l m -> represents acmp l m' -> m = m'.
Proof.
  intros [_ H] [_ H']. apply map_eq. intros a. apply option_eq. intros v. by rewrite <-H, <-H'.
Qed.

Lemma process_alike cid kid g seals m b s :
  represents acmp seals m ->
  alike (fun x y => represents acmp x y)
    (process_ordered A acmp scmp tcmp cid kid g seals b s) (process_block A cid kid g m b s).
Proof.
  intros Hr. unfold process_ordered, process_block.
  eapply alike_bind; [apply alike_refl|]. intros op ? s1 <-. cbn zeta.
  eapply alike_bind with (R := eq).
  { pose proof (subset_spec op (defined_seals b)) as Hs. rewrite reported_set_spec, defined_set_spec.
    destruct (decide (reported_tokens (defined_seals b) ⊆ defined_tokens op)) as [Hd|Hd].
    - rewrite (proj2 Hs Hd). by split.
    - destruct (set_is_subset _ _ _); [by destruct Hd; apply Hs|]. by split. }
  intros [] ? s2 <-. eapply alike_bind; [by apply collect_alike|].
  intros [cl sm] [cl' m'] s3 [Hcl Hm]. cbn in Hcl, Hm. subst cl'.
  eapply alike_bind; [apply alike_refl|]. intros v ? s4 <-.
  eapply alike_bind; [apply close_alike|]. intros so so' s5 [Hnd Hp].
  eapply alike_bind; [apply alike_refl|]. intros [] ? s6 <-.
  eapply alike_bind; [apply alike_refl|]. intros [] ? s7 <-.
  split; [done|]. cbn. rewrite <-(extend_seals_perm m' so so').
  - by apply map_extend_represents.
  - by rewrite Hp.
  - done.
Qed.

Lemma loop_agree (R : ReadOperation P E) fuel cid kid g seals m r s :
  represents acmp seals m ->
  ordered_loop A acmp scmp tcmp R fuel cid kid g seals r s = evaluate_loop A R fuel cid kid g m r s.
Proof.
  revert g seals m r s. induction fuel as [|fuel IH]; intros g seals m r [c t] Hr; cbn; [done|].
  destruct (read_operation R r) as [r' [[b|]|e]]; [|done|done].
  pose proof (process_alike cid kid g seals m b (c, t ++ [CallRead]) Hr) as [H1 H2].
  destruct (process_ordered _ _ _ _ _ _ _ _ _ _) as [s1 [x|e]], (process_block _ _ _ _ _ _ _) as [s2 [y|e']];
    cbn in H1, H2; subst; try done.
  by apply IH.
Qed.

Lemma evaluate_ordered_agrees (R : ReadOperation P E) fuel c r :
  evaluate_ordered A acmp scmp tcmp R fuel c r = evaluate_reader A R fuel c r.
Proof. unfold evaluate_ordered, evaluate_reader. apply loop_agree, represents_nil. Qed.
End agree.
