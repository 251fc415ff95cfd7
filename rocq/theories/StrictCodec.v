(** * Model of the derived strict encoding of [OperationSeals], src/verify.rs:43-62

    `#[derive(StrictEncode, StrictDecode)]` on a struct encodes the fields one after the
    other in the order of declaration (here: operation, defined_seals, witness) and decodes
    them in this order.  The encodings of the standard types are those of the
    `strict_encoding` crate: integers are little-endian; a `SmallOrdMap` is its length as
    `u16` followed by the entries in ascending order of keys, and decoding fails for keys
    out of order or repeated; an `Option` is a tag byte 0 or 1 followed by the value, if any;
    [SealWitness] is a struct with the fields published and client.  The encodings of
    operations, definitions and the two parts of witnesses are parameters. *)
From Verif Require Export Deps.
From stdpp Require Import sorting.
From Coq Require Import Lia.

(** A codec: writes a value; reads a value from the beginning of a stream. *)
Record codec (X : Type) := MkCodec { enc : X -> bytes; dec : bytes -> option (X * bytes) }.
Global Arguments MkCodec {X}.
Global Arguments enc {X}.
Global Arguments dec {X}.

(** Values satisfying [wf] are read back, leaving the rest of the stream untouched; and
    each string that can be read is the encoding of the value read. *)
Definition lawful {X} (C : codec X) (wf : X -> Prop) : Prop :=
  (forall x r, wf x -> dec C (enc C x ++ r) = Some (x, r)) /\
  (forall l x r, dec C l = Some (x, r) -> wf x /\ l = enc C x ++ r).

(** ** Combinators *)
Definition c_u8 : codec N := {|
  enc := fun n => [n];
  dec := fun l => match l with
                  | n :: r => if decide (n < 256)%N then Some (n, r) else None
                  | [] => None
                  end
|}.

Definition c_u16 : codec N := {|
  enc := fun n => [n mod 256; n / 256]%N;
  dec := fun l => match l with
                  | lo :: hi :: r =>
                      if decide (lo < 256 /\ hi < 256)%N then Some (lo + 256 * hi, r)%N else None
                  | _ => None
                  end
|}.

Definition c_pair {X Y} (C : codec X) (D : codec Y) : codec (X * Y) := {|
  enc := fun p => enc C p.1 ++ enc D p.2;
  dec := fun l => match dec C l with
                  | None => None
                  | Some (x, l1) =>
                      match dec D l1 with
                      | None => None
                      | Some (y, l2) => Some ((x, y), l2)
                      end
                  end
|}.

Definition c_iso {X Y} (f : Y -> X) (g : X -> Y) (C : codec X) : codec Y := {|
  enc := fun y => enc C (f y);
  dec := fun l => match dec C l with None => None | Some (x, r) => Some (g x, r) end
|}.

Definition c_option {X} (C : codec X) : codec (option X) := {|
  enc := fun o => match o with None => [0%N] | Some x => 1%N :: enc C x end;
  dec := fun l => match l with
                  | 0%N :: r => Some (None, r)
                  | 1%N :: r => match dec C r with None => None | Some (x, r') => Some (Some x, r') end
                  | _ => None
                  end
|}.

Fixpoint dec_many {X} (C : codec X) (n : nat) (l : bytes) : option (list X * bytes) :=
  match n with
  | O => Some ([], l)
  | S n => match dec C l with
           | None => None
           | Some (x, l1) =>
               match dec_many C n l1 with
               | None => None
               | Some (xs, l2) => Some (x :: xs, l2)
               end
           end
  end.

(** A vector: its length, then its elements. *)
Definition c_list {X} (L : codec N) (C : codec X) : codec (list X) := {|
  enc := fun xs => enc L (N.of_nat (length xs)) ++ concat (enc C <$> xs);
  dec := fun l => match dec L l with
                  | None => None
                  | Some (n, l1) => dec_many C (N.to_nat n) l1
                  end
|}.

(** Ascending keys, without repetitions. *)
Definition key_lt {X} (p q : N * X) : Prop := (p.1 < q.1)%N.
Definition key_le {X} (p q : N * X) : Prop := (p.1 <= q.1)%N.
Global Instance key_lt_dec {X} (p q : N * X) : Decision (key_lt p q).
Proof. unfold key_lt. apply _. Defined.
Global Instance key_le_dec {X} (p q : N * X) : Decision (key_le p q).
Proof. unfold key_le. apply _. Defined.

Fixpoint ascending {X} (l : list (N * X)) : bool :=
  match l with
  | p :: (q :: _) as l' => bool_decide (key_lt p q) && ascending l'
  | _ => true
  end.

Definition sorted_entries {X} (m : gmap N X) : list (N * X) := merge_sort key_le (map_to_list m).

(** A `SmallOrdMap<u16, _>`. *)
Definition c_ordmap {X} (C : codec X) : codec (gmap N X) := {|
  enc := fun m => enc (c_list c_u16 (c_pair c_u16 C)) (sorted_entries m);
  dec := fun l => match dec (c_list c_u16 (c_pair c_u16 C)) l with
                  | None => None
                  | Some (es, r) => if ascending es then Some (list_to_map es, r) else None
                  end
|}.

(** ** [SealWitness], [OperationSeals] *)
Section op_seals.
Context {P : SealProtocol}
  (COp : codec Operation) (CDef : codec (SealDef P))
  (CPub : codec (Published P)) (CCli : codec (Client P)).

Definition c_witness : codec (SealWitness P) :=
  c_iso (fun w => (published w, client w)) (fun p => MkSealWitness p.1 p.2) (c_pair CPub CCli).

(** The struct of src/verify.rs:55-62. *)
Definition c_operation_seals : codec (OperationSeals P) :=
  c_iso (fun b => (operation b, (defined_seals b, witness b)))
        (fun p => MkOperationSeals p.1 p.2.1 p.2.2)
        (c_pair COp (c_pair (c_ordmap CDef) (c_option c_witness))).
End op_seals.

(** ** Laws *)
Lemma lawful_u8 : lawful c_u8 (fun n => (n < 256)%N).
Proof.
  split.
  - intros x r H. cbn. by rewrite decide_True.
  - intros [|n l] x r; cbn; [done|]. case_decide; [|done]. by intros [= <- <-].
Qed.

Lemma lawful_u16 : lawful c_u16 (fun n => (n < 65536)%N).
Proof.
  split.
  - intros x r H. cbn -[N.mul N.div N.modulo].
    rewrite decide_True.
    + do 2 f_equal. rewrite N.add_comm. symmetry. apply N.div_mod. done.
    + split; [by apply N.mod_lt|]. by apply N.div_lt_upper_bound.
  - intros [|lo [|hi l]] x r; cbn -[N.mul N.div N.modulo]; try done. case_decide as H; [|done].
    destruct H. intros Heq. assert (x = (lo + 256 * hi)%N /\ r = l) as [-> ->] by (split; congruence).
    split; [lia|]. f_equal; [|f_equal].
    + rewrite N.mul_comm, N.mod_add, N.mod_small; lia.
    + rewrite N.mul_comm, N.div_add, N.div_small; lia.
Qed.

Lemma lawful_pair {X Y} (C : codec X) (D : codec Y) (wf : X -> Prop) (wf' : Y -> Prop) :
  lawful C wf -> lawful D wf' -> lawful (c_pair C D) (fun p => wf p.1 /\ wf' p.2).
Proof.
  intros [H1 H2] [H1' H2']. split.
  - intros [x y] r [Hx Hy]. cbn. rewrite <-app_assoc, H1 by done. by rewrite H1'.
  - intros l [x y] r. cbn. destruct (dec C l) as [[x1 l1]|] eqn:E; [|done].
    destruct (dec D l1) as [[y1 l2]|] eqn:E'; [|done]. intros [= -> -> ->].
    apply H2 in E as [Hx ->]. apply H2' in E' as [Hy ->]. by rewrite app_assoc.
Qed.

Lemma lawful_iso {X Y} (f : Y -> X) (g : X -> Y) (C : codec X) (wf : X -> Prop) :
  (forall y, g (f y) = y) -> (forall x, wf x -> f (g x) = x) ->
  lawful C wf -> lawful (c_iso f g C) (fun y => wf (f y)).
Proof.
  intros Hgf Hfg [H1 H2]. split.
  - intros y r H. cbn. rewrite H1 by done. by rewrite Hgf.
  - intros l y r. cbn. destruct (dec C l) as [[x l1]|] eqn:E; [|done]. intros [= <- ->].
    apply H2 in E as [Hx ->]. by rewrite Hfg.
Qed.

Lemma lawful_option {X} (C : codec X) (wf : X -> Prop) :
  lawful C wf -> lawful (c_option C) (fun o => match o with None => True | Some x => wf x end).
Proof.
  intros [H1 H2]. split.
  - intros [x|] r H; cbn; [|done]. by rewrite H1.
  - intros [|[|[n|n|]] l] o r; cbn; try done.
    + by intros [= <- <-].
    + destruct (dec C l) as [[x l1]|] eqn:E; [|done]. intros [= <- ->].
      by apply H2 in E as [Hx ->].
Qed.

Lemma lawful_many {X} (C : codec X) (wf : X -> Prop) :
  lawful C wf ->
  (forall xs r, Forall wf xs -> dec_many C (length xs) (concat (enc C <$> xs) ++ r) = Some (xs, r)) /\
  (forall n l xs r, dec_many C n l = Some (xs, r) ->
     length xs = n /\ Forall wf xs /\ l = concat (enc C <$> xs) ++ r).
Proof.
  intros [H1 H2]. split.
  - intros xs r H. induction H as [|x xs Hx _ IH]; [done|]. cbn. rewrite <-app_assoc, H1 by done.
    by rewrite IH.
  - induction n as [|n IH]; intros l xs r; cbn.
    + intros [= <- <-]. by repeat split.
    + destruct (dec C l) as [[x l1]|] eqn:E; [|done].
      destruct (dec_many C n l1) as [[xs1 l2]|] eqn:E'; [|done]. intros [= <- <-].
      apply H2 in E as [Hx ->]. apply IH in E' as (<- & Hxs & ->). cbn.
      split; [done|]. split; [by constructor|]. by rewrite app_assoc.
Qed.

Lemma lawful_list {X} (L : codec N) (C : codec X) (wfL : N -> Prop) (wf : X -> Prop) :
  lawful L wfL -> lawful C wf ->
  lawful (c_list L C) (fun xs => wfL (N.of_nat (length xs)) /\ Forall wf xs).
Proof.
  intros [L1 L2] HC. destruct (lawful_many C wf HC) as [H1 H2]. split.
  - intros xs r [Hl Hxs]. cbn. rewrite <-app_assoc, L1 by done. rewrite Nat2N.id. by apply H1.
  - intros l xs r. cbn. destruct (dec L l) as [[n l1]|] eqn:E; [|done]. intros E'.
    apply L2 in E as [Hn ->]. apply H2 in E' as (Hlen & Hxs & ->).
    rewrite Hlen, N2Nat.id. split; [done|]. by rewrite app_assoc.
Qed.

(** Ascending lists *)
Lemma ascending_sorted {X} (l : list (N * X)) : ascending l = true <-> StronglySorted key_lt l.
Proof.
  assert (Transitive (@key_lt X)) by (intros x y z; unfold key_lt; lia).

  split.
  - intros H1. apply Sorted_StronglySorted; [done|].
    induction l as [|p [|q l] IH]; [constructor|by repeat constructor|].
    cbn in H1. apply andb_true_iff in H1 as [Hpq Hl]. apply bool_decide_eq_true in Hpq.
    constructor; [by apply IH|by constructor].
  - intros H1. apply StronglySorted_Sorted in H1. induction l as [|p [|q l] IH]; [done|done|].
    inversion H1 as [|? ? Hs Hh]; subst. inversion Hh; subst.
    cbn. apply andb_true_iff. split; [by apply bool_decide_eq_true|]. by apply IH.
Qed.

Lemma sorted_lt_nodup {X} (l : list (N * X)) : StronglySorted key_lt l -> NoDup l.*1.
Proof.
  induction 1 as [|p l _ IH Hall]; cbn; constructor; [|done].
  intros (q & Hq & Hin)%elem_of_list_fmap. rewrite list.Forall_forall in Hall.
  specialize (Hall _ Hin). unfold key_lt in Hall. rewrite Hq in Hall. lia.
Qed.

Lemma sorted_lt_unique {X} (l l' : list (N * X)) :
  StronglySorted key_lt l -> StronglySorted key_lt l' -> l ≡ₚ l' -> l = l'.
Proof.
  assert (AntiSymm (=) (@key_lt X)) by (intros x y Hx Hy; unfold key_lt in *; lia).
  intros H1 H2. by apply (StronglySorted_unique key_lt).
Qed.

Lemma sorted_entries_perm {X} (m : gmap N X) : sorted_entries m ≡ₚ map_to_list m.
Proof. apply merge_sort_Permutation. Qed.

Lemma sorted_entries_sorted {X} (m : gmap N X) : StronglySorted key_lt (sorted_entries m).
Proof.
  assert (StronglySorted key_le (sorted_entries m)) as H.
  { apply Sorted_StronglySorted; [intros x y z; unfold key_le; lia|].
    apply Sorted_merge_sort. intros x y. unfold key_le. lia. }
  assert (NoDup (sorted_entries m).*1) as Hnd.
  { rewrite sorted_entries_perm. apply NoDup_fst_map_to_list. }
  induction H as [|p l _ IH Hall]; [constructor|]. cbn in Hnd. apply NoDup_cons in Hnd as [Hp Hnd].
  constructor; [by apply IH|]. rewrite list.Forall_forall in *. intros q Hq.
  specialize (Hall q Hq). unfold key_le, key_lt in *.
  assert (p.1 <> q.1). { intros Heq. apply Hp. rewrite Heq. by apply elem_of_list_fmap_1. } lia.
Qed.

Lemma sorted_entries_to_map {X} (m : gmap N X) : list_to_map (sorted_entries m) = m.
Proof.
  rewrite (list_to_map_proper _ (map_to_list m)).
  - apply list_to_map_to_list.
  - rewrite sorted_entries_perm. apply NoDup_fst_map_to_list.
  - apply sorted_entries_perm.
Qed.

Lemma sorted_entries_of_list {X} (l : list (N * X)) :
  StronglySorted key_lt l -> sorted_entries (list_to_map l) = l.
Proof.
  intros H. apply sorted_lt_unique; [apply sorted_entries_sorted|done|].
  rewrite sorted_entries_perm. apply map_to_list_to_map. by apply sorted_lt_nodup.
Qed.

(** Maps that fit in a `SmallOrdMap<u16, _>`. *)
Definition small_map {X} (wf : X -> Prop) (m : gmap N X) : Prop :=
  (N.of_nat (size m) < 65536)%N /\ forall k x, m !! k = Some x -> (k < 65536)%N /\ wf x.

Lemma lawful_ordmap {X} (C : codec X) (wf : X -> Prop) : lawful C wf -> lawful (c_ordmap C) (small_map wf).
Proof.
  intros HC.
  destruct (lawful_list _ _ _ _ lawful_u16 (lawful_pair _ _ _ _ lawful_u16 HC)) as [H1 H2].
  assert (forall m, small_map wf m <->
    (N.of_nat (length (sorted_entries m)) < 65536)%N /\
    Forall (fun p => (p.1 < 65536)%N /\ wf p.2) (sorted_entries m)) as Hwf.
  { intros m. unfold small_map. rewrite !sorted_entries_perm, list.Forall_forall.
    change (length (map_to_list m)) with (size m). split.
    - intros [Hs Hk]. split; [lia|]. intros [k x] Hkx%elem_of_map_to_list. by apply Hk.
    - intros [Hs Hk]. split; [lia|]. intros k x Hkx. by apply (Hk (k, x)), elem_of_map_to_list. }
  split.
  - intros m r Hm. unfold c_ordmap. cbn [enc dec].
    rewrite H1 by (by apply Hwf).
    pose proof (sorted_entries_sorted m) as Hs. apply ascending_sorted in Hs. rewrite Hs.
    by rewrite sorted_entries_to_map.
  - intros l m r. unfold c_ordmap. cbn [enc dec].
    destruct (dec (c_list c_u16 (c_pair c_u16 C)) l) as [[es r1]|] eqn:E; [|done].
    destruct (ascending es) eqn:Ha; [|done]. intros [= <- ->].
    apply ascending_sorted in Ha. apply H2 in E as [Hes ->].
    pose proof (sorted_entries_of_list es Ha) as Hse. split.
    + apply Hwf. by rewrite Hse.
    + by rewrite Hse.
Qed.

(** Values of [OperationSeals] that can exist: the maps are within their bounds. *)
Definition entry_wf {P : SealProtocol} (wfOp : Operation -> Prop) (wfDef : SealDef P -> Prop)
    (wfPub : Published P -> Prop) (wfCli : Client P -> Prop) (b : OperationSeals P) : Prop :=
  wfOp (operation b) /\ small_map wfDef (defined_seals b) /\
  match witness b with None => True | Some w => wfPub (published w) /\ wfCli (client w) end.

Lemma lawful_operation_seals {P : SealProtocol} (COp : codec Operation) (CDef : codec (SealDef P))
    (CPub : codec (Published P)) (CCli : codec (Client P)) wfOp wfDef wfPub wfCli :
  lawful COp wfOp -> lawful CDef wfDef -> lawful CPub wfPub -> lawful CCli wfCli ->
  lawful (c_operation_seals COp CDef CPub CCli) (entry_wf wfOp wfDef wfPub wfCli).
Proof.
  intros HO HD HP HC. unfold c_operation_seals.
  set (wfw := fun w : SealWitness P => wfPub (published w) /\ wfCli (client w)).
  assert (lawful (c_witness CPub CCli) wfw) as HW.
  { refine (lawful_iso (fun w : SealWitness P => (published w, client w))
      (fun p => MkSealWitness p.1 p.2) (c_pair CPub CCli) (fun p => wfPub p.1 /\ wfCli p.2) _ _ _);
      [by intros []|by intros []|].
    by apply lawful_pair. }
  refine (lawful_iso (fun b : OperationSeals P => (operation b, (defined_seals b, witness b)))
        (fun p => MkOperationSeals p.1 p.2.1 p.2.2)
        (c_pair COp (c_pair (c_ordmap CDef) (c_option (c_witness CPub CCli)))) (fun p => wfOp p.1 /\ (small_map wfDef p.2.1 /\
     match p.2.2 with None => True | Some w => wfw w end)) _ _ _).
  - by intros [].
  - by intros [? [? ?]].
  - apply (lawful_pair COp _ wfOp (fun p => small_map wfDef p.1 /\ match p.2 with None => True | Some w => wfw w end)); [done|].
    apply (lawful_pair (c_ordmap CDef) _ (small_map wfDef) (fun o => match o with None => True | Some w => wfw w end)).
    + by apply lawful_ordmap.
    + by apply lawful_option.
Qed.

(** ** Consequences of lawfulness *)
Lemma lawful_prefix_free {X} (C : codec X) (wf : X -> Prop) x y r r' :
  lawful C wf -> wf x -> wf y -> enc C x ++ r = enc C y ++ r' -> x = y /\ r = r'.
Proof.
  intros [H1 _] Hx Hy Heq. pose proof (H1 x r Hx) as H. rewrite Heq, (H1 y r' Hy) in H.
  by injection H as -> ->.
Qed.

(** A whole stream: entries one after the other. *)
Lemma lawful_stream {X} (C : codec X) (wf : X -> Prop) xs r :
  lawful C wf -> Forall wf xs ->
  dec_many C (length xs) (concat (enc C <$> xs) ++ r) = Some (xs, r).
Proof. intros H Hxs. by apply (proj1 (lawful_many C wf H)). Qed.
