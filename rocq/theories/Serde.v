(** * Model of the derived serde form of [OperationSeals], src/verify.rs:45-62

    `derive(Serialize, Deserialize)` with `rename_all = "camelCase"` and no other attribute
    but bounds.  The struct is written as a map with the keys `operation`, `definedSeals`,
    `witness` in the order of declaration.  Reading follows the code generated by
    `serde_derive` (a dependency, not in /repo):
    - a map is read key by key; a repeated key of the struct is an error, other keys are
      ignored with their values; a missing key is an error, unless the field is an `Option`,
      which then is `None`;
    - a sequence is read as the fields in the order of declaration, all required;
    - everything else is an error.
    An `Option` is `null` or the value itself.

    Simplifications: values are trees as in JSON; their text is not modelled.  Elements
    after the third one of a sequence are an error, as in `serde_json`.  All errors are
    [None].  The forms of operations, of maps of definitions and of witnesses come from
    the dependencies, and are parameters. *)
From Verif Require Export ByteReader.

(** Values of a self-describing format. Keys may be repeated, and are kept in order. *)
Inductive value :=
  | VNull
  | VNum (n : N)
  | VStr (s : string)
  | VSeq (l : list value)
  | VMap (m : list (string * value)).

(** `Serialize` and `Deserialize` of a type *)
Record form (X : Type) := MkForm { ser : X -> value; de : value -> option X }.
Global Arguments MkForm {X}.
Global Arguments ser {X}.
Global Arguments de {X}.

(** What is written is read back. *)
Definition reads_back {X} (F : form X) : Prop := forall x, de F (ser F x) = Some x.

(** `Option<T>` *)
Definition f_option {X} (F : form X) : form (option X) := {|
  ser := fun o => match o with None => VNull | Some x => ser F x end;
  de := fun v => match v with VNull => Some None | _ => Some <$> de F v end
|}.

Section operation_seals.
Context {P : SealProtocol}.
Context (FOp : form Operation) (FDefs : form (gmap N (SealDef P))) (FWit : form (SealWitness P)).

(** The keys after `rename_all = "camelCase"` *)
Definition key_operation : string := "operation".
Definition key_defined_seals : string := "definedSeals".
Definition key_witness : string := "witness".

Definition ser_entry (b : OperationSeals P) : value :=
  VMap [(key_operation, ser FOp (operation b));
        (key_defined_seals, ser FDefs (defined_seals b));
        (key_witness, ser (f_option FWit) (witness b))].

(** The variables of the generated `visit_map`: one per field, empty until its key is read *)
Record fields := MkFields {
  f_op : option Operation;
  f_defs : option (gmap N (SealDef P));
  f_wit : option (option (SealWitness P))
}.

(** One key with its value *)
Definition visit_key (f : fields) (e : string * value) : option fields :=
  if String.eqb (fst e) key_operation then
    match f_op f with
    | Some _ => None (* duplicate field *)
    | None => (fun x => MkFields (Some x) (f_defs f) (f_wit f)) <$> de FOp (snd e)
    end
  else if String.eqb (fst e) key_defined_seals then
    match f_defs f with
    | Some _ => None
    | None => (fun x => MkFields (f_op f) (Some x) (f_wit f)) <$> de FDefs (snd e)
    end
  else if String.eqb (fst e) key_witness then
    match f_wit f with
    | Some _ => None
    | None => (fun x => MkFields (f_op f) (f_defs f) (Some x)) <$> de (f_option FWit) (snd e)
    end
  else Some f.

Fixpoint visit_keys (f : fields) (m : list (string * value)) : option fields :=
  match m with
  | [] => Some f
  | e :: m' => match visit_key f e with None => None | Some f' => visit_keys f' m' end
  end.

(** After the last key: missing fields *)
Definition finish (f : fields) : option (OperationSeals P) :=
  match f_op f, f_defs f with
  | Some op, Some defs => Some (MkOperationSeals op defs (default None (f_wit f)))
  | _, _ => None
  end.

Definition de_entry (v : value) : option (OperationSeals P) :=
  match v with
  | VMap m => match visit_keys (MkFields None None None) m with None => None | Some f => finish f end
  | VSeq [v1; v2; v3] =>
      match de FOp v1, de FDefs v2, de (f_option FWit) v3 with
      | Some op, Some defs, Some wit => Some (MkOperationSeals op defs wit)
      | _, _, _ => None
      end
  | _ => None
  end.

Definition f_operation_seals : form (OperationSeals P) := MkForm ser_entry de_entry.

(** ** Facts *)

(** The values of a key *)
Definition values_of (k : string) (m : list (string * value)) : list value :=
  snd <$> List.filter (fun e => String.eqb (fst e) k) m.

(** A field [cur] before, [new] after reading the values [vs] of its key *)
Definition field_read {X} (F : form X) (cur : option X) (vs : list value) (new : option X) : Prop :=
  match cur with
  | Some x => vs = [] /\ new = Some x
  | None => (vs = [] /\ new = None) \/ exists v x, vs = [v] /\ de F v = Some x /\ new = Some x
  end.

Lemma field_read_skip {X} (F : form X) cur new : field_read F cur [] new <-> cur = new.
Proof.
  unfold field_read. destruct cur; split.
  - by intros [_ ->].
  - by intros <-.
  - intros [[_ ->]|(? & ? & [=] & _)]. done.
  - intros <-. by left.
Qed.

Lemma field_read_cons {X} (F : form X) cur v vs new :
  field_read F cur (v :: vs) new <->
  cur = None /\ exists x, de F v = Some x /\ field_read F (Some x) vs new.
Proof.
  unfold field_read. destruct cur; split.
  - by intros [? _].
  - by intros [? _].
  - intros [[? _]|(v' & x & [= <- ->] & Hd & ->)]; [done|]. split; [done|]. by exists x.
  - intros (_ & x & Hd & -> & ->). right. by exists v, x.
Qed.

Lemma visit_keys_spec m f f' :
  visit_keys f m = Some f' <->
  field_read FOp (f_op f) (values_of key_operation m) (f_op f') /\
  field_read FDefs (f_defs f) (values_of key_defined_seals m) (f_defs f') /\
  field_read (f_option FWit) (f_wit f) (values_of key_witness m) (f_wit f').
Proof.
  revert f. induction m as [|[k v] m IH]; intros f.
  - cbn [visit_keys]. unfold values_of. cbn [List.filter fmap list_fmap].
    rewrite !field_read_skip. destruct f, f'; cbn. naive_solver.
  - cbn [visit_keys]. unfold visit_key. cbn [fst snd].
    assert (forall k', values_of k' ((k, v) :: m) =
      if String.eqb k k' then v :: values_of k' m else values_of k' m) as Hv.
    { intros k'. unfold values_of. cbn [List.filter fst]. by destruct (String.eqb k k'). }
    rewrite !Hv.
    destruct (String.eqb_spec k key_operation) as [->|N1]; [|
    destruct (String.eqb_spec k key_defined_seals) as [->|N2]; [|
    destruct (String.eqb_spec k key_witness) as [->|N3]]].
    + cbn [String.eqb Ascii.eqb Bool.eqb key_operation key_defined_seals key_witness].
      rewrite field_read_cons. destruct (f_op f) as [x|] eqn:E1; [naive_solver|].
      destruct (de FOp v) as [x|] eqn:E2; cbn [fmap option_fmap option_map]; [|naive_solver].
      rewrite IH. cbn [f_op f_defs f_wit]. naive_solver.
    + cbn [String.eqb Ascii.eqb Bool.eqb key_operation key_defined_seals key_witness].
      rewrite field_read_cons. destruct (f_defs f) as [x|] eqn:E1; [naive_solver|].
      destruct (de FDefs v) as [x|] eqn:E2; cbn [fmap option_fmap option_map]; [|naive_solver].
      rewrite IH. cbn [f_op f_defs f_wit]. naive_solver.
    + cbn [String.eqb Ascii.eqb Bool.eqb key_operation key_defined_seals key_witness].
      rewrite field_read_cons. destruct (f_wit f) as [x|] eqn:E1; [naive_solver|].
      destruct (de (f_option FWit) v) as [x|] eqn:E2; cbn [fmap option_fmap option_map]; [|naive_solver].
      rewrite IH. cbn [f_op f_defs f_wit]. naive_solver.
    + exact (IH f).
Qed.

Lemma de_map_spec m b :
  de_entry (VMap m) = Some b <->
  (exists v, values_of key_operation m = [v] /\ de FOp v = Some (operation b)) /\
  (exists v, values_of key_defined_seals m = [v] /\ de FDefs v = Some (defined_seals b)) /\
  ((values_of key_witness m = [] /\ witness b = None) \/
   exists v, values_of key_witness m = [v] /\ de (f_option FWit) v = Some (witness b)).
Proof.
  cbn [de_entry]. split.
  - intros H. destruct (visit_keys _ m) as [f|] eqn:Hk; [|done].
    apply visit_keys_spec in Hk as (H1 & H2 & H3). cbn [f_op f_defs f_wit field_read] in H1, H2, H3.
    unfold finish in H. destruct (f_op f) as [op|]; [|done]. destruct (f_defs f) as [ds|]; [|done].
    injection H as <-. cbn [operation defined_seals witness].
    destruct H1 as [[_ [=]]|(v1 & x1 & H1 & D1 & [= <-])].
    destruct H2 as [[_ [=]]|(v2 & x2 & H2 & D2 & [= <-])].
    split; [by exists v1|]. split; [by exists v2|].
    destruct H3 as [[H3 E]|(v3 & x3 & H3 & D3 & E)]; rewrite E.
    + by left.
    + right. by exists v3.
  - intros ((v1 & H1 & D1) & (v2 & H2 & D2) & H3).
    assert (exists w, field_read (f_option FWit) None (values_of key_witness m) w /\ default None w = witness b)
      as (w & Hw & Hd).
    { destruct H3 as [[H3 E]|(v3 & H3 & D3)]; rewrite H3.
      - exists None. split; [by left|]. by rewrite E.
      - exists (Some (witness b)). split; [|done]. right. by exists v3, (witness b). }
    assert (visit_keys (MkFields None None None) m =
      Some (MkFields (Some (operation b)) (Some (defined_seals b)) w)) as ->.
    { apply visit_keys_spec. cbn [f_op f_defs f_wit]. split; [|split; [|exact Hw]].
      - right. by exists v1, (operation b).
      - right. by exists v2, (defined_seals b). }
    unfold finish. cbn [f_op f_defs f_wit]. rewrite Hd. by destruct b.
Qed.

Lemma de_option_ser (w : option (SealWitness P)) :
  reads_back FWit ->
  de (f_option FWit) (ser (f_option FWit) w) = Some w <->
  forall x, w = Some x -> ser FWit x <> VNull.
Proof.
  intros H. destruct w as [x|]; cbn.
  - specialize (H x). split.
    + intros He y [= <-] Hn. by rewrite Hn in He.
    + intros Hn. specialize (Hn x eq_refl). destruct (ser FWit x); [done|..]; by rewrite H.
  - split; [|done]. by intros _ x [=].
Qed.

(** Maps with the same values of the keys of the struct are read as the same entry. *)
Lemma de_map_ext m m' :
  (forall k, k = key_operation \/ k = key_defined_seals \/ k = key_witness -> values_of k m ≡ₚ values_of k m') ->
  de_entry (VMap m) = de_entry (VMap m').
Proof.
  assert (forall m m', (forall k, k = key_operation \/ k = key_defined_seals \/ k = key_witness ->
      values_of k m ≡ₚ values_of k m') ->
    forall b, de_entry (VMap m) = Some b -> de_entry (VMap m') = Some b) as H.
  { clear. intros m m' Hk b. rewrite !de_map_spec.
    assert (forall k v, k = key_operation \/ k = key_defined_seals \/ k = key_witness ->
      values_of k m = [v] -> values_of k m' = [v]) as H1.
    { intros k v Hin He. apply Hk in Hin. rewrite He in Hin. symmetry. by apply Permutation_singleton_l. }
    assert (forall k, k = key_operation \/ k = key_defined_seals \/ k = key_witness ->
      values_of k m = [] -> values_of k m' = []) as H0.
    { intros k Hin He. apply Hk in Hin. rewrite He in Hin. symmetry. by apply Permutation_nil_l. }
    intros ((v1 & F1 & E1) & (v2 & F2 & E2) & F3).
    split; [exists v1; split; [apply H1; [by left|done]|done]|].
    split; [exists v2; split; [apply H1; [by right; left|done]|done]|].
    destruct F3 as [[F3 E3]|(v3 & F3 & E3)].
    - left. split; [apply H0; [by right; right|done]|done].
    - right. exists v3. split; [apply H1; [by right; right|done]|done]. }
  intros Hk. apply option_eq. intros b. split; [by apply H|]. apply H. intros k Hin. symmetry. by apply Hk.
Qed.

Lemma values_of_perm k m m' : m ≡ₚ m' -> values_of k m ≡ₚ values_of k m'.
Proof.
  intros Hm. unfold values_of. apply fmap_Permutation.
  induction Hm as [|x l l' H IH|x y l|l l' l'' H1 IH1 H2 IH2]; cbn [List.filter].
  - done.
  - destruct (String.eqb _ _); [by constructor|done].
  - destruct (String.eqb (fst x) k), (String.eqb (fst y) k); [apply perm_swap|done..].
  - by etransitivity.
Qed.

Lemma values_of_cons k k' v m :
  values_of k ((k', v) :: m) = if String.eqb k' k then v :: values_of k m else values_of k m.
Proof. unfold values_of. cbn [List.filter fst]. by destruct (String.eqb k' k). Qed.

Lemma de_map_perm m m' : m ≡ₚ m' -> de_entry (VMap m) = de_entry (VMap m').
Proof. intros Hm. apply de_map_ext. intros k _. by apply values_of_perm. Qed.

Lemma de_map_other k v m :
  k <> key_operation -> k <> key_defined_seals -> k <> key_witness ->
  de_entry (VMap ((k, v) :: m)) = de_entry (VMap m).
Proof.
  intros N1 N2 N3. apply de_map_ext. intros k' Hk'. rewrite values_of_cons.
  destruct (String.eqb_spec k k') as [->|_]; [|done]. naive_solver.
Qed.

Lemma de_map_null m :
  values_of key_witness m = [] -> de_entry (VMap ((key_witness, VNull) :: m)) = de_entry (VMap m).
Proof.
  intros H. apply option_eq. intros b. rewrite !de_map_spec, !values_of_cons, H.
  cbn [String.eqb Ascii.eqb Bool.eqb key_operation key_defined_seals key_witness].
  assert (((exists v, [VNull] = [v] /\ de (f_option FWit) v = Some (witness b)) <-> witness b = None)) as Hw.
  { split; [|intros ->; by exists VNull]. intros (v & [= <-] & [= E]). done. }
  split; intros (H1 & H2 & H3); (split; [exact H1|]); (split; [exact H2|]).
  - left. split; [done|]. destruct H3 as [[[=] _]|H3]. by apply Hw.
  - right. apply Hw. destruct H3 as [[_ H3]|(v & [=] & _)]. done.
Qed.

End operation_seals.

(** ** A consignment as a sequence of values

    /repo leaves reading to the implementor of [ReadOperation] (src/verify.rs:78-86).  The
    reader here decodes one value after the other with the derived `Deserialize`. *)
Definition value_reader {P : SealProtocol} (F : form (OperationSeals P)) : ReadOperation P DecodeError := {|
  Reader := list value;
  read_operation := fun l =>
    match l with
    | [] => ([], Ok None)
    | v :: r => match de F v with
                | Some b => (r, Ok (Some b))
                | None => (l, Err Malformed)
                end
    end
|}.

Lemma values_deliver {P : SealProtocol} (F : form (OperationSeals P)) pre bs rest :
  Forall2 (fun v b => de F v = Some b) pre bs -> delivers (value_reader F) (pre ++ rest) bs rest.
Proof.
  induction 1 as [|v b pre bs E _ IH]; [constructor|]. eapply delivers_cons; [|exact IH]. cbn. by rewrite E.
Qed.

Lemma values_split {P : SealProtocol} (F : form (OperationSeals P)) (vs : list value) :
  exists bs rest, delivers (value_reader F) vs bs rest /\
    ends (value_reader F) rest (if decide (rest = []) then None else Some Malformed) rest /\
    (exists pre, vs = pre ++ rest /\ Forall2 (fun v b => de F v = Some b) pre bs) /\
    forall v r, rest = v :: r -> de F v = None.
Proof.
  induction vs as [|v vs IH].
  - exists [], []. split; [constructor|]. split; [done|]. split; [by exists []|]. done.
  - destruct (de F v) as [b|] eqn:E.
    + destruct IH as (bs & rest & Hd & He & (pre & -> & Hp) & Hr). exists (b :: bs), rest.
      split; [|split; [exact He|split; [|exact Hr]]].
      * eapply delivers_cons; [|exact Hd]. cbn. by rewrite E.
      * exists (v :: pre). split; [done|]. by constructor.
    + exists [], (v :: vs). split; [constructor|]. split; [|split].
      * rewrite decide_False by done. red. cbn. by rewrite E.
      * by exists [].
      * by intros ? ? [= -> ->].
Qed.
