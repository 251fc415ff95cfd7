(** * The texts of errors: `Display` and `Debug` of [VerificationError]
    (src/verify.rs:263-313) *)
From Verif Require Export Api.
From stdpp Require Import pretty sorting.
From Coq Require Import Ascii Lia.
Local Open Scope string_scope.
Local Arguments String.append !_ _ : simpl nomatch.

(** ** The format of doc comments and of `{:#?}`

    The texts come from the derive macro of the `amplify` crate, `#[display(doc_comments)]`
    (src/verify.rs:264), whose source is not in /repo.  What it does is visible in the texts
    which the tests expect (src/verify.rs:519, 532-553, 567, 599, 617-624): the lines of a
    paragraph are joined with a blank, paragraphs with a line break. *)
Definition newline : string := String "010" "".
Definition paragraphs (l : list string) : string := String.concat newline l.
Definition lines (l : list string) : string := String.concat " " l.

(** `{:#?}` of the standard library (used at src/verify.rs:289-293): what is nested is
    indented by four blanks, each element is followed by a comma and a line break. *)
Fixpoint pad (s : string) : string :=
  match s with
  | "" => ""
  | String c s => if decide (c = "010"%char) then String c ("    " +:+ pad s) else String c (pad s)
  end.
Definition nested (s : string) : string := "    " +:+ pad s +:+ "," +:+ newline.
Definition debug_tuple (name s : string) : string := name +:+ "(" +:+ newline +:+ nested s +:+ ")".
Definition debug_braces (l : list string) : string :=
  match l with
  | [] => "{}"
  | _ => "{" +:+ newline +:+ foldr (fun s r => nested s +:+ r) "}" l
  end.

(** Hexadecimal digits, `k` of them. *)
Definition hex_digit (x : N) : ascii :=
  match x with
  | 0 => "0" | 1 => "1" | 2 => "2" | 3 => "3" | 4 => "4" | 5 => "5" | 6 => "6" | 7 => "7"
  | 8 => "8" | 9 => "9" | 10 => "a" | 11 => "b" | 12 => "c" | 13 => "d" | 14 => "e" | _ => "f"
  end%char%N.
Fixpoint hex (k : nat) (x : N) (s : string) : string :=
  match k with
  | O => s
  | S k => hex k (x / 16) (String (hex_digit (x mod 16)) s)
  end.

(** `AuthToken` (src/verify.rs:535-539). *)
Definition debug_token (t : AuthToken) : string :=
  debug_tuple "AuthToken" (debug_tuple "fe256" ("0x" +:+ hex 64 (auth_token_value t) "")).
(** `BTreeSet<AuthToken>`: in ascending order (src/verify.rs:534-547). *)
Definition token_le (t t' : AuthToken) : Prop := (auth_token_value t <= auth_token_value t')%N.
Global Instance token_le_dec t t' : Decision (token_le t t').
Proof. unfold token_le. apply _. Defined.
Definition debug_tokens (s : gset AuthToken) : string :=
  debug_braces (debug_token <$> merge_sort token_le (elements s)).

(** `char::escape_debug` as used for strings.  Simplification: characters are bytes; those
    from 128 on, parts of characters which may be printable or not, are left as they are. *)
Definition escape_char (c : ascii) : string :=
  if decide (c = "034"%char) then "\" +:+ String "034" ""
  else if decide (c = "\"%char) then "\\"
  else if decide (c = "010"%char) then "\n"
  else if decide (c = "013"%char) then "\r"
  else if decide (c = "009"%char) then "\t"
  else if decide (c = "000"%char) then "\0"
  else if decide (N_of_ascii c < 16)%N then "\u{" +:+ hex 1 (N_of_ascii c) "}"
  else if decide (N_of_ascii c < 32)%N then "\u{" +:+ hex 2 (N_of_ascii c) "}"
  else if decide (N_of_ascii c = 127)%N then "\u{7f}"
  else String c "".
Fixpoint escape (s : string) : string :=
  match s with "" => "" | String c s => escape_char c +:+ escape s end.
(** An entry of a `BTreeMap<u16, String>` (src/verify.rs:551). *)
Definition debug_source (x : N * string) : string :=
  pretty x.1 +:+ ": " +:+ String "034" (escape x.2 +:+ String "034" "").
Definition source_le (x y : N * string) : Prop := (x.1 <= y.1)%N.
Global Instance source_le_dec x y : Decision (source_le x y).
Proof. unfold source_le. apply _. Defined.
Definition debug_sources (m : gmap N string) : string :=
  debug_braces (debug_source <$> merge_sort source_le (map_to_list m)).

(** ** The texts of [VerificationError] *)
Section display.
Context {P : SealProtocol} {U : Ultrasonic} {E : Type}.

(** `Display` of the types from elsewhere. *)
Record Texts := {
  show_stream : E -> string;
  show_opid : Opid -> string;
  show_witness : WitnessId P -> string;
  show_seal_error : SealError P -> string;
  show_call_error : CallError U -> string
}.
Variable T : Texts.

(** `CellAddr`: the operation and the position (src/verify.rs:567). *)
Definition show_cell (a : CellAddr) : string := show_opid T (cell_opid a) +:+ ":" +:+ pretty (cell_pos a).

(** `impl Display for VerificationError` (src/verify.rs:263-306). *)
Definition display (e : VerificationError P U E) : string :=
  match e with
  | Stream e => paragraphs ["error reading the consignment stream."; "Details: " +:+ show_stream T e]
  | NoCodexCommitment => "genesis does not commit to the codex id; a wrong contract genesis is used."
  | NoWitness o => "no witness known for the operation " +:+ show_opid T o +:+ "."
  | SealsNotClosed w o e =>
      paragraphs
        ["single-use seals are not closed properly with witness " +:+ show_witness T w +:+
         " for operation " +:+ show_opid T o +:+ ".";
         "Details: " +:+ show_seal_error T e]
  | SealUnknown a => "unknown seal definition for cell address " +:+ show_cell a +:+ "."
  | SealsDefinitionMismatch o reported defined sources =>
      paragraphs
        [lines ["seals, reported to be defined by the operation " +:+ show_opid T o +:+
                ", do match the assignments in the"; "operation."];
         "Actual operation seals from the assignments: " +:+ debug_tokens defined;
         "Reported seals: " +:+ debug_tokens reported;
         "Sources for the reported seals: " +:+ debug_sources sources]
  | Vm e => show_call_error T e
  end.
(** `impl Debug for VerificationError` (src/verify.rs:309-311). *)
Definition debug (e : VerificationError P U E) : string := display e.
End display.
Global Arguments Texts P U E : clear implicits.

(** ** Facts about strings *)
Lemma append_assoc (s t u : string) : (s +:+ t) +:+ u = s +:+ (t +:+ u).
Proof. induction s as [|c s IH]; [done|]. simpl. by rewrite IH. Qed.
Lemma append_nil_r (s : string) : s +:+ "" = s.
Proof. induction s as [|c s IH]; [done|]. simpl. by rewrite IH. Qed.
Lemma append_length (s t : string) : String.length (s +:+ t) = String.length s + String.length t.
Proof. induction s as [|c s IH]; [done|]. simpl. by rewrite IH. Qed.
Lemma append_cancel (s s' t t' : string) :
  String.length s = String.length s' -> s +:+ t = s' +:+ t' -> s = s' /\ t = t'.
Proof.
  revert s'. induction s as [|c s IH]; intros [|c' s'] Hl H; cbn in *; try done.
  injection H as -> H. injection Hl as Hl. by destruct (IH _ Hl H) as [-> ->].
Qed.
Lemma append_inj_l (s t t' : string) : s +:+ t = s +:+ t' -> t = t'.
Proof. intros H. by apply (append_cancel s s t t' eq_refl) in H as [_ ?]. Qed.
Lemma append_inj_r (s s' t : string) : s +:+ t = s' +:+ t -> s = s'.
Proof.
  intros H. eapply (append_cancel s s' t t); [|done].
  apply (f_equal String.length) in H. rewrite !append_length in H. lia.
Qed.

(** The character [c] does not occur in [s]. *)
Fixpoint lacks (c : ascii) (s : string) : Prop :=
  match s with "" => True | String d s => d <> c /\ lacks c s end.
Lemma lacks_append c (s t : string) : lacks c s -> lacks c t -> lacks c (s +:+ t).
Proof. induction s as [|d s IH]; cbn; [done|]. intros [? ?] ?. by auto. Qed.
Lemma append_delimited c (s s' t t' : string) :
  lacks c s -> lacks c s' -> s +:+ String c t = s' +:+ String c t' -> s = s' /\ t = t'.
Proof.
  revert s'. induction s as [|d s IH]; intros [|d' s']; cbn; intros Hs Hs' H.
  - by injection H as ->.
  - injection H as -> _. by destruct Hs'.
  - injection H as <- _. by destruct Hs.
  - injection H as -> H. destruct Hs, Hs'. destruct (IH s') as [-> ->]; done.
Qed.

Lemma pad_append (s t : string) : pad (s +:+ t) = pad s +:+ pad t.
Proof.
  induction s as [|c s IH]; [done|]. cbn [pad String.append]. case_decide; cbn; rewrite IH; done.
Qed.
Lemma pad_lacks (s : string) : lacks "010" s -> pad s = s.
Proof.
  induction s as [|c s IH]; [done|]. intros [Hc Hs]. cbn. rewrite decide_False by done. by rewrite IH.
Qed.
Lemma lacks_pretty c n : (forall x, pretty_N_char x <> c) -> lacks c (pretty (n : N)).
Proof.
  intros Hc. unfold pretty, pretty_N. case_decide; [split; [exact (Hc 0%N)|done]|].
  assert (forall x s, lacks c s -> lacks c (pretty_N_go x s)) as Hgo; [|by apply Hgo].
  intros x. induction (N.lt_wf_0 x) as [x _ IH]. intros s Hs.
  destruct (decide (x = 0)%N) as [->|]; [by rewrite pretty_N_go_0|].
  rewrite pretty_N_go_step by lia. apply IH; [apply N.div_lt; lia|]. split; [apply Hc|done].
Qed.
Lemma digit_not c x : (forall y, y < 10 -> pretty_N_char y <> c)%N -> pretty_N_char x <> c.
Proof.
  intros H. destruct (decide (x < 10)%N) as [|Hx]; [by apply H|].
  replace (pretty_N_char x) with (pretty_N_char 9); [apply H; lia|].
  unfold pretty_N_char. repeat case_match; try done; lia.
Qed.

Lemma lacks_hex c k x s : (forall y, hex_digit y <> c) -> lacks c s -> lacks c (hex k x s).
Proof. intros Hc. revert x s. induction k as [|k IH]; cbn; intros x s Hs; [done|]. apply IH. by split. Qed.
Lemma hex_length k x s : String.length (hex k x s) = k + String.length s.
Proof. revert x s. induction k as [|k IH]; cbn; intros x s; [done|]. rewrite IH. cbn. lia. Qed.
Lemma hex_digit_inj x y : (x < 16)%N -> (y < 16)%N -> hex_digit x = hex_digit y -> x = y.
Proof. compute; intros. by repeat (discriminate || case_match). Qed.
Lemma hex_inj k x y s s' :
  (x < 16 ^ N.of_nat k)%N -> (y < 16 ^ N.of_nat k)%N -> String.length s = String.length s' ->
  hex k x s = hex k y s' -> x = y /\ s = s'.
Proof.
  revert x y s s'. induction k as [|k IH]; intros x y s s' Hx Hy Hl H.
  - cbn in *. split; [lia|done].
  - rewrite Nat2N.inj_succ, N.pow_succ_r' in Hx, Hy. cbn in H. apply IH in H as [H1 H2].
    + injection H2 as H2 ->. split; [|done]. apply hex_digit_inj in H2; [|by apply N.mod_lt..].
      rewrite (N.div_mod x 16), (N.div_mod y 16) by done. by rewrite H1, H2.
    + by apply N.div_lt_upper_bound.
    + by apply N.div_lt_upper_bound.
    + cbn. by rewrite Hl.
Qed.

(** ** Texts of sets and maps can be decoded *)
(** What is printed by [f] can be told from anything that follows it. *)
Definition decodable {X} (f : X -> string) (ok : X -> Prop) : Prop :=
  forall x y r r', ok x -> ok y -> f x +:+ r = f y +:+ r' -> x = y /\ r = r'.

Lemma braces_decodable {X} (f : X -> string) (ok : X -> Prop) l l' r r' :
  decodable (fun x => nested (f x)) ok -> Forall ok l -> Forall ok l' ->
  debug_braces (f <$> l) +:+ r = debug_braces (f <$> l') +:+ r' -> l = l' /\ r = r'.
Proof.
  intros Hf Hl Hl' H.
  assert (forall k k', Forall ok k -> Forall ok k' ->
    foldr (fun s r => nested s +:+ r) "}" (f <$> k) +:+ r =
    foldr (fun s r => nested s +:+ r) "}" (f <$> k') +:+ r' -> k = k' /\ r = r') as Hb.
  { clear - Hf. intros k. induction k as [|x k IH]; intros [|y k'] Hk Hk'; cbn [foldr fmap list_fmap].
    - intros H. injection H as H. done.
    - intros H. discriminate H.
    - intros H. discriminate H.
    - apply Forall_cons in Hk as [Hx Hk]. apply Forall_cons in Hk' as [Hy Hk'].
      rewrite !append_assoc. intros H. apply Hf in H as [-> H]; [|done..].
      apply IH in H as [-> ->]; done. }
  destruct l as [|x l], l' as [|y l'].
  - injection H as H. done.
  - discriminate H.
  - discriminate H.
  - apply Hb; [done..|]. cbn [debug_braces fmap list_fmap] in H. rewrite !append_assoc in H.
    by do 2 apply append_inj_l in H.
Qed.

(** Tokens are 256-bit numbers. *)
Definition token_fits (t : AuthToken) : Prop := (auth_token_value t < 2 ^ 256)%N.
Lemma nested_token t :
  nested (debug_token t) =
  ("    AuthToken(" +:+ newline +:+ "        fe256(" +:+ newline +:+ "            0x") +:+
  (hex 64 (auth_token_value t) "" +:+
  ("," +:+ newline +:+ "        )," +:+ newline +:+ "    )," +:+ newline)).
Proof.
  unfold nested, debug_token, debug_tuple, nested.
  assert (pad (hex 64 (auth_token_value t) "") = hex 64 (auth_token_value t) "") as Hp.
  { apply pad_lacks, lacks_hex; [intros y; unfold hex_digit; by repeat case_match|done]. }
  set (h := hex 64 _ "") in *. clearbody h.
  rewrite !pad_append, !Hp, !append_assoc. done.
Qed.
Lemma token_decodable : decodable (fun t => nested (debug_token t)) token_fits.
Proof.
  intros t t' r r' Ht Ht' H. rewrite !nested_token, !append_assoc in H.
  do 5 apply append_inj_l in H. apply append_cancel in H as [H Hr]; [|by rewrite !hex_length].
  do 6 apply append_inj_l in Hr. split; [|done].
  assert (2 ^ 256 = 16 ^ N.of_nat 64)%N as Hpow by by vm_compute.
  unfold token_fits in Ht, Ht'. rewrite Hpow in Ht, Ht'. clear Hpow.
  apply (hex_inj 64 _ _ "" "" Ht Ht' eq_refl) in H as [H _]. destruct t as [v], t' as [v']. cbn in H. by subst.
Qed.
Lemma tokens_decodable (s s' : gset AuthToken) r r' :
  (forall t, t ∈ s -> token_fits t) -> (forall t, t ∈ s' -> token_fits t) ->
  debug_tokens s +:+ r = debug_tokens s' +:+ r' -> s = s' /\ r = r'.
Proof.
  intros Hs Hs' H. unfold debug_tokens in H.
  apply (braces_decodable _ _ _ _ _ _ token_decodable) in H as [H ->].
  - split; [|done]. apply set_eq. intros x.
    rewrite <-!elem_of_elements, <-(merge_sort_Permutation token_le (elements s)), H.
    by rewrite merge_sort_Permutation.
  - apply Forall_forall. intros t Ht. rewrite merge_sort_Permutation in Ht. by apply Hs, elem_of_elements.
  - apply Forall_forall. intros t Ht. rewrite merge_sort_Permutation in Ht. by apply Hs', elem_of_elements.
Qed.

Lemma ascii_all (Q : ascii -> bool) :
  forallb Q (ascii_of_N <$> (N.of_nat <$> seq 0 256)) = true -> forall c, Q c = true.
Proof.
  intros H c. rewrite forallb_forall in H. apply H, elem_of_list_In, elem_of_list_fmap.
  exists (N_of_ascii c). split; [by rewrite ascii_N_embedding|].
  apply elem_of_list_fmap. exists (N.to_nat (N_of_ascii c)). split; [by rewrite N2Nat.id|].
  apply elem_of_seq. pose proof (N_ascii_bounded c). lia.
Qed.
Lemma escape_lacks s : lacks "010" (escape s).
Proof.
  induction s as [|c s IH]; [done|]. cbn. apply lacks_append; [|done].
  assert (forall t, (fix go t := match t with "" => true | String d t => negb (bool_decide (d = "010"%char)) && go t end) t = true
    -> lacks "010" t) as Hl.
  { intros t. induction t as [|d t IHt]; [done|]. intros [H1 H2]%andb_true_iff. split; [|by apply IHt].
    by apply negb_true_iff, bool_decide_eq_false in H1. }
  apply Hl. revert c. apply ascii_all. by vm_compute.
Qed.
(** No escape is the beginning of another one, and none begins with a quotation mark. *)
Lemma prefix_append (s t r r' : string) :
  s +:+ r = t +:+ r' -> String.prefix s t = true \/ String.prefix t s = true.
Proof.
  revert t. induction s as [|c s IH]; intros [|d t] H; cbn; try by auto.
  injection H as -> H. rewrite !decide_True || destruct (ascii_dec d d); [|done]. by apply IH.
Qed.
Lemma escape_char_decodable c c' r r' :
  escape_char c +:+ r = escape_char c' +:+ r' -> c = c' /\ r = r'.
Proof.
  intros H. assert (c = c') as ->; [|by apply append_inj_l in H].
  assert (forall c, forallb (fun c' => bool_decide (c = c') || negb (String.prefix (escape_char c) (escape_char c')))
    (ascii_of_N <$> (N.of_nat <$> seq 0 256)) = true) as Hp.
  { apply (ascii_all (fun c => forallb _ _)). by vm_compute. }
  assert (forall c c', String.prefix (escape_char c) (escape_char c') = true -> c = c') as Hq.
  { intros d d' Hd. specialize (ascii_all _ (Hp d) d') as Hx. cbn in Hx.
    apply orb_true_iff in Hx as [Hx|Hx]; [by apply bool_decide_eq_true in Hx|]. by rewrite Hd in Hx. }
  apply prefix_append in H as [H|H]; apply Hq in H; done.
Qed.
Lemma escape_char_quote c r t : escape_char c +:+ r <> String "034" t.
Proof.
  assert (forall c, match escape_char c with "" => false | String d _ => negb (bool_decide (d = "034"%char)) end = true) as Hp.
  { apply ascii_all. by vm_compute. }
  specialize (Hp c). destruct (escape_char c) as [|d s]; [done|]. intros H. injection H as -> _. done.
Qed.
Lemma escape_decodable s s' r r' :
  escape s +:+ String "034" r = escape s' +:+ String "034" r' -> s = s' /\ r = r'.
Proof.
  revert s'. induction s as [|c s IH]; intros [|c' s'] H; cbn [escape] in H; rewrite ?append_assoc in H.
  - injection H as H. done.
  - symmetry in H. by apply escape_char_quote in H.
  - by apply escape_char_quote in H.
  - apply escape_char_decodable in H as [-> H]. apply IH in H as [-> ->]. done.
Qed.
Lemma nested_source x :
  nested (debug_source x) =
  "    " +:+ (pretty x.1 +:+ String ":" (" " +:+ String "034" (escape x.2 +:+ String "034" ("," +:+ newline)))).
Proof.
  unfold nested, debug_source.
  assert (pad (pretty x.1) = pretty x.1) as Hp.
  { apply pad_lacks, lacks_pretty. intros y. apply digit_not. intros z _. unfold pretty_N_char. by repeat case_match. }
  assert (pad (escape x.2) = escape x.2) as He by apply pad_lacks, escape_lacks.
  set (p := pretty x.1) in *. clearbody p. set (q := escape x.2) in *. clearbody q.
  change (String "034" (q +:+ String "034" "")) with (String "034" "" +:+ (q +:+ String "034" "")).
  rewrite !pad_append, Hp, He, !append_assoc. done.
Qed.
Lemma source_decodable : decodable (fun x => nested (debug_source x)) (fun _ => True).
Proof.
  intros [n s] [n' s'] r r' _ _ H. rewrite !nested_source in H. cbn [fst snd] in H.
  rewrite !append_assoc in H. apply append_inj_l in H. cbn [String.append] in H.
  apply append_delimited in H as [Hn H]; [|apply lacks_pretty; intros y; apply digit_not; intros z _; unfold pretty_N_char; by repeat case_match..].
  apply (inj pretty) in Hn as ->. apply (append_inj_l (String " " (String "034" ""))) in H.
  rewrite !append_assoc in H. cbn [String.append] in H.
  apply escape_decodable in H as [-> H]. split; [done|].
  by injection H.
Qed.
Lemma sources_inj (m m' : gmap N string) : debug_sources m = debug_sources m' -> m = m'.
Proof.
  intros H. unfold debug_sources in H.
  assert (forall l, Forall (fun _ : N * string => True) l) as Hall by (intros; by apply Forall_true).
  rewrite <-(append_nil_r (debug_braces _)), <-(append_nil_r (debug_braces (_ <$> merge_sort _ (map_to_list m')))) in H.
  apply (braces_decodable _ _ _ _ _ _ source_decodable) in H as [H _]; [|done..].
  apply map_to_list_inj. rewrite <-(merge_sort_Permutation source_le (map_to_list m)), H.
  apply merge_sort_Permutation.
Qed.

(** ** Texts of errors can be decoded *)
Section decode.
Context {P : SealProtocol} {U : Ultrasonic} {E : Type}.
Notation VError := (VerificationError P U E).

(** The texts of ids and of errors from elsewhere are different for different ids and errors;
    those of ids have no blanks and no punctuation which separates them from the rest. *)
Record readable (T : Texts P U E) : Prop := {
  stream_inj : forall e e', show_stream T e = show_stream T e' -> e = e';
  opid_inj : forall o o', show_opid T o = show_opid T o' -> o = o';
  witness_inj : forall w w', show_witness T w = show_witness T w' -> w = w';
  seal_error_inj : forall e e', show_seal_error T e = show_seal_error T e' -> e = e';
  opid_plain : forall o, lacks "." (show_opid T o) /\ lacks "," (show_opid T o) /\ lacks ":" (show_opid T o);
  witness_plain : forall w, lacks " " (show_witness T w)
}.
(** The tokens named in the error are 256-bit numbers. *)
Definition fits (e : VError) : Prop :=
  match e with
  | SealsDefinitionMismatch _ rep def _ => forall t, t ∈ rep ∪ def -> token_fits t
  | _ => True
  end.
Definition from_vm (e : VError) : Prop := match e with Vm _ => True | _ => False end.

Lemma display_inj (T : Texts P U E) e e' :
  readable T -> ~ from_vm e -> ~ from_vm e' -> fits e -> fits e' -> display T e = display T e' -> e = e'.
Proof.
  intros [R1 R2 R3 R4 R5 R6] Hv Hv' Hf Hf' H.
  destruct e as [x| |o|w o x|a|o rep def src|x], e' as [x'| |o'|w' o' x'|a'|o' rep' def' src'|x'];
    try (by destruct (Hv I)); try (by destruct (Hv' I));
    try (exfalso; clear - H; by discriminate H).
  - f_equal. apply R1. unfold display, paragraphs, String.concat in H. by do 3 apply append_inj_l in H.
  - done.
  - f_equal. apply R2. unfold display in H. apply append_inj_l in H. by apply append_inj_r in H.
  - unfold display, paragraphs, String.concat in H. rewrite !append_assoc in H. apply append_inj_l in H.
    change (" for operation " +:+ ?t) with (String " " ("for operation " +:+ t)) in H.
    apply append_delimited in H as [Hw H]; [|by apply R6..]. apply R3 in Hw as ->.
    apply append_inj_l in H. change ("." +:+ ?t) with (String "." t) in H.
    apply append_delimited in H as [Ho H]; [|by apply R5..]. apply R2 in Ho as ->.
    do 2 apply append_inj_l in H. by apply R4 in H as ->.
  - unfold display, show_cell in H. rewrite !append_assoc in H. apply append_inj_l in H.
    change (":" +:+ ?t) with (String ":" t) in H.
    apply append_delimited in H as [Ho H]; [|by apply R5..]. apply append_inj_r in H.
    apply (inj pretty) in H. apply R2 in Ho. destruct a, a'. cbn in *. by subst.
  - unfold display, paragraphs, lines, String.concat in H. rewrite !append_assoc in H. apply append_inj_l in H.
    change (", do match the assignments in the" +:+ ?t) with (String "," (" do match the assignments in the" +:+ t)) in H.
    apply append_delimited in H as [Ho H]; [|by apply R5..]. apply R2 in Ho as ->.
    do 5 apply append_inj_l in H.
    cbn [fits] in Hf, Hf'.
    apply tokens_decodable in H as [-> H]; [|intros t Ht; apply Hf; apply elem_of_union; by auto|intros t Ht; apply Hf'; apply elem_of_union; by auto].
    do 2 apply append_inj_l in H.
    apply tokens_decodable in H as [-> H]; [|intros t Ht; apply Hf; apply elem_of_union; by auto|intros t Ht; apply Hf'; apply elem_of_union; by auto].
    do 2 apply append_inj_l in H. by apply sources_inj in H as ->.
Qed.
End decode.
