(** Messages as they travel: JSON texts, of which each side reads at most 8192
    bytes. *)
From Coq Require Import List NArith ZArith Lia Bool Arith.
From Coq Require Import String.
From Verif Require Import Base Utils Crypto Tree STR PAD Protocol Json JsonText Wire.
Import ListNotations.
Local Open Scope string_scope.
Local Open Scope list_scope.
Local Open Scope nat_scope.
Notation length := List.length.

(** application/serverbase.go:202, application/bots/bot.go:49,
    application/testutil/testutil.go:159,192: [io.CopyN(&buf, conn, 8192)],
    then [json.Unmarshal]; the rest of what was sent stays unread. *)
Definition limit : nat := 8192.
(** application/encoding.go:58-68 *)
Definition received (s : bytes) : option json := json_parse (firstn limit s).

(** application/encoding.go:14-19, 51-53: what is written to the connection *)
Definition request_text (t : Z) (b : body) : bytes := json_text (MarshalRequest t b).
(** application/encoding.go:51-53 *)
Definition response_text (r : Response) : bytes := json_text (MarshalResponse r).

(** ** The messages are well-formed texts *)

Lemma ascii_utf8 s : Forall (fun b => in_rng 0 127 b = true) s -> utf8 s.
Proof. induction 1; constructor; assumption. Qed.
Lemma key_utf8 s : forallb (in_rng 0 127) (key s) = true -> utf8 (key s).
Proof. intro H. apply ascii_utf8. apply Forall_forall. intros x I. rewrite forallb_forall in H. auto. Qed.

(** A character of base64: ASCII, printed as it is. *)
(** no line of its own in /repo: specification: sizes of texts *)
Definition plain (b : byte) : bool := in_rng 0 127 b && html_safe b.
Lemma b64_char_plain n : (n < 64)%N -> plain (b64_char n) = true.
Proof.
  intro H. assert (G : forallb (fun i => plain (b64_char (N.of_nat i))) (seq 0 64) = true) by (vm_compute; reflexivity).
  rewrite forallb_forall in G. specialize (G (N.to_nat n)). rewrite N2Nat.id in G. apply G. apply in_seq. lia.
Qed.
Lemma b64_strong (P : bytes -> Prop) : P [] -> (forall a, P [a]) -> (forall a b, P [a; b]) ->
  (forall a b c r, P r -> P (a :: b :: c :: r)) -> forall s, P s.
Proof.
  intros A B D E s. assert (K : forall n s, length s <= n -> P s); [|apply (K (length s)); lia].
  induction n as [|n IH]; intros [|a [|b [|c r]]] L; auto; cbn [length] in L; [lia|].
  apply E. apply IH. lia.
Qed.
Lemma b64_plain b : Forall (fun c => plain c = true) (b64_enc b).
Proof.
  induction b as [ |a|a b|a b c r IH] using b64_strong; cbn [b64_enc]; [constructor| | |];
    repeat (apply Forall_cons; [try reflexivity; apply b64_char_plain; clear;
      try (pose proof (Byte.to_N_bounded a)); try (pose proof (Byte.to_N_bounded b)); try (pose proof (Byte.to_N_bounded c)); dmN|]);
    [constructor|constructor|exact IH].
Qed.
Lemma b64_len b : length (b64_enc b) = 4 * ((length b + 2) / 3).
Proof.
  induction b as [ |a|a b|a b c r IH] using b64_strong; try reflexivity.
  cbn [b64_enc length]. rewrite IH. replace (S (S (S (length r))) + 2) with (1 * 3 + (length r + 2)) by lia.
  rewrite Nat.div_add_l by lia. lia.
Qed.
Lemma plain_utf8 s : Forall (fun c => plain c = true) s -> utf8 s.
Proof.
  intro H. apply ascii_utf8. eapply Forall_impl; [|exact H]. intros c P. unfold plain in P. apply andb_true_iff in P. tauto.
Qed.
Lemma plain_escape s : Forall (fun c => plain c = true) s -> escape s = s.
Proof.
  induction 1 as [|c s P F IH]; [reflexivity|]. unfold plain in P. apply andb_true_iff in P as [P1 P2].
  cbn [escape]. rewrite P1. unfold escape1. rewrite P2, IH. reflexivity.
Qed.

Lemma json_utf8_arr l : json_utf8 (JArr l) <-> Forall json_utf8 l.
Proof.
  induction l as [|x l IH]; [split; constructor|]. split.
  - intros [A B]. constructor; [exact A|]. apply IH. exact B.
  - intro H. inversion H; subst. split; [assumption|]. apply IH. assumption.
Qed.
Lemma json_utf8_obj l : json_utf8 (JObj l) <-> Forall (fun p => utf8 (fst p) /\ json_utf8 (snd p)) l.
Proof.
  induction l as [|[k x] l IH]; [split; constructor|]. split.
  - intros (A & B & D). constructor; [split; [exact A|exact B]|]. apply IH. exact D.
  - intro H. inversion H as [|? ? [A B] D]; subst. split; [exact A|]. split; [exact B|]. apply IH. exact D.
Qed.
Lemma enc_bytes_utf8 b : json_utf8 (enc_bytes b).
Proof. unfold enc_bytes. destruct b; [exact I|]. cbn [json_utf8]. apply plain_utf8. apply b64_plain. Qed.
Lemma enc_bytes_opt_utf8 b : json_utf8 (enc_bytes_opt b).
Proof. destruct b; [|exact I]. cbn [enc_bytes_opt json_utf8]. apply plain_utf8. apply b64_plain. Qed.
Lemma enc_string_utf8 s : json_utf8 (enc_string s).
Proof. cbn [enc_string json_utf8]. apply utf8_coerce_valid. Qed.
Lemma enc_arr32_utf8 b : json_utf8 (enc_arr32 b).
Proof. apply json_utf8_arr. apply Forall_forall. intros x H. apply in_map_iff in H as (c & <- & _). exact I. Qed.
Lemma enc_ptr_utf8 {A} (f : A -> json) o : (forall a, json_utf8 (f a)) -> json_utf8 (enc_ptr f o).
Proof. intro H. destruct o; [apply H|exact I]. Qed.
Ltac obj := apply json_utf8_obj; repeat (apply Forall_cons; [split; [apply key_utf8; reflexivity|cbn [snd]]|]);
  try apply Forall_nil;
  repeat first [apply enc_bytes_utf8 | apply enc_bytes_opt_utf8 | apply enc_string_utf8 | apply enc_arr32_utf8 | exact I].
Lemma enc_commit_utf8 c : json_utf8 (enc_commit c). Proof. obj. Qed.
Lemma enc_proofnode_utf8 c : json_utf8 (enc_proofnode c). Proof. obj. apply enc_ptr_utf8. apply enc_commit_utf8. Qed.
Lemma map_utf8 {A} (f : A -> json) l : (forall a, json_utf8 (f a)) -> json_utf8 (JArr (map f l)).
Proof. intro H. apply json_utf8_arr. apply Forall_forall. intros x K. apply in_map_iff in K as (a & <- & _). apply H. Qed.
Lemma enc_authpath_utf8 c : json_utf8 (enc_authpath c).
Proof. obj; [apply map_utf8; apply enc_arr32_utf8|apply enc_ptr_utf8; apply enc_proofnode_utf8]. Qed.
Lemma enc_policies_utf8 c : json_utf8 (enc_policies c). Proof. obj. Qed.
Lemma enc_dirstr_utf8 c : json_utf8 (enc_dirstr c).
Proof. unfold enc_dirstr. destruct (d_body c); cbn [app]; obj; apply enc_ptr_utf8; apply enc_policies_utf8. Qed.
Lemma enc_tb_utf8 c : json_utf8 (enc_tb c). Proof. obj. Qed.
Lemma enc_proof_utf8 c : json_utf8 (enc_proof c).
Proof.
  unfold enc_proof. destruct (dp_tb c); cbn [app]; obj;
    repeat first [apply map_utf8; intro; apply enc_ptr_utf8; first [apply enc_authpath_utf8|apply enc_dirstr_utf8] | apply enc_tb_utf8].
Qed.
Lemma response_utf8 r : json_utf8 (MarshalResponse r).
Proof.
  unfold MarshalResponse. destruct (r_df r) as [[p|l]|]; obj; cbn [enc_df]; apply enc_ptr_utf8; [apply enc_proof_utf8|].
  intro x. obj. apply map_utf8. intro. apply enc_ptr_utf8. apply enc_dirstr_utf8.
Qed.
Lemma request_utf8 t b : (forall v, b <> WOther v) -> json_utf8 (MarshalRequest t b).
Proof.
  intro H. unfold MarshalRequest. obj. destruct b as [n k [] []|n|n e|n s e|h s e|s e|v]; cbn [enc_body app]; try obj.
  destruct (H v eq_refl).
Qed.

(** ** What a prefix of a text can mean *)

(** The text of an object, array or string ends in its closing mark. *)
(** no line of its own in /repo: specification: sizes of texts *)
Definition closed (j : json) : Prop := match j with JObj _ | JArr _ | JStr _ => True | _ => False end.
Lemma skip_ws_last s b : is_ws b = false -> skip_ws (s ++ [b]) <> [].
Proof.
  intro H. induction s as [|c s IH]; cbn [app skip_ws]; [rewrite H; discriminate|]. destruct (is_ws c); [exact IH|discriminate].
Qed.
Lemma text_last j : closed j -> exists s b, json_text j = s ++ [b] /\ is_ws b = false.
Proof.
  destruct j; cbn [closed]; try tauto; intros _; cbn [json_text]; unfold quoted.
  - exists (x22 :: escape s), x22. split; reflexivity.
  - eexists (x5b :: _), x5d. split; reflexivity.
  - eexists (x7b :: _), x7d. split; reflexivity.
Qed.
(** A text that starts like an object is not a number. *)
Lemma parse_brace s j : json_parse (x7b :: s) = Some j -> exists l, j = JObj l.
Proof.
  unfold json_parse, parse_with. set (f := 2 * length (x7b :: s) + 1).
  replace (2 * length (x7b :: s) + 2) with (S f) by (unfold f; lia).
  cbn [p_value skip_ws]. change (is_ws x7b) with false. cbn iota.
  change (byte_eqb x7b x22) with false. change (byte_eqb x7b x5b) with false. change (byte_eqb x7b x7b) with true. cbn iota.
  destruct (skip_ws s) as [|c2 s2]; [discriminate|]. destruct (byte_eqb c2 x7d).
  - destruct (skip_ws s2); [|discriminate]. intro H. inversion H. eauto.
  - destruct (p_members f s) as [[l r]|]; [|discriminate]. destruct (skip_ws r); [|discriminate]. intro H. inversion H. eauto.
Qed.
(** An object that was cut is not a JSON text. *)
Lemma cut_object l n : json_utf8 (JObj l) -> n < length (json_text (JObj l)) -> json_parse (firstn n (json_text (JObj l))) = None.
Proof.
  intros U L. set (t := json_text (JObj l)) in *.
  destruct (json_parse (firstn n t)) as [j|] eqn:P; [|reflexivity]. exfalso.
  destruct n as [|n]; [discriminate P|].
  assert (NN : not_number j).
  { assert (E : exists s, firstn (S n) t = x7b :: s) by (unfold t; cbn [json_text firstn]; eauto). destruct E as [s E].
    rewrite E in P. apply parse_brace in P as [l' ->]. exact I. }
  pose proof (json_round_trip _ U) as RT. fold t in RT. rewrite <- (firstn_skipn (S n) t) in RT.
  destruct (no_prefix _ _ _ _ NN P RT) as [_ W].
  destruct (text_last (JObj l) I) as (s & b & E & B). fold t in E.
  assert (K : exists s', skipn (S n) t = s' ++ [b]).
  { exists (skipn (S n) s). rewrite E, skipn_app.
    replace (S n - length s) with 0; [reflexivity|]. rewrite E, app_length in L. cbn [length] in L. lia. }
  destruct K as [s' K]. rewrite K in W. exact (skip_ws_last _ _ B W).
Qed.
(** Whatever was received in full and then cut: what is understood of the
    beginning, unless it is a number, is the whole message. *)
Lemma cut_meaning s j k n : not_number k -> json_parse s = Some j -> json_parse (firstn n s) = Some k -> k = j.
Proof.
  intros NN P Q. rewrite <- (firstn_skipn n s) in P. destruct (no_prefix _ _ _ _ NN Q P) as [-> _]. reflexivity.
Qed.

(** If both the whole message and its beginning are requests, they are the
    same request. *)
Lemma received_same s q q' : obind (json_parse s) UnmarshalRequest = Some q -> obind (received s) UnmarshalRequest = Some q' -> q' = q.
Proof.
  unfold received. destruct (json_parse s) as [j|] eqn:P; [|discriminate]. cbn [obind].
  destruct (json_parse (firstn limit s)) as [k|] eqn:Q; cbn [obind]; [|discriminate]. intros A B.
  assert (NN : not_number k) by (destruct k; try exact I; discriminate B).
  rewrite (cut_meaning _ _ _ _ NN P Q) in B. congruence.
Qed.

(** ** Sizes *)

(** no line of its own in /repo: specification: sizes of texts *)
Definition tlen (j : json) : nat := length (json_text j).
Lemma commas_length l : length (commas l) = list_sum (map (@List.length byte) l) + (length l - 1).
Proof.
  induction l as [|x l IH]; [reflexivity|]. destruct l as [|y l].
  - cbn [commas map list_sum fold_right length]. lia.
  - change (commas (x :: y :: l)) with (x ++ x2c :: commas (y :: l)). rewrite app_length. cbn [length] in *. rewrite IH.
    cbn [map list_sum fold_right] in *. lia.
Qed.
Lemma tlen_arr l : tlen (JArr l) = 2 + list_sum (map tlen l) + (length l - 1).
Proof.
  unfold tlen. cbn [json_text length]. rewrite app_length, commas_length, map_map, map_length. cbn [length]. lia.
Qed.
(** no line of its own in /repo: specification: sizes of texts *)
Definition klen (p : bytes * json) : nat := 3 + length (escape (fst p)) + tlen (snd p).
Lemma tlen_obj l : tlen (JObj l) = 2 + list_sum (map klen l) + (length l - 1).
Proof.
  unfold tlen at 1. cbn [json_text length]. rewrite app_length, commas_length, map_map, map_length. cbn [length].
  rewrite (map_ext _ klen); [lia|]. intros [k v]. unfold klen, quoted, tlen. cbn [fst snd length].
  rewrite app_length. cbn [length]. rewrite app_length. cbn [length]. lia.
Qed.
Lemma tlen_b64 b : tlen (JStr (b64_enc b)) = 2 + 4 * ((length b + 2) / 3).
Proof.
  unfold tlen. cbn [json_text]. unfold quoted. rewrite (plain_escape _ (b64_plain b)). cbn [length]. rewrite app_length, b64_len. cbn [length]. lia.
Qed.
Lemma tlen_bytes b n : length b = n -> n <> 0 -> tlen (enc_bytes b) = 2 + 4 * ((n + 2) / 3).
Proof. intros <- H. destruct b; [cbn in H; congruence|]. apply tlen_b64. Qed.
Lemma tlen_bytes_le b n : length b <= n -> tlen (enc_bytes b) <= 4 + 4 * ((n + 2) / 3).
Proof.
  intro H. destruct b; [cbn; lia|]. unfold enc_bytes. rewrite tlen_b64.
  assert ((length (b :: b0) + 2) / 3 <= (n + 2) / 3) by (apply Nat.div_le_mono; lia). lia.
Qed.
Lemma tlen_N n k : 0 < k -> (n < 10 ^ N.of_nat k)%N -> tlen (enc_N n) <= k.
Proof.
  intros K H. unfold tlen, enc_N. cbn [json_text]. unfold integer.
  replace (Z.ltb (Z.of_N n) 0) with false by (symmetry; apply Z.ltb_ge; lia). rewrite N2Z.id.
  destruct (decimal_ok n) as (_ & _ & L & _). apply L; assumption.
Qed.
Lemma tlen_pos j : 1 <= tlen j.
Proof. pose proof (text_len_pos j). unfold tlen. lia. Qed.
Lemma tlen_byte (c : byte) : tlen (enc_N (Byte.to_N c)) <= 3.
Proof. apply tlen_N; [lia|]. pose proof (Byte.to_N_bounded c). change (10 ^ N.of_nat 3)%N with 1000%N. lia. Qed.
Lemma list_sum_le {A} (f : A -> nat) k l : (forall a, In a l -> f a <= k) -> list_sum (map f l) <= k * length l.
Proof.
  induction l as [|a l IH]; intro H; cbn [map list_sum fold_right length]; [lia|].
  pose proof (H a (or_introl eq_refl)). specialize (IH (fun x K => H x (or_intror K))). unfold list_sum in IH. lia.
Qed.
Lemma list_sum_ge {A} (f : A -> nat) k l : (forall a, In a l -> k <= f a) -> k * length l <= list_sum (map f l).
Proof.
  induction l as [|a l IH]; intro H; cbn [map list_sum fold_right length]; [lia|].
  pose proof (H a (or_introl eq_refl)). specialize (IH (fun x K => H x (or_intror K))). unfold list_sum in IH. lia.
Qed.
Lemma tlen_hash h : length h = 32 -> tlen (enc_arr32 h) <= 129.
Proof.
  intro H. unfold enc_arr32. rewrite tlen_arr, map_map, map_length, H.
  pose proof (list_sum_le (fun c => tlen (enc_N (Byte.to_N c))) 3 h (fun c _ => tlen_byte c)) as K. rewrite H in K. lia.
Qed.

(** *** Paths, roots and temporary bindings of the usual sizes *)
(** no line of its own in /repo: specification: sizes of texts *)
Definition node_le (k : nat) (n : ProofNode) : Prop :=
  pn_level n <= 256 /\ length (pn_index n) <= 32 /\
  match pn_value n with Some v => length v <= k | None => True end /\
  match pn_com n with Some c => length (c_salt c) <= 32 /\ length (c_value c) <= 32 | None => True end.
(** no line of its own in /repo: specification: sizes of texts *)
Definition path_le (dep k : nat) (ap : AuthPath) : Prop :=
  length (ap_nonce ap) <= 32 /\ (forall h, In h (ap_pruned ap) -> length h = 32) /\ length (ap_pruned ap) <= dep /\
  length (ap_lookup ap) <= 32 /\ length (ap_vrf ap) <= 96 /\
  match ap_leaf ap with Some n => node_le k n | None => True end.
(** no line of its own in /repo: specification: sizes of texts *)
Definition str_le (s : DirSTR) : Prop :=
  match d_body s with
  | Some b => length (s_hash b) <= 32 /\ length (s_phash b) <= 32 /\ length (s_sig b) <= 64 /\ uint64 (s_epoch b) /\ uint64 (s_pepoch b)
  | None => True
  end /\
  match d_pol s with
  | Some p => pol_version p = Version /\ pol_hashid p = HashID /\ length (pol_vrf p) <= 32 /\ uint64 (pol_deadline p)
  | None => True
  end.
(** no line of its own in /repo: specification: sizes of texts *)
Definition tb_le (k : nat) (tb : TemporaryBinding) : Prop :=
  length (tb_index tb) <= 32 /\ length (tb_value tb) <= k /\ length (tb_sig tb) <= 64.

Ltac klens := repeat match goal with
  | |- context [length (escape (key ?s))] => let x := eval vm_compute in (length (escape (key s))) in
        change (length (escape (key s))) with x
  end.
Ltac sz := rewrite tlen_obj; cbn [map list_sum fold_right app]; unfold klen; cbn [fst snd]; klens; cbn [length].

Lemma uint64_dec n : uint64 n -> tlen (enc_N n) <= 20.
Proof. intro H. apply tlen_N; [lia|]. unfold uint64 in H. eapply N.lt_trans; [exact H|]. reflexivity. Qed.
Lemma b32 b : length b <= 32 -> tlen (enc_bytes b) <= 48.
Proof. intro H. apply tlen_bytes_le in H. exact H. Qed.

Lemma commit_size c : length (c_salt c) <= 32 -> length (c_value c) <= 32 -> tlen (enc_commit c) <= 114.
Proof. intros A B. unfold enc_commit. sz. apply b32 in A, B. lia. Qed.
Lemma value_size k v : match v with Some v => length v <= k | None => True end -> tlen (enc_bytes_opt v) <= 4 + 4 * ((k + 2) / 3).
Proof.
  destruct v as [v|]; intro H; [|cbn; lia]. cbn [enc_bytes_opt]. rewrite tlen_b64.
  assert ((length v + 2) / 3 <= (k + 2) / 3) by (apply Nat.div_le_mono; lia). lia.
Qed.
Lemma bool_size b : tlen (JBool b) <= 5.
Proof. destruct b; cbn; lia. Qed.
Lemma node_size k n : node_le k n -> tlen (enc_proofnode n) <= 223 + 4 + 4 * ((k + 2) / 3).
Proof.
  intros (L & I & V & D). unfold enc_proofnode. sz.
  assert (A : tlen (enc_N (N.of_nat (pn_level n))) <= 3) by (apply tlen_N; [lia|change (10 ^ N.of_nat 3)%N with 1000%N; lia]).
  apply b32 in I. apply value_size in V. pose proof (bool_size (pn_empty n)).
  assert (E : tlen (enc_ptr enc_commit (pn_com n)) <= 114).
  { destruct (pn_com n) as [c|]; [apply commit_size; tauto|cbn; lia]. }
  lia.
Qed.
Lemma path_size dep k ap : path_le dep k ap -> tlen (enc_authpath ap) <= 525 + 130 * dep + 4 * ((k + 2) / 3).
Proof.
  intros (N & H & D & L & V & Lf). unfold enc_authpath. sz. apply b32 in N, L. apply tlen_bytes_le in V.
  change (4 + 4 * ((96 + 2) / 3)) with 132 in V.
  assert (A : tlen (JArr (map enc_arr32 (ap_pruned ap))) <= 2 + 130 * dep).
  { rewrite tlen_arr, map_map, map_length.
    pose proof (list_sum_le (fun h => tlen (enc_arr32 h)) 129 (ap_pruned ap) (fun h I => tlen_hash h (H h I))). lia. }
  assert (E : tlen (enc_ptr enc_proofnode (ap_leaf ap)) <= 223 + 4 + 4 * ((k + 2) / 3)).
  { destruct (ap_leaf ap); [apply node_size; exact Lf|cbn; lia]. }
  lia.
Qed.
Lemma str_size s : str_le s -> tlen (enc_dirstr s) <= 455.
Proof.
  intros [B P]. unfold enc_dirstr.
  assert (E : tlen (enc_ptr enc_policies (d_pol s)) <= 141).
  { destruct (d_pol s) as [p|]; [|cbn; lia]. destruct P as (-> & -> & V & D) || destruct P as (PV & PH & V & D).
    cbn [enc_ptr]. unfold enc_policies. sz. rewrite PV, PH.
    change (tlen (enc_string Version)) with 5. change (tlen (enc_string HashID)) with 10. apply b32 in V. apply uint64_dec in D. lia. }
  destruct (d_body s) as [b|]; cbn [app]; sz; [|lia].
  destruct B as (A1 & A2 & A3 & A4 & A5). apply b32 in A1, A2. apply tlen_bytes_le in A3. change (4 + 4 * ((64 + 2) / 3)) with 92 in A3.
  apply uint64_dec in A4, A5. lia.
Qed.
Lemma tb_size k tb : tb_le k tb -> tlen (enc_tb tb) <= 180 + 4 * ((k + 2) / 3).
Proof.
  intros (A & B & D). unfold enc_tb. sz. apply b32 in A. apply tlen_bytes_le in B, D. change (4 + 4 * ((64 + 2) / 3)) with 92 in D. lia.
Qed.
(** The answer to a registration or lookup. *)
Lemma answer_size dep k e ap s tb : path_le dep k ap -> str_le s -> match tb with Some tb => tb_le k tb | None => True end ->
  (0 <= e < 1000)%Z ->
  length (response_text (mkResp e (Some (DProof (Some (mkDP [Some ap] [Some s] tb)))))) <= 1230 + 130 * dep + 8 * ((k + 2) / 3).
Proof.
  intros P S T E. change (length (response_text ?r)) with (tlen (MarshalResponse r)). unfold MarshalResponse. cbn [r_error r_df].
  sz. cbn [enc_df enc_ptr]. apply path_size in P. apply str_size in S.
  assert (X : tlen (JInt e) <= 3).
  { replace (JInt e) with (enc_N (Z.to_N e)) by (unfold enc_N; f_equal; lia). apply tlen_N; [lia|]. change (10 ^ N.of_nat 3)%N with 1000%N. lia. }
  assert (Y : tlen (enc_proof (mkDP [Some ap] [Some s] tb)) <= 1189 + 130 * dep + 8 * ((k + 2) / 3)).
  { unfold enc_proof. cbn [dp_ap dp_str dp_tb map enc_ptr]. destruct tb as [tb|]; cbn [app]; sz; rewrite !tlen_arr; cbn [map list_sum fold_right length].
    - apply tb_size in T. lia.
    - lia. }
  lia.
Qed.

(** *** Lower bounds *)
Lemma str_size_ge s b p : d_body s = Some b -> d_pol s = Some p -> pol_version p = Version -> pol_hashid p = HashID ->
  length (s_hash b) = 32 -> length (s_sig b) = 64 -> length (pol_vrf p) = 32 -> 338 <= tlen (enc_dirstr s).
Proof.
  intros B P PV PH A1 A2 A3. unfold enc_dirstr. rewrite B, P. cbn [app enc_ptr]. sz. unfold enc_policies. sz.
  rewrite PV, PH. change (tlen (enc_string Version)) with 5. change (tlen (enc_string HashID)) with 10.
  rewrite (tlen_bytes _ _ A1), (tlen_bytes _ _ A2), (tlen_bytes _ _ A3) by lia.
  change (2 + 4 * ((32 + 2) / 3)) with 46. change (2 + 4 * ((64 + 2) / 3)) with 90.
  pose proof (tlen_pos (enc_N (s_epoch b))). pose proof (tlen_pos (enc_N (s_pepoch b))). pose proof (tlen_pos (enc_bytes (s_phash b))).
  pose proof (tlen_pos (enc_N (pol_deadline p))). lia.
Qed.
Lemma path_size_ge ap : length (ap_nonce ap) = 32 -> length (ap_lookup ap) = 32 -> 155 <= tlen (enc_authpath ap).
Proof.
  intros A B. unfold enc_authpath. sz. rewrite (tlen_bytes _ _ A), (tlen_bytes _ _ B) by lia. change (2 + 4 * ((32 + 2) / 3)) with 46.
  rewrite tlen_arr. pose proof (tlen_pos (enc_bytes (ap_vrf ap))). pose proof (tlen_pos (enc_ptr enc_proofnode (ap_leaf ap))). lia.
Qed.
Lemma proof_size_ge e aps strs tb a s : (forall x, In x aps -> a <= tlen (enc_authpath x)) -> (forall x, In x strs -> s <= tlen (enc_dirstr x)) ->
  40 + a * length aps + s * length strs <= length (response_text (mkResp e (Some (DProof (Some (mkDP (map Some aps) (map Some strs) tb)))))).
Proof.
  intros A S. change (length (response_text ?r)) with (tlen (MarshalResponse r)). unfold MarshalResponse. cbn [r_error r_df].
  sz. cbn [enc_df enc_ptr]. pose proof (tlen_pos (JInt e)).
  apply list_sum_ge in A. apply list_sum_ge in S.
  unfold enc_proof. cbn [dp_ap dp_str dp_tb]. destruct tb as [tb|]; cbn [app]; sz; rewrite !tlen_arr, !map_map; cbn [enc_ptr]; unfold list_sum in *; lia.
Qed.
Lemma register_size_ge t n k u p : 30 + 4 * ((length k + 2) / 3) <= length (request_text t (WRegistration n k u p)).
Proof.
  change (length (request_text ?t ?r)) with (tlen (MarshalRequest t r)). unfold MarshalRequest. sz. cbn [enc_body].
  assert (K : 4 * ((length k + 2) / 3) <= tlen (enc_bytes k)).
  { unfold enc_bytes. destruct k; [cbn; lia|]. rewrite tlen_b64. lia. }
  destruct u, p; cbn [app]; sz; lia.
Qed.
(** A name of letters, digits and other plain characters. *)
Lemma register_size n k : Forall (fun c => plain c = true) n ->
  length (json_text (CreateRegistrationMsg n k)) <= 70 + length n + 4 * ((length k + 2) / 3) /\
  length (json_text (CreateKeyLookupMsg n)) <= 70 + length n.
Proof.
  intro P. change (length (json_text ?r)) with (tlen r). unfold CreateRegistrationMsg, CreateKeyLookupMsg, MarshalRequest.
  assert (N : tlen (enc_string n) = 2 + length n).
  { unfold enc_string. rewrite utf8_coerce_id by (apply plain_utf8; exact P). unfold tlen. cbn [json_text]. unfold quoted.
    rewrite (plain_escape _ P). cbn [length]. rewrite app_length. cbn [length]. lia. }
  pose proof (tlen_bytes_le k (length k) (le_n _)) as K.
  change (tlen (JInt RegistrationType)) with 1. change (tlen (JInt KeyLookupType)) with 1.
  split; sz; cbn [enc_body app]; sz; rewrite N; [|change (tlen (enc_bytes [])) with 4];
    change (tlen (JInt RegistrationType)) with 1; change (tlen (JInt KeyLookupType)) with 1; lia.
Qed.
