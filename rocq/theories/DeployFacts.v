(** Facts about Deploy.v used by Prop_Deploy.v, and a TOML library that keeps
    its promise (TomlOk is satisfiable). *)
From Coq Require Import List NArith ZArith Lia Bool Arith.
From Coq Require Import String.
From Verif Require Import Base Utils Crypto Tree STR PAD Protocol Directory DirSpec Path Json JsonText Wire Conc Server Deploy.
Import ListNotations.
Local Open Scope list_scope.
Local Open Scope nat_scope.
Notation length := List.length.

(** ** Places *)
Lemma place_eqb_eq p q : place_eqb p q = true <-> p = q.
Proof.
  revert q; induction p as [|a p IH]; destruct q as [|b q]; cbn [place_eqb]; split; try congruence.
  - rewrite andb_true_iff, beq_eq, IH. intros [-> ->]; reflexivity.
  - intros [= -> ->]. rewrite andb_true_iff, beq_eq, IH. tauto.
Qed.
Lemma place_eqb_refl p : place_eqb p p = true.
Proof. apply place_eqb_eq. reflexivity. Qed.
Lemma put_same d p n : put d p n p = Some n.
Proof. unfold put. rewrite place_eqb_refl. reflexivity. Qed.
Lemma put_other d p n q : q <> p -> put d p n q = d q.
Proof. intro H. unfold put. destruct (place_eqb q p) eqn:E; [apply place_eqb_eq in E; congruence|reflexivity]. Qed.

(** ** Names *)
Definition is_name (w : bytes) : Prop := empty w || is_dot w = false /\ is_dotdot w = false /\ noslash w.
Definition name_ok (w : bytes) : bool :=
  negb (empty w || is_dot w) && negb (is_dotdot w) && forallb (fun c => negb (byte_eqb c slash)) w.
Lemma name_ok_is w : name_ok w = true -> is_name w.
Proof.
  unfold name_ok. rewrite !andb_true_iff, !negb_true_iff. intros [[A B] D]. split; [exact A|]. split; [exact B|].
  intro I. rewrite forallb_forall in D. specialize (D _ I). rewrite negb_true_iff in D.
  rewrite (proj2 (byte_eqb_eq _ _) eq_refl) in D. discriminate D.
Qed.

Lemma last_name_walk h l w : is_name w -> walk h (l ++ [w]) = w :: walk h l.
Proof. intros (A & B & _). rewrite walk_app. cbn [walk fold_left]. apply go_name; assumption. Qed.

(** the last element of a cleaned path *)
Lemma Clean_last p l w : is_name w -> split p = l ++ [w] -> exists l', split (Clean p) = l' ++ [w].
Proof.
  intros N S. pose proof N as (A & B & D).
  destruct p as [|c p]; [cbn [split] in S; destruct l as [|x [|]]; try discriminate S; injection S as <-; discriminate A|].
  destruct (clean_parts (c :: p)) as (out & K & _ & Eo & ->); [discriminate|].
  rewrite S, fold_left_app in Eo. cbn [fold_left] in Eo. unfold clean_step in Eo at 1. rewrite A, B in Eo. cbn [rev] in Eo.
  destruct out as [|x out]; [destruct (rev _) in Eo; discriminate Eo|].
  assert (SJ : split (join (x :: out)) = x :: out)
    by (apply split_join; [discriminate|apply Forall_kept_noslash; exact K]).
  destruct (IsAbs (c :: p)).
  - change (slash :: join (x :: out)) with ([] ++ slash :: join (x :: out)). rewrite split_app by (intros []).
    rewrite SJ, Eo. eexists ([] :: _). reflexivity.
  - cbn [empty]. rewrite SJ, Eo. eexists. reflexivity.
Qed.
Lemma locate_name cwd p l w : is_name w -> split p = l ++ [w] -> locate cwd p = w :: locate_dir cwd p.
Proof.
  intros N S. unfold locate, locate_dir. rewrite S, removelast_last. apply last_name_walk. exact N.
Qed.
Lemma locate_Join cwd dir w : is_name w -> locate cwd (Join dir w) = w :: locate cwd dir /\ locate_dir cwd (Join dir w) = locate cwd dir.
Proof.
  intro N. pose proof N as (A & B & D).
  assert (X : exists p l, Join dir w = Clean p /\ split p = l ++ [w] /\ locate cwd p = w :: locate cwd dir).
  { unfold Join. destruct dir as [|c dir].
    - destruct w as [|c w]; [discriminate A|]. exists (c :: w), []. cbn [empty]. rewrite split_one by exact D.
      split; [reflexivity|]. split; [reflexivity|]. unfold locate. rewrite split_one by exact D.
      rewrite noslash_IsAbs by exact D. cbn [walk fold_left split IsAbs]. rewrite go_name by assumption. reflexivity.
    - exists ((c :: dir) ++ slash :: w), (split (c :: dir)). cbn [empty]. split; [reflexivity|].
      rewrite Path.split_snoc, (split_one w D). split; [reflexivity|].
      unfold locate. rewrite Path.split_snoc, (split_one w D), IsAbs_snoc by discriminate. apply last_name_walk. exact N. }
  destruct X as (p & l & -> & S & L).
  split; [rewrite locate_Clean; exact L|].
  destruct (Clean_last p l w N S) as (l' & S'). pose proof (locate_name cwd _ _ _ N S') as E.
  rewrite locate_Clean, L in E. congruence.
Qed.

(** ** Writing *)
Lemma write_keeps o cwd d path buf d' r p n : WriteFile o cwd d path buf = (d', r) -> d p = Some n -> d' p = Some n.
Proof.
  unfold WriteFile, write_to. intros W E.
  destruct (d (locate cwd path)) eqn:X; [injection W as <- _; exact E|].
  destruct (is_folder d (tl (locate cwd path))); [|injection W as <- _; exact E].
  destruct o; injection W as <- _; try exact E;
    (rewrite put_other; [exact E|intros ->; congruence]).
Qed.
Lemma write_only o cwd d path buf d' r p : WriteFile o cwd d path buf = (d', r) -> p <> locate cwd path -> d' p = d p.
Proof.
  unfold WriteFile, write_to. intros W E.
  destruct (d (locate cwd path)) eqn:X; [injection W as <- _; reflexivity|].
  destruct (is_folder d (tl (locate cwd path))); [|injection W as <- _; reflexivity].
  destruct o; injection W as <- _; try reflexivity; apply put_other; exact E.
Qed.
(** what can be found afterwards where the file was to be written *)
Lemma write_there o cwd d path buf d' r : WriteFile o cwd d path buf = (d', r) ->
  d' (locate cwd path) = d (locate cwd path) \/ exists n, d' (locate cwd path) = Some (File (firstn n buf)).
Proof.
  unfold WriteFile, write_to. intros W.
  destruct (d (locate cwd path)) eqn:X; [injection W as <- _; auto|].
  destruct (is_folder d (tl (locate cwd path))); [|injection W as <- _; auto].
  destruct o; injection W as <- _; auto; right; rewrite put_same; eexists; try reflexivity.
  rewrite firstn_all2 by apply le_n. reflexivity.
Qed.
Lemma write_done o cwd d path buf d' : WriteFile o cwd d path buf = (d', Some true) ->
  d (locate cwd path) = None /\ d' (locate cwd path) = Some (File buf).
Proof.
  unfold WriteFile, write_to. intros W.
  destruct (d (locate cwd path)) eqn:X; [destruct o; discriminate W|].
  destruct (is_folder d (tl (locate cwd path))); [|destruct o; discriminate W].
  destruct o; try discriminate W. injection W as <-. split; [reflexivity|apply put_same].
Qed.
Lemma write_fine cwd d path buf : d (locate cwd path) = None -> d (tl (locate cwd path)) = Some Folder ->
  WriteFile Fine cwd d path buf = (put d (locate cwd path) (File buf), Some true).
Proof. unfold WriteFile, is_folder. intros -> ->. reflexivity. Qed.
Lemma over_only o cwd d path buf d' r p : Overwrite o cwd d path buf = (d', r) -> p <> locate cwd path -> d' p = d p.
Proof.
  unfold Overwrite. intros W E.
  destruct o; try (injection W as <- _; reflexivity);
    destruct (match d (locate cwd path) with Some (File _) => true | Some Folder => false | None => is_folder d (tl (locate cwd path)) end);
    injection W as <- _; try reflexivity; apply put_other; exact E.
Qed.

Lemma job_keeps cwd l : forall os d p n, d p = Some n -> fst (do_job os cwd d l) p = Some n.
Proof.
  induction l as [|[path buf] l IH]; intros os d p n E; [exact E|]. cbn [do_job].
  destruct (WriteFile (hd Fine os) cwd d path buf) as [d' r] eqn:W.
  pose proof (write_keeps _ _ _ _ _ _ _ _ _ W E) as K.
  destruct r as [[|]|]; cbn [fst]; [apply IH; exact K|exact K|exact K].
Qed.
Lemma job_only cwd l : forall os d p, ~ In p (map (fun x => locate cwd (fst x)) l) -> fst (do_job os cwd d l) p = d p.
Proof.
  induction l as [|[path buf] l IH]; intros os d p E; [reflexivity|]. cbn [do_job].
  destruct (WriteFile (hd Fine os) cwd d path buf) as [d' r] eqn:W.
  assert (N : p <> locate cwd path) by (intros ->; apply E; left; reflexivity).
  pose proof (write_only _ _ _ _ _ _ _ _ W N) as K.
  destruct r as [[|]|]; cbn [fst]; [rewrite IH; [exact K|]|exact K|exact K].
  intro I. apply E. right. exact I.
Qed.

(** ** A TOML library: any injective notation will do. *)
Fixpoint t_str (s rest : bytes) : bytes := match s with [] => x00 :: rest | c :: s' => x01 :: c :: t_str s' rest end.
Fixpoint r_str (fuel : nat) (t : bytes) : option (bytes * bytes) :=
  match fuel, t with
  | S f, b :: t' =>
      if byte_eqb b x00 then Some ([], t')
      else match t' with c :: t'' => option_map (fun p => (c :: fst p, snd p)) (r_str f t'') | [] => None end
  | _, _ => None
  end.
Definition r_s (t : bytes) := r_str (length t) t.
Lemma r_str_ok s : forall f rest, length s < f -> r_str f (t_str s rest) = Some (s, rest).
Proof.
  induction s as [|c s IH]; intros f rest L; (destruct f as [|f]; [inversion L|]); cbn [t_str r_str length] in *.
  - reflexivity.
  - change (byte_eqb x01 x00) with false. cbv iota. rewrite IH by lia. reflexivity.
Qed.
Lemma t_str_len s rest : length s < length (t_str s rest).
Proof. induction s; cbn [t_str length]; lia. Qed.
Lemma r_s_ok s rest : r_s (t_str s rest) = Some (s, rest).
Proof. apply r_str_ok, t_str_len. Qed.
Definition t_opt {A} (f : A -> bytes -> bytes) (o : option A) (rest : bytes) : bytes :=
  match o with None => x00 :: rest | Some a => x01 :: f a rest end.
Definition r_opt {A} (f : bytes -> option (A * bytes)) (t : bytes) : option (option A * bytes) :=
  match t with
  | b :: t' => if byte_eqb b x00 then Some (None, t') else option_map (fun p => (Some (fst p), snd p)) (f t')
  | [] => None
  end.
Lemma r_opt_ok {A} f (g : bytes -> option (A * bytes)) (o : option A) rest :
  (forall a r, g (f a r) = Some (a, r)) -> r_opt g (t_opt f o rest) = Some (o, rest).
Proof. intro H. destruct o; cbn [t_opt r_opt]; [change (byte_eqb x01 x00) with false; cbv iota; rewrite H|]; reflexivity. Qed.
Definition t_N (n : N) (rest : bytes) : bytes := t_str (decimal n) rest.
Definition r_N (t : bytes) : option (N * bytes) := option_map (fun p => (digits_value (fst p), snd p)) (r_s t).
Lemma r_N_ok n rest : r_N (t_N n rest) = Some (n, rest).
Proof. unfold r_N, t_N. rewrite r_s_ok. cbn [option_map fst snd]. destruct (decimal_ok n) as (_ & V & _). rewrite V. reflexivity. Qed.
Definition t_bool (b : bool) (rest : bytes) : bytes := (if b then x01 else x00) :: rest.
Definition r_bool (t : bytes) : option (bool * bytes) :=
  match t with b :: t' => Some (byte_eqb b x01, t') | [] => None end.
Definition t_logger (l : LoggerDoc) (rest : bytes) := t_bool (lg_trace l) (t_str (lg_env l) (t_str (lg_path l) rest)).
Definition andthen {A B} (x : option (A * bytes)) (f : A -> bytes -> option B) : option B :=
  match x with Some (a, r) => f a r | None => None end.
Definition r_logger (t : bytes) : option (LoggerDoc * bytes) :=
  andthen (r_bool t) (fun a t => andthen (r_s t) (fun b t => andthen (r_s t) (fun c t => Some (mkLogger a b c, t)))).
Lemma r_logger_ok l rest : r_logger (t_logger l rest) = Some (l, rest).
Proof. destruct l as [[] b c]; unfold r_logger, t_logger; cbn [t_bool r_bool lg_trace lg_env lg_path andthen]; rewrite !r_s_ok; cbn [andthen]; rewrite !r_s_ok; reflexivity. Qed.
Definition t_pol (l : PolDoc) (rest : bytes) := t_N (po_deadline l) (t_str (po_vrf l) (t_str (po_sign l) rest)).
Definition r_pol (t : bytes) : option (PolDoc * bytes) :=
  andthen (r_N t) (fun a t => andthen (r_s t) (fun b t => andthen (r_s t) (fun c t => Some (mkPol a b c, t)))).
Lemma r_pol_ok l rest : r_pol (t_pol l rest) = Some (l, rest).
Proof. destruct l as [a b c]; unfold r_pol, t_pol; cbn [po_deadline po_vrf po_sign]; rewrite r_N_ok; cbn [andthen]; rewrite r_s_ok; cbn [andthen]; rewrite r_s_ok; reflexivity. Qed.
Definition t_conn (l : Conn) (rest : bytes) := t_str (cn_addr l) (t_str (cn_cert l) (t_str (cn_key l) rest)).
Definition r_conn (t : bytes) : option (Conn * bytes) :=
  andthen (r_s t) (fun a t => andthen (r_s t) (fun b t => andthen (r_s t) (fun c t => Some (mkConn a b c, t)))).
Lemma r_conn_ok l rest : r_conn (t_conn l rest) = Some (l, rest).
Proof. destruct l as [a b c]; unfold r_conn, t_conn; cbn [cn_addr cn_cert cn_key]; rewrite r_s_ok; cbn [andthen]; rewrite r_s_ok; cbn [andthen]; rewrite r_s_ok; reflexivity. Qed.
Definition t_addr (a : AddrDoc) (rest : bytes) := t_opt t_conn (aa_conn a) (t_bool (aa_allow a) rest).
Definition r_addr (t : bytes) : option (AddrDoc * bytes) :=
  andthen (r_opt r_conn t) (fun a t => andthen (r_bool t) (fun b t => Some (mkAddr a b, t))).
Lemma r_addr_ok l rest : r_addr (t_addr l rest) = Some (l, rest).
Proof. destruct l as [a []]; unfold r_addr, t_addr; cbn [aa_conn aa_allow]; rewrite r_opt_ok by apply r_conn_ok; reflexivity. Qed.
Fixpoint t_list {A} (f : A -> bytes -> bytes) (l : list A) (rest : bytes) : bytes :=
  match l with [] => x00 :: rest | a :: l' => x01 :: f a (t_list f l' rest) end.
Fixpoint r_list {A} (f : bytes -> option (A * bytes)) (fuel : nat) (t : bytes) : option (list A * bytes) :=
  match fuel, t with
  | S n, b :: t' =>
      if byte_eqb b x00 then Some ([], t')
      else andthen (f t') (fun a t => option_map (fun p => (a :: fst p, snd p)) (r_list f n t))
  | _, _ => None
  end.
Lemma r_list_ok {A} f (g : bytes -> option (A * bytes)) : (forall a r, g (f a r) = Some (a, r)) ->
  forall l n rest, length l < n -> r_list g n (t_list f l rest) = Some (l, rest).
Proof.
  intros H l. induction l as [|a l IH]; intros n rest L; (destruct n as [|n]; [inversion L|]); cbn [t_list r_list length] in *.
  - reflexivity.
  - change (byte_eqb x01 x00) with false. cbv iota. rewrite H. cbn [andthen]. rewrite IH by lia. reflexivity.
Qed.
Lemma t_addr_len a rest : length rest < length (t_addr a rest).
Proof.
  assert (S : forall s r, length r < length (t_str s r)) by (intros s r; induction s; cbn [t_str length]; lia).
  unfold t_addr, t_opt, t_conn. destruct (aa_conn a) as [c|]; cbn [length t_bool]; [|lia].
  pose proof (S (cn_addr c) (t_str (cn_cert c) (t_str (cn_key c) (t_bool (aa_allow a) rest)))).
  pose proof (S (cn_cert c) (t_str (cn_key c) (t_bool (aa_allow a) rest))).
  pose proof (S (cn_key c) (t_bool (aa_allow a) rest)). cbn [length t_bool] in *. lia.
Qed.
Lemma t_list_len l rest : length l < length (t_list t_addr l rest).
Proof. induction l as [|a l IH]; cbn [t_list length]; [lia|]. pose proof (t_addr_len a (t_list t_addr l rest)). lia. Qed.
Definition toy_server_text (x : ServerDoc) : bytes :=
  t_opt t_str (sd_path x) (t_opt t_str (sd_enc x) (t_opt t_logger (sd_logger x) (t_N (sd_hist x)
    (t_opt t_pol (sd_pol x) (t_str (sd_str x) (t_list t_addr (sd_addrs x) (t_N (sd_deadline x) []))))))).
Definition toy_server_parse (t : bytes) : option ServerDoc :=
  andthen (r_opt r_s t) (fun a t => andthen (r_opt r_s t) (fun b t => andthen (r_opt r_logger t) (fun c t =>
  andthen (r_N t) (fun e t => andthen (r_opt r_pol t) (fun f t => andthen (r_s t) (fun g t =>
  andthen (r_list r_addr (length t) t) (fun h t => andthen (r_N t) (fun i t =>
    Some (mkServerDoc a b c e f g h i))))))))).
Definition toy_client_text (x : ClientDoc) : bytes :=
  t_opt t_str (cd_path x) (t_opt t_str (cd_enc x) (t_str (cd_pub x) (t_str (cd_str x) (t_str (cd_reg x) (t_str (cd_addr x) []))))).
Definition toy_client_parse (t : bytes) : option ClientDoc :=
  andthen (r_opt r_s t) (fun a t => andthen (r_opt r_s t) (fun b t => andthen (r_s t) (fun c t =>
  andthen (r_s t) (fun e t => andthen (r_s t) (fun f t => andthen (r_s t) (fun g t =>
    Some (mkClientDoc a b c e f g))))))).
Definition ToyToml : Toml := mkToml toy_server_text toy_server_parse toy_client_text toy_client_parse.
Lemma ToyToml_ok : TomlOk ToyToml.
Proof.
  constructor; intros x _.
  - destruct x as [a b c e f g h i]. cbn [server_text server_parse ToyToml]. unfold toy_server_text, toy_server_parse.
    cbn [sd_path sd_enc sd_logger sd_hist sd_pol sd_str sd_addrs sd_deadline].
    rewrite (r_opt_ok t_str r_s) by apply r_s_ok. cbn [andthen].
    rewrite (r_opt_ok t_str r_s) by apply r_s_ok. cbn [andthen].
    rewrite (r_opt_ok t_logger r_logger) by apply r_logger_ok. cbn [andthen].
    rewrite r_N_ok. cbn [andthen].
    rewrite (r_opt_ok t_pol r_pol) by apply r_pol_ok. cbn [andthen].
    rewrite r_s_ok. cbn [andthen].
    rewrite (r_list_ok t_addr r_addr r_addr_ok) by apply t_list_len. cbn [andthen].
    rewrite r_N_ok. reflexivity.
  - destruct x as [a b c e f g]. cbn [client_text client_parse ToyToml]. unfold toy_client_text, toy_client_parse.
    cbn [cd_path cd_enc cd_pub cd_str cd_reg cd_addr].
    rewrite (r_opt_ok t_str r_s) by apply r_s_ok. cbn [andthen].
    rewrite (r_opt_ok t_str r_s) by apply r_s_ok. cbn [andthen].
    rewrite r_s_ok. cbn [andthen]. rewrite r_s_ok. cbn [andthen]. rewrite r_s_ok. cbn [andthen]. rewrite r_s_ok. reflexivity.
Qed.
