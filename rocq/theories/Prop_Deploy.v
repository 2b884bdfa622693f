(** C69 to C73: creating a deployment, loading its configuration, starting and
    reloading the server, and what its clients find. *)
From Coq Require Import List NArith ZArith Lia Bool Arith.
From Coq Require Import String.
From Verif Require Import Base Utils Crypto Tree STR PAD PADSpec Protocol Directory DirSpec DirFacts DirMain Prop_Directory
  Auditor Client ClientSpec ClientFacts JointFacts Prop_Client
  Path Json JsonText Wire Text Conc Server ServerFacts ServerWire Prop_Server Deploy DeployFacts.
Import ListNotations.
Local Open Scope list_scope.
Local Open Scope nat_scope.
Notation length := List.length.

(** The files of a deployment: five made by [init], two more with its flag -c. *)
Definition key_names : list bytes :=
  [key "config.toml"; key "sign.priv"; key "sign.pub"; key "vrf.priv"; key "vrf.pub"].
Definition tls_names : list bytes := [key "server.pem"; key "server.key"].
(** The folder an [init] works in. *)
Definition home (a : InitArgs) : place := locate (in_cwd a) (in_dir a).
(** Any number of [init]s, by anyone, anywhere, each treated by the system in
    any way. *)
Definition inits {C : Crypto} (T : Toml) (l : list InitArgs) (d : disk) : disk := fold_left (fun d a => init T a d) l d.

Local Ltac names := apply name_ok_is; reflexivity.
Local Ltac lj := match goal with |- context [locate ?c (Join ?d ?w)] => rewrite (proj1 (locate_Join c d w ltac:(names))) end.

Section Init.
  Context {C : Crypto}.
  Variable T : Toml.

  Lemma init_keeps a d p n : (forall t, In t tls_names -> in_cert a <> None -> p <> t :: home a) ->
    d p = Some n -> init T a d p = Some n.
  Proof.
    intros NT E. unfold init.
    destruct (do_job (in_os1 a) (in_cwd a) d (config_job T (in_dir a))) as [d1 go1] eqn:J1.
    pose proof (job_keeps (in_cwd a) (config_job T (in_dir a)) (in_os1 a) d p n E) as E1. rewrite J1 in E1. cbn [fst] in E1.
    destruct go1; cbn [negb]; [|exact E1].
    destruct (do_job (in_os2 a) (in_cwd a) d1 (sign_job (in_dir a) (in_sign a))) as [d2 go2] eqn:J2.
    pose proof (job_keeps (in_cwd a) (sign_job (in_dir a) (in_sign a)) (in_os2 a) d1 p n E1) as E2. rewrite J2 in E2. cbn [fst] in E2.
    destruct go2; cbn [negb]; [|exact E2].
    destruct (do_job (in_os3 a) (in_cwd a) d2 (vrf_job (in_dir a) (in_vrf a))) as [d3 go3] eqn:J3.
    pose proof (job_keeps (in_cwd a) (vrf_job (in_dir a) (in_vrf a)) (in_os3 a) d2 p n E2) as E3. rewrite J3 in E3. cbn [fst] in E3.
    destruct go3; cbn [negb]; [|exact E3].
    destruct (in_cert a) as [tls|] eqn:EC; [|exact E3].
    destruct tls as [[cert k]|]; [|exact E3]. cbn [do_cert].
    assert (N1 : p <> locate (in_cwd a) (Join (in_dir a) (key "server.pem"))) by (lj; apply NT; [left; reflexivity|discriminate]).
    assert (N2 : p <> locate (in_cwd a) (Join (in_dir a) (key "server.key"))) by (lj; apply NT; [right; left; reflexivity|discriminate]).
    destruct (Overwrite (hd Fine (in_os4 a)) (in_cwd a) d3 (Join (in_dir a) (key "server.pem")) cert) as [d4 r4] eqn:W.
    pose proof (over_only _ _ _ _ _ _ _ _ W N1) as K4.
    destruct r4 as [[|]|]; [|congruence|congruence].
    destruct (Overwrite (hd Fine (tl (in_os4 a))) (in_cwd a) d4 (Join (in_dir a) (key "server.key")) k) as [d5 r5] eqn:W5.
    cbn [fst]. rewrite (over_only _ _ _ _ _ _ _ _ W5 N2). congruence.
  Qed.

  Lemma init_only a d p : (forall t, In t key_names -> p <> t :: home a) ->
    (forall t, In t tls_names -> in_cert a <> None -> p <> t :: home a) -> init T a d p = d p.
  Proof.
    intros NK NT. unfold init.
    assert (K1 : ~ In p (map (fun x => locate (in_cwd a) (fst x)) (config_job T (in_dir a)))).
    { cbn [config_job map fst]. unfold config_file. lj. intros [X|[]]. apply (NK (key "config.toml")); [left; reflexivity|auto]. }
    assert (K2 : ~ In p (map (fun x => locate (in_cwd a) (fst x)) (sign_job (in_dir a) (in_sign a)))).
    { destruct (in_sign a); cbn [sign_job map fst]; [|intros []]. do 2 lj. intros [X|[X|[]]];
        [apply (NK (key "sign.priv"))|apply (NK (key "sign.pub"))]; try (symmetry; exact X); cbn; auto. }
    assert (K3 : ~ In p (map (fun x => locate (in_cwd a) (fst x)) (vrf_job (in_dir a) (in_vrf a)))).
    { destruct (in_vrf a); cbn [vrf_job map fst]; [|intros []]. do 2 lj. intros [X|[X|[]]];
        [apply (NK (key "vrf.priv"))|apply (NK (key "vrf.pub"))]; try (symmetry; exact X); cbn; auto 6. }
    destruct (do_job (in_os1 a) (in_cwd a) d (config_job T (in_dir a))) as [d1 go1] eqn:J1.
    pose proof (job_only _ _ (in_os1 a) d p K1) as E1. rewrite J1 in E1. cbn [fst] in E1.
    destruct go1; cbn [negb]; [|exact E1].
    destruct (do_job (in_os2 a) (in_cwd a) d1 (sign_job (in_dir a) (in_sign a))) as [d2 go2] eqn:J2.
    pose proof (job_only _ _ (in_os2 a) d1 p K2) as E2. rewrite J2 in E2. cbn [fst] in E2. rewrite E1 in E2.
    destruct go2; cbn [negb]; [|exact E2].
    destruct (do_job (in_os3 a) (in_cwd a) d2 (vrf_job (in_dir a) (in_vrf a))) as [d3 go3] eqn:J3.
    pose proof (job_only _ _ (in_os3 a) d2 p K3) as E3. rewrite J3 in E3. cbn [fst] in E3. rewrite E2 in E3.
    destruct go3; cbn [negb]; [|exact E3].
    destruct (in_cert a) as [tls|] eqn:EC; [|exact E3].
    destruct tls as [[cert k]|]; [|exact E3]. cbn [do_cert].
    assert (N1 : p <> locate (in_cwd a) (Join (in_dir a) (key "server.pem"))) by (lj; apply NT; [left; reflexivity|discriminate]).
    assert (N2 : p <> locate (in_cwd a) (Join (in_dir a) (key "server.key"))) by (lj; apply NT; [right; left; reflexivity|discriminate]).
    destruct (Overwrite (hd Fine (in_os4 a)) (in_cwd a) d3 (Join (in_dir a) (key "server.pem")) cert) as [d4 r4] eqn:W.
    pose proof (over_only _ _ _ _ _ _ _ _ W N1) as K4.
    destruct r4 as [[|]|]; [|congruence|congruence].
    destruct (Overwrite (hd Fine (tl (in_os4 a))) (in_cwd a) d4 (Join (in_dir a) (key "server.key")) k) as [d5 r5] eqn:W5.
    cbn [fst]. rewrite (over_only _ _ _ _ _ _ _ _ W5 N2). congruence.
  Qed.
End Init.

(** ** C69: init *)

(** Whatever was on the disk before one or many [init]s, complete or stopped
    anywhere, is there afterwards, except for the two TLS files when the flag
    -c is given. *)
Theorem C69_nothing_lost : forall (C : Crypto) T l d p n,
  (forall a t, In a l -> In t tls_names -> in_cert a <> None -> p <> t :: home a) ->
  d p = Some n -> inits T l d p = Some n.
Proof.
  intros C T l. induction l as [|a l IH]; intros d p n NT E; [exact E|]. cbn [inits fold_left].
  apply IH; [intros a' t I; apply NT; right; exact I|]. apply init_keeps; [|exact E]. intros t I. apply NT; [left; reflexivity|exact I].
Qed.
Print Assumptions C69_nothing_lost.

(** ... and nothing appears but the files of the deployment, in its folder. *)
Theorem C69_nothing_else : forall (C : Crypto) T a d p, init T a d p <> d p ->
  (exists t, In t key_names /\ p = t :: home a) \/ (in_cert a <> None /\ exists t, In t tls_names /\ p = t :: home a).
Proof.
  intros C T a d p H.
  destruct (in_dec (list_eq_dec (list_eq_dec Byte.byte_eq_dec)) p (map (fun t => t :: home a) key_names)) as [I|NI].
  { left. apply in_map_iff in I as (t & <- & I). exists t. auto. }
  destruct (in_dec (list_eq_dec (list_eq_dec Byte.byte_eq_dec)) p (map (fun t => t :: home a) tls_names)) as [I|NI2].
  { destruct (in_cert a) eqn:EC.
    - right. split; [discriminate|]. apply in_map_iff in I as (t & <- & I). exists t. auto.
    - destruct H. apply init_only.
      + intros t I' ->. apply NI. apply in_map_iff. exists t. auto.
      + intros t _ X. congruence. }
  destruct H. apply init_only.
  - intros t I ->. apply NI. apply in_map_iff. exists t. auto.
  - intros t I _ ->. apply NI2. apply in_map_iff. exists t. auto.
Qed.
Print Assumptions C69_nothing_else.

(** With -c an existing TLS key is replaced without question. *)
Theorem C69_tls_kept_refuted : forall (C : Crypto) T, exists a d old,
  d (key "server.key" :: home a) = Some (File old) /\ init T a d (key "server.key" :: home a) <> Some (File old).
Proof.
  intros C T.
  exists (mkInit [] [dot] None None (Some (Some ([x01], [x02]))) [] [] [] []).
  exists (fun p => match p with [] => Some Folder | [w] => if beq w (key "server.key") then Some (File [x03]) else None | _ => None end), [x03].
  split; [reflexivity|].
  match goal with |- ?x <> _ => assert (E : x = Some (File [x02])) by (vm_compute; reflexivity) end.
  rewrite E. discriminate.
Qed.
Print Assumptions C69_tls_kept_refuted.

(** *** The public key files belong to the private ones *)

(** The public key file [pub] in folder [h], if present, holds (the beginning
    of) the public key of the complete private key in [priv]. *)
Definition pair_ok (pubkey : bytes -> bytes) (priv pub : bytes) (h : place) (d : disk) : Prop :=
  match d (pub :: h) with
  | None => True
  | Some Folder => False
  | Some (File b) => exists sk n, d (priv :: h) = Some (File sk) /\ b = firstn n (pubkey sk)
  end.

Lemma pair_job (pubkey : bytes -> bytes) priv pub h cwd dir sk os d :
  is_name priv -> is_name pub -> priv <> pub ->
  pair_ok pubkey priv pub h d ->
  pair_ok pubkey priv pub h (fst (do_job os cwd d [(Join dir priv, sk); (Join dir pub, pubkey sk)])).
Proof.
  intros NP NQ NE OK. cbn [do_job].
  pose proof (proj1 (locate_Join cwd dir priv NP)) as LP. pose proof (proj1 (locate_Join cwd dir pub NQ)) as LQ.
  destruct (WriteFile (hd Fine os) cwd d (Join dir priv) sk) as [d1 r1] eqn:W1.
  assert (OK1 : pair_ok pubkey priv pub h d1).
  { unfold pair_ok in *.
    assert (E : d1 (pub :: h) = d (pub :: h)) by (apply (write_only _ _ _ _ _ _ _ _ W1); rewrite LP; congruence).
    rewrite E. destruct (d (pub :: h)) as [[b|]|]; auto. destruct OK as (k & n & A & B). exists k, n.
    split; [|exact B]. apply (write_keeps _ _ _ _ _ _ _ _ _ W1 A). }
  destruct r1 as [[|]|]; cbn [fst]; try exact OK1.
  destruct (write_done _ _ _ _ _ _ W1) as (_ & P1). rewrite LP in P1.
  destruct (WriteFile (hd Fine (tl os)) cwd d1 (Join dir pub) (pubkey sk)) as [d2 r2] eqn:W2.
  assert (OK2 : pair_ok pubkey priv pub h d2).
  { unfold pair_ok in *.
    destruct (list_eq_dec (list_eq_dec Byte.byte_eq_dec) h (locate cwd dir)) as [->|NH].
    - destruct (write_there _ _ _ _ _ _ _ W2) as [E|(n & E)]; rewrite LQ in E; rewrite E.
      + destruct (d1 (pub :: locate cwd dir)) as [[b|]|]; auto. destruct OK1 as (k & n & A & B). exists k, n.
        split; [|exact B]. apply (write_keeps _ _ _ _ _ _ _ _ _ W2 A).
      + exists sk, n. split; [|reflexivity]. apply (write_keeps _ _ _ _ _ _ _ _ _ W2 P1).
    - assert (E : d2 (pub :: h) = d1 (pub :: h)) by (apply (write_only _ _ _ _ _ _ _ _ W2); rewrite LQ; congruence).
      rewrite E. destruct (d1 (pub :: h)) as [[b|]|]; auto. destruct OK1 as (k & n & A & B). exists k, n.
      split; [|exact B]. apply (write_keeps _ _ _ _ _ _ _ _ _ W2 A). }
  destruct r2 as [[|]|]; cbn [fst]; exact OK2.
Qed.
Lemma pair_frame pubkey priv pub h d d' : d' (pub :: h) = d (pub :: h) ->
  (forall n, d (priv :: h) = Some n -> d' (priv :: h) = Some n) ->
  pair_ok pubkey priv pub h d -> pair_ok pubkey priv pub h d'.
Proof.
  unfold pair_ok. intros -> K H. destruct (d (pub :: h)) as [[b|]|]; auto.
  destruct H as (k & n & A & B). exists k, n. split; [apply K; exact A|exact B].
Qed.
Lemma job_pair pubkey priv pub h cwd os d l :
  ~ In (pub :: h) (map (fun x => locate cwd (fst x)) l) -> pair_ok pubkey priv pub h d ->
  pair_ok pubkey priv pub h (fst (do_job os cwd d l)).
Proof.
  intros N OK. apply (pair_frame pubkey priv pub h d); [apply job_only; exact N| |exact OK].
  intros n E. apply job_keeps. exact E.
Qed.

Lemma over_pair pubkey priv pub h o cwd d path buf d' r :
  Overwrite o cwd d path buf = (d', r) -> pub :: h <> locate cwd path -> priv :: h <> locate cwd path ->
  pair_ok pubkey priv pub h d -> pair_ok pubkey priv pub h d'.
Proof.
  intros W N1 N2. apply pair_frame.
  - apply (over_only _ _ _ _ _ _ _ _ W N1).
  - intros n E. rewrite (over_only _ _ _ _ _ _ _ _ W N2). exact E.
Qed.

Lemma init_pairs (C : Crypto) T a d h :
  (pair_ok sign_pub (key "sign.priv") (key "sign.pub") h d -> pair_ok sign_pub (key "sign.priv") (key "sign.pub") h (init T a d)) /\
  (pair_ok vrf_pub (key "vrf.priv") (key "vrf.pub") h d -> pair_ok vrf_pub (key "vrf.priv") (key "vrf.pub") h (init T a d)).
Proof.
  assert (G : forall pubkey priv pub,
    ((priv = key "sign.priv" /\ pub = key "sign.pub" /\ pubkey = sign_pub) \/ (priv = key "vrf.priv" /\ pub = key "vrf.pub" /\ pubkey = vrf_pub)) ->
    pair_ok pubkey priv pub h d -> pair_ok pubkey priv pub h (init T a d)).
  { intros pubkey priv pub W OK.
    unfold init.
    destruct (do_job (in_os1 a) (in_cwd a) d (config_job T (in_dir a))) as [d1 go1] eqn:J1.
    assert (OK1 : pair_ok pubkey priv pub h d1).
    { replace d1 with (fst (do_job (in_os1 a) (in_cwd a) d (config_job T (in_dir a)))) by (rewrite J1; reflexivity).
      apply job_pair; [|exact OK]. cbn [config_job map fst]. unfold config_file. lj. intros [X|[]].
      destruct W as [(_ & -> & _)|(_ & -> & _)]; discriminate X. }
    destruct go1; cbn [negb]; [|exact OK1].
    destruct (do_job (in_os2 a) (in_cwd a) d1 (sign_job (in_dir a) (in_sign a))) as [d2 go2] eqn:J2.
    assert (OK2 : pair_ok pubkey priv pub h d2).
    { replace d2 with (fst (do_job (in_os2 a) (in_cwd a) d1 (sign_job (in_dir a) (in_sign a)))) by (rewrite J2; reflexivity).
      destruct (in_sign a) as [sk|]; [|exact OK1]. cbn [sign_job].
      destruct W as [(-> & -> & ->)|(-> & -> & ->)].
      - apply pair_job; [names|names|discriminate|exact OK1].
      - apply job_pair; [|exact OK1]. cbn [map fst]. do 2 lj. intros [X|[X|[]]]; discriminate X. }
    destruct go2; cbn [negb]; [|exact OK2].
    destruct (do_job (in_os3 a) (in_cwd a) d2 (vrf_job (in_dir a) (in_vrf a))) as [d3 go3] eqn:J3.
    assert (OK3 : pair_ok pubkey priv pub h d3).
    { replace d3 with (fst (do_job (in_os3 a) (in_cwd a) d2 (vrf_job (in_dir a) (in_vrf a)))) by (rewrite J3; reflexivity).
      destruct (in_vrf a) as [sk|]; [|exact OK2]. cbn [vrf_job].
      destruct W as [(-> & -> & ->)|(-> & -> & ->)].
      - apply job_pair; [|exact OK2]. cbn [map fst]. do 2 lj. intros [X|[X|[]]]; discriminate X.
      - apply pair_job; [names|names|discriminate|exact OK2]. }
    destruct go3; cbn [negb]; [|exact OK3].
    destruct (in_cert a) as [[[cert k]|]|]; [|exact OK3|exact OK3]. cbn [do_cert].
    assert (NE : forall w, In w tls_names -> pub :: h <> locate (in_cwd a) (Join (in_dir a) w) /\ priv :: h <> locate (in_cwd a) (Join (in_dir a) w)).
    { intros w [<-|[<-|[]]]; lj; destruct W as [(-> & -> & _)|(-> & -> & _)]; split; discriminate. }
    destruct (Overwrite (hd Fine (in_os4 a)) (in_cwd a) d3 (Join (in_dir a) (key "server.pem")) cert) as [d4 r4] eqn:W4.
    assert (OK4 : pair_ok pubkey priv pub h d4).
    { destruct (NE (key "server.pem")) as (A & B); [left; reflexivity|]. apply (over_pair _ _ _ _ _ _ _ _ _ _ _ W4 A B OK3). }
    destruct r4 as [[|]|]; [|exact OK4|exact OK4].
    destruct (Overwrite (hd Fine (tl (in_os4 a))) (in_cwd a) d4 (Join (in_dir a) (key "server.key")) k) as [d5 r5] eqn:W5. cbn [fst].
    destruct (NE (key "server.key")) as (A & B); [right; left; reflexivity|]. apply (over_pair _ _ _ _ _ _ _ _ _ _ _ W5 A B OK4). }
  split; apply G; auto.
Qed.

(** If the folder has no public key file at first, then after any number of
    [init]s, each stopped or failing anywhere, a public key file is (a
    beginning of) the public key of the private key beside it. *)
Theorem C69_keys_match : forall (C : Crypto) T l d h,
  (d (key "sign.pub" :: h) = None -> forall b, inits T l d (key "sign.pub" :: h) = Some (File b) ->
     exists sk n, inits T l d (key "sign.priv" :: h) = Some (File sk) /\ b = firstn n (sign_pub sk)) /\
  (d (key "vrf.pub" :: h) = None -> forall b, inits T l d (key "vrf.pub" :: h) = Some (File b) ->
     exists sk n, inits T l d (key "vrf.priv" :: h) = Some (File sk) /\ b = firstn n (vrf_pub sk)).
Proof.
  intros C T l d h.
  assert (G : forall l d,
    (pair_ok sign_pub (key "sign.priv") (key "sign.pub") h d -> pair_ok sign_pub (key "sign.priv") (key "sign.pub") h (inits T l d)) /\
    (pair_ok vrf_pub (key "vrf.priv") (key "vrf.pub") h d -> pair_ok vrf_pub (key "vrf.priv") (key "vrf.pub") h (inits T l d))).
  { clear. induction l as [|a l IH]; intro d; [split; auto|]. cbn [inits fold_left].
    destruct (init_pairs C T a d h) as (A & B). destruct (IH (init T a d)) as (A' & B'). split; intro H; auto. }
  destruct (G l d) as (A & B). split; intros E b X.
  - assert (P : pair_ok sign_pub (key "sign.priv") (key "sign.pub") h d) by (unfold pair_ok; rewrite E; exact I).
    apply A in P. unfold pair_ok in P. rewrite X in P. exact P.
  - assert (P : pair_ok vrf_pub (key "vrf.priv") (key "vrf.pub") h d) by (unfold pair_ok; rewrite E; exact I).
    apply B in P. unfold pair_ok in P. rewrite X in P. exact P.
Qed.
Print Assumptions C69_keys_match.
(** So a public key file of full length is the right one. *)
Corollary C69_full_key : forall (C : Crypto), (forall sk, length (sign_pub sk) = 32) -> forall T l d h b,
  d (key "sign.pub" :: h) = None -> inits T l d (key "sign.pub" :: h) = Some (File b) -> length b = 32 ->
  exists sk, inits T l d (key "sign.priv" :: h) = Some (File sk) /\ b = sign_pub sk.
Proof.
  intros C LP T l d h b E X L. destruct (C69_keys_match C T l d h) as (A & _). destruct (A E b X) as (sk & n & S & ->).
  exists sk. split; [exact S|]. rewrite firstn_length, LP in L. apply firstn_all2. rewrite LP. lia.
Qed.
Print Assumptions C69_full_key.

(** Without that premise it fails: an old public key next to a missing private
    one stays, and the new private key does not belong to it. *)
Theorem C69_stale_public_key_refuted : forall (C : Crypto) T old sk, old <> sign_pub sk ->
  exists a d, in_sign a = Some sk /\ d (key "sign.pub" :: home a) = Some (File old) /\
    init T a d (key "sign.priv" :: home a) = Some (File sk) /\ init T a d (key "sign.pub" :: home a) = Some (File old).
Proof.
  intros C T old sk NE.
  set (d := fun p : place => match p with [] => Some Folder | [w] => if beq w (key "sign.pub") then Some (File old) else None | _ => None end).
  exists (mkInit [] [dot] (Some sk) None None [] [] [] []), d.
  split; [reflexivity|]. split; [reflexivity|].
  split; vm_compute; reflexivity.
Qed.
Print Assumptions C69_stale_public_key_refuted.

(** ** C70: what a configuration file means *)

(** The place a path written in configuration file [file] stands for: relative
    to the directory of that file, whatever the working directory. *)
Definition beside (cwd : place) (file p : bytes) : place :=
  if IsAbs p then locate [] p else locate (locate_dir cwd file) p.
Definition content (d : disk) (p : place) : option bytes := match d p with Some (File b) => Some b | _ => None end.

Lemma locate_abs cwd p : IsAbs p = true -> locate cwd p = locate [] p.
Proof. unfold locate. intros ->. reflexivity. Qed.
Lemma locate_beside cwd file p : locate cwd (ResolvePath p file) = beside cwd file p.
Proof. rewrite locate_Resolve. unfold beside. destruct (IsAbs p) eqn:A; [apply locate_abs; exact A|reflexivity]. Qed.
Lemma read_beside cwd d file p : ReadFile cwd d (ResolvePath p file) = content d (beside cwd file p).
Proof. unfold ReadFile. rewrite locate_beside. reflexivity. Qed.

(** The addresses of a file: the paths of certificates resolved likewise. *)
Definition same_conns (file : bytes) (l : list AddrDoc) (r : list (Conn * bool)) : Prop :=
  Forall2 (fun a x => exists c, aa_conn a = Some c /\ snd x = aa_allow a /\ cn_addr (fst x) = cn_addr c /\
             cn_cert (fst x) = ResolvePath (cn_cert c) file /\ cn_key (fst x) = ResolvePath (cn_key c) file) l r.
Lemma resolve_addrs_iff file l r : resolve_addrs file l = Some r <-> same_conns file l r.
Proof.
  revert r. induction l as [|a l IH]; intro r; cbn [resolve_addrs].
  - split; [intros [= <-]; constructor|intro H; inversion H; reflexivity].
  - destruct (aa_conn a) as [c|] eqn:EC.
    + destruct (resolve_addrs file l) as [r'|] eqn:ER.
      * split.
        -- intros [= <-]. constructor; [exists c; auto|]. apply IH. reflexivity.
        -- intro H. inversion H as [|? x ? xs (c' & E & S1 & S2 & S3 & S4) HT]; subst. rewrite EC in E. injection E as <-.
           apply IH in HT. injection HT as ->. destruct x as [[x1 x2 x3] x4]. cbn [fst snd cn_addr cn_cert cn_key] in *. subst. reflexivity.
      * split; [discriminate|]. intro H. inversion H as [|? x ? xs _ HT]; subst. apply IH in HT. discriminate HT.
    + split; [discriminate|]. intro H. inversion H as [|? x ? xs (c' & E & _) _]; subst. congruence.
Qed.
Lemma resolve_addrs_none file l : resolve_addrs file l = None <-> exists a, In a l /\ aa_conn a = None.
Proof.
  induction l as [|a l IH]; cbn [resolve_addrs].
  - split; [discriminate|]. intros (a & [] & _).
  - destruct (aa_conn a) as [c|] eqn:EC.
    + destruct (resolve_addrs file l) as [r'|] eqn:ER.
      * split; [discriminate|]. intros (x & [<-|I] & N); [congruence|]. assert (X : Some r' = None) by (apply IH; exists x; auto). discriminate X.
      * split; [|reflexivity]. intros _. destruct (proj1 IH eq_refl) as (x & I & N). exists x. split; [right; exact I|exact N].
    + split; [|reflexivity]. intros _. exists a. split; [left; reflexivity|exact EC].
Qed.

(** A configuration file is loaded exactly when it says all that is needed and
    both key files are there with 64 bytes, and this is what comes of it. *)
Theorem C70_load_iff : forall T cwd d file enc c,
  Load T cwd d file enc = Ok (Some c) <->
  exists text doc pol lg sk vk,
    content d (locate cwd file) = Some text /\ server_parse T text = Some doc /\
    sd_pol doc = Some pol /\ sd_logger doc = Some lg /\
    content d (beside cwd file (po_sign pol)) = Some sk /\ length sk = 64 /\
    content d (beside cwd file (po_vrf pol)) = Some vk /\ length vk = 64 /\
    same_conns file (sd_addrs doc) (ld_conns c) /\
    pc_sign (ld_pol c) = sk /\ pc_vrf (ld_pol c) = vk /\ pc_deadline (ld_pol c) = po_deadline pol /\
    ld_hist c = sd_hist doc /\ ld_str c = sd_str doc /\ ld_deadline c = sd_deadline doc /\
    lg_trace (ld_logger c) = lg_trace lg /\ lg_env (ld_logger c) = lg_env lg /\
    lg_path (ld_logger c) = ResolvePath (lg_path lg) file /\
    ld_path c = match sd_path doc with Some p => p | None => file end /\
    ld_enc c = match sd_enc doc with Some e => e | None => enc end.
Proof.
  intros T cwd d file enc c. unfold Load, ReadFile at 1. fold (content d (locate cwd file)).
  destruct (content d (locate cwd file)) as [text|]; [|split; [discriminate|intros (? & ? & ? & ? & ? & ? & E & _); discriminate E]].
  destruct (server_parse T text) as [doc|] eqn:EP; [|split; [discriminate|intros (? & ? & ? & ? & ? & ? & [= <-] & E & _); congruence]].
  destruct (sd_pol doc) as [pol|] eqn:EPol; [|split; [discriminate|intros (? & ? & ? & ? & ? & ? & [= <-] & E & E2 & _); congruence]].
  rewrite !read_beside.
  destruct (content d (beside cwd file (po_sign pol))) as [sk|] eqn:ES;
    [|split; [discriminate|intros (? & ? & ? & ? & ? & ? & [= <-] & E & E2 & E3 & E4 & _);
        rewrite EP in E; injection E as <-; rewrite EPol in E2; injection E2 as <-; congruence]].
  destruct (Nat.eqb (length sk) PrivateKeySize) eqn:LS; cbn [negb];
    [|split; [discriminate|intros (? & ? & ? & ? & ? & ? & [= <-] & E & E2 & E3 & E4 & E5 & _);
        rewrite EP in E; injection E as <-; rewrite EPol in E2; injection E2 as <-; rewrite ES in E4; injection E4 as <-;
        apply Nat.eqb_neq in LS; unfold PrivateKeySize in LS; congruence]].
  destruct (content d (beside cwd file (po_vrf pol))) as [vk|] eqn:EV;
    [|split; [discriminate|intros (? & ? & ? & ? & ? & ? & [= <-] & E & E2 & E3 & E4 & E5 & E6 & _);
        rewrite EP in E; injection E as <-; rewrite EPol in E2; injection E2 as <-; congruence]].
  destruct (Nat.eqb (length vk) PrivateKeySize) eqn:LV; cbn [negb];
    [|split; [discriminate|intros (? & ? & ? & ? & ? & ? & [= <-] & E & E2 & E3 & E4 & E5 & E6 & E7 & _);
        rewrite EP in E; injection E as <-; rewrite EPol in E2; injection E2 as <-; rewrite EV in E6; injection E6 as <-;
        apply Nat.eqb_neq in LV; unfold PrivateKeySize in LV; congruence]].
  apply Nat.eqb_eq in LS, LV.
  destruct (resolve_addrs file (sd_addrs doc)) as [conns|] eqn:EA;
    [|split; [discriminate|intros (? & ? & ? & ? & ? & ? & [= <-] & E & E2 & E3 & E4 & E5 & E6 & E7 & E8 & _);
        rewrite EP in E; injection E as <-; apply resolve_addrs_iff in E8; congruence]].
  destruct (sd_logger doc) as [lg|] eqn:EL;
    [|split; [discriminate|intros (? & ? & ? & ? & ? & ? & [= <-] & E & E2 & E3 & _);
        rewrite EP in E; injection E as <-; congruence]].
  split.
  - intros [= <-]. exists text, doc, pol, lg, sk, vk. cbn [ld_conns ld_pol ld_hist ld_str ld_deadline ld_logger ld_path ld_enc pc_sign pc_vrf pc_deadline lg_trace lg_env lg_path].
    repeat (split; [first [assumption|reflexivity|apply resolve_addrs_iff; assumption]|]); reflexivity.
  - intros (text' & doc' & pol' & lg' & sk' & vk' & [= <-] & E1 & E2 & E3 & E4 & E5 & E6 & E7 & E8 & E9 & E10 & E11 & E12 & E13 & E14 & E15 & E16 & E17 & E18 & E19).
    rewrite EP in E1; injection E1 as <-. rewrite EPol in E2; injection E2 as <-. rewrite EL in E3; injection E3 as <-.
    rewrite ES in E4; injection E4 as <-. rewrite EV in E6; injection E6 as <-. apply resolve_addrs_iff in E8. rewrite EA in E8; injection E8 as ->.
    destruct c as [c1 c2 [c3 c4 c5] c6 [c7 c8 c9] c10 c11 c12]. cbn in *. subst. reflexivity.
Qed.
Print Assumptions C70_load_iff.

(** The same file means the same keys, addresses, log file, history length and
    deadlines to a process in any directory, under any spelling of its path. *)
Definition conn_places (cwd : place) (x : Conn * bool) : bytes * place * place * bool :=
  (cn_addr (fst x), locate cwd (cn_cert (fst x)), locate cwd (cn_key (fst x)), snd x).
Theorem C70_spelling : forall T cwd cwd' d file file' enc enc' c c',
  locate cwd file = locate cwd' file' -> locate_dir cwd file = locate_dir cwd' file' ->
  Load T cwd d file enc = Ok (Some c) -> Load T cwd' d file' enc' = Ok (Some c') ->
  ld_pol c = ld_pol c' /\ ld_hist c = ld_hist c' /\ ld_str c = ld_str c' /\ ld_deadline c = ld_deadline c' /\
  map (conn_places cwd) (ld_conns c) = map (conn_places cwd') (ld_conns c') /\
  locate cwd (lg_path (ld_logger c)) = locate cwd' (lg_path (ld_logger c')).
Proof.
  intros T cwd cwd' d file file' enc enc' c c' L LD A B.
  assert (BE : forall p, beside cwd file p = beside cwd' file' p) by (intro p; unfold beside; rewrite LD; reflexivity).
  apply C70_load_iff in A as (t & doc & pol & lg & sk & vk & A1 & A2 & A3 & A4 & A5 & A6 & A7 & A8 & A9 & A10 & A11 & A12 & A13 & A14 & A15 & A16 & A17 & A18 & _).
  apply C70_load_iff in B as (t' & doc' & pol' & lg' & sk' & vk' & B1 & B2 & B3 & B4 & B5 & B6 & B7 & B8 & B9 & B10 & B11 & B12 & B13 & B14 & B15 & B16 & B17 & B18 & _).
  rewrite <- L, A1 in B1. injection B1 as <-. rewrite A2 in B2. injection B2 as <-. rewrite A3 in B3. injection B3 as <-. rewrite A4 in B4. injection B4 as <-.
  rewrite <- BE, A5 in B5. injection B5 as <-. rewrite <- BE, A7 in B7. injection B7 as <-.
  split; [destruct (ld_pol c), (ld_pol c'); cbn in *; congruence|].
  split; [congruence|]. split; [congruence|]. split; [congruence|].
  split; [|rewrite A18, B18, !locate_beside; apply BE].
  clear - A9 B9 BE. revert B9. generalize (ld_conns c'). induction A9 as [|a x l xs (k & K1 & K2 & K3 & K4 & K5) _ IH]; intros r B9; inversion B9 as [|? y ? ys (k' & J1 & J2 & J3 & J4 & J5) HT]; subst.
  - reflexivity.
  - cbn [map]. rewrite (IH ys HT). f_equal. unfold conn_places. rewrite K1 in J1. injection J1 as <-.
    rewrite K2, K3, K4, K5, J2, J3, J4, J5, !locate_beside, !BE. reflexivity.
Qed.
Print Assumptions C70_spelling.

(** Loading never gets as far as it should when sections are missing: instead
    of an error, a panic.  Exactly: *)
Theorem C70_load_panics_iff : forall T cwd d file enc,
  Load T cwd d file enc = Panic <->
  exists text doc, content d (locate cwd file) = Some text /\ server_parse T text = Some doc /\
    (sd_pol doc = None \/
     exists pol sk vk, sd_pol doc = Some pol /\
       content d (beside cwd file (po_sign pol)) = Some sk /\ length sk = 64 /\
       content d (beside cwd file (po_vrf pol)) = Some vk /\ length vk = 64 /\
       (sd_logger doc = None \/ exists a, In a (sd_addrs doc) /\ aa_conn a = None)).
Proof.
  intros T cwd d file enc. unfold Load, ReadFile at 1. fold (content d (locate cwd file)).
  destruct (content d (locate cwd file)) as [text|]; [|split; [discriminate|intros (? & ? & E & _); discriminate E]].
  destruct (server_parse T text) as [doc|] eqn:EP; [|split; [discriminate|intros (? & ? & [= <-] & E & _); congruence]].
  destruct (sd_pol doc) as [pol|] eqn:EPol; [|split; [intros _; exists text, doc; auto|reflexivity]].
  rewrite !read_beside.
  assert (U : forall Q, (exists text0 doc0, Some text = Some text0 /\ server_parse T text0 = Some doc0 /\ (sd_pol doc0 = None \/ exists pol0 sk vk, sd_pol doc0 = Some pol0 /\
       content d (beside cwd file (po_sign pol0)) = Some sk /\ length sk = 64 /\
       content d (beside cwd file (po_vrf pol0)) = Some vk /\ length vk = 64 /\ Q doc0)) <->
     exists sk vk, content d (beside cwd file (po_sign pol)) = Some sk /\ length sk = 64 /\
       content d (beside cwd file (po_vrf pol)) = Some vk /\ length vk = 64 /\ Q doc).
  { intro Q. split.
    - intros (t & dc & [= <-] & E & [N|(p & sk & vk & E2 & R)]); rewrite EP in E; injection E as <-; [congruence|].
      rewrite EPol in E2. injection E2 as <-. exists sk, vk. exact R.
    - intros (sk & vk & R). exists text, doc. split; [reflexivity|]. split; [exact EP|]. right. exists pol, sk, vk. split; [exact EPol|exact R]. }
  rewrite (U (fun dc => sd_logger dc = None \/ exists a, In a (sd_addrs dc) /\ aa_conn a = None)). clear U.
  destruct (content d (beside cwd file (po_sign pol))) as [sk|]; [|split; [discriminate|intros (? & ? & E & _); discriminate E]].
  destruct (Nat.eqb (length sk) PrivateKeySize) eqn:LS; cbn [negb];
    [apply Nat.eqb_eq in LS|split; [discriminate|intros (? & ? & [= <-] & E & _); apply Nat.eqb_neq in LS; unfold PrivateKeySize in LS; congruence]].
  destruct (content d (beside cwd file (po_vrf pol))) as [vk|]; [|split; [discriminate|intros (? & ? & _ & _ & E & _); discriminate E]].
  destruct (Nat.eqb (length vk) PrivateKeySize) eqn:LV; cbn [negb];
    [apply Nat.eqb_eq in LV|split; [discriminate|intros (? & ? & _ & _ & [= <-] & E & _); apply Nat.eqb_neq in LV; unfold PrivateKeySize in LV; congruence]].
  destruct (resolve_addrs file (sd_addrs doc)) as [conns|] eqn:EA.
  - destruct (sd_logger doc) as [lg|] eqn:EL.
    + split; [discriminate|]. intros (? & ? & _ & _ & _ & _ & [X|X]); [discriminate X|]. apply (resolve_addrs_none file) in X. congruence.
    + split; [intros _|reflexivity]. exists sk, vk. auto 8.
  - split; [intros _|reflexivity]. apply resolve_addrs_none in EA. exists sk, vk. auto 8.
Qed.
Print Assumptions C70_load_panics_iff.

(** A reload changes the announced deadline and nothing else: keys, history,
    permissions, users, snapshots stay those of the start, whatever is now in
    the files. *)
Theorem C70_reload_effect : forall (C : Crypto) T d p p', Reload T d p = Ok p' ->
  pr_cwd p' = pr_cwd p /\ pr_file p' = pr_file p /\ pr_enc p' = pr_enc p /\
  sv_perms (pr_server p') = sv_perms (pr_server p) /\ sv_timer (pr_server p') = sv_timer (pr_server p) /\
  dr_pad (sv_dir (pr_server p')) = dr_pad (sv_dir (pr_server p)) /\
  dr_tbs (sv_dir (pr_server p')) = dr_tbs (sv_dir (pr_server p)) /\
  dr_useTBs (sv_dir (pr_server p')) = dr_useTBs (sv_dir (pr_server p)) /\
  pol_vrf (dr_pol (sv_dir (pr_server p'))) = pol_vrf (dr_pol (sv_dir (pr_server p))) /\
  match Load T (pr_cwd p) d (pr_file p) (pr_enc p) with
  | Ok (Some c) => pol_deadline (dr_pol (sv_dir (pr_server p'))) = pc_deadline (ld_pol c)
  | _ => p' = p
  end.
Proof.
  intros C T d p p' R. unfold Reload in R. destruct (Load T (pr_cwd p) d (pr_file p) (pr_enc p)) as [[c|]|]; cbn [bind option_map] in R; [| |discriminate R].
  - cbn [sv_step srv_sem bind] in R. injection R as <-. cbn. auto 12.
  - destruct p as [cwd file enc [a b e]]. cbn [sv_step srv_sem bind pr_server sv_perms sv_dir sv_timer pr_cwd pr_file pr_enc] in R. injection R as <-. cbn. auto 12.
Qed.
Print Assumptions C70_reload_effect.
(** It kills the server exactly when the file, as it is now, makes loading
    panic. *)
Theorem C70_reload_crash_iff : forall (C : Crypto) T d p,
  Reload T d p = Panic <-> Load T (pr_cwd p) d (pr_file p) (pr_enc p) = Panic.
Proof.
  intros C T d p. unfold Reload. destruct (Load T (pr_cwd p) d (pr_file p) (pr_enc p)) as [[c|]|]; cbn; split; congruence.
Qed.
Print Assumptions C70_reload_crash_iff.
(** So a file without its policies section, put there while the server runs,
    kills it at the next reload. *)
Theorem C70_reload_survives_refuted : forall (C : Crypto) T p text doc, server_parse T text = Some doc -> sd_pol doc = None ->
  exists d, Reload T d p = Panic.
Proof.
  intros C T p text doc P N. exists (fun _ => Some (File text)). apply C70_reload_crash_iff. apply C70_load_panics_iff.
  exists text, doc. auto.
Qed.
Print Assumptions C70_reload_survives_refuted.

(** The path of the log file may be left out of the configuration (it is
    "omitempty", and NewLogger has a case for the empty path), but then it
    stands for the directory of the configuration file, and the server panics
    instead of logging to the standard error only. *)
Theorem C70_no_log_file_refuted : forall (C : Crypto) T o cwd d file enc c r1 r2 text doc lg,
  Load T cwd d file enc = Ok (Some c) ->
  content d (locate cwd file) = Some text -> server_parse T text = Some doc -> sd_logger doc = Some lg -> lg_path lg = [] ->
  d (locate_dir cwd file) = Some Folder -> ResolvePath [] file <> key "stdout" -> ResolvePath [] file <> key "stderr" ->
  StartServer o cwd d c r1 r2 = Panic.
Proof.
  intros C T o cwd d file enc c r1 r2 text doc lg L E P EL EP F N1 N2.
  apply C70_load_iff in L as (t & doc' & pol & lg' & sk & vk & A1 & A2 & A3 & A4 & _ & _ & _ & _ & _ & _ & _ & _ & _ & _ & _ & _ & _ & A18 & _).
  rewrite E in A1. injection A1 as <-. rewrite P in A2. injection A2 as <-. rewrite EL in A4. injection A4 as <-.
  unfold StartServer, NewLogger. rewrite A18, EP.
  destruct (_ || _); [|reflexivity].
  assert (X : empty (ResolvePath [] file) || beq (ResolvePath [] file) (key "stdout") || beq (ResolvePath [] file) (key "stderr") = false).
  { apply beq_neq in N1, N2. rewrite N1, N2. pose proof (Resolve_ne [] file) as NE. destruct (ResolvePath [] file); [congruence|reflexivity]. }
  rewrite X. rewrite locate_beside. change (beside cwd file []) with (locate_dir cwd file). rewrite F. reflexivity.
Qed.
Print Assumptions C70_no_log_file_refuted.

(** ** C71: from init to a client that works *)

(** An undisturbed [init] into an existing folder without these files. *)
Definition undisturbed (a : InitArgs) : Prop :=
  in_os1 a = [] /\ in_os2 a = [] /\ in_os3 a = [] /\ in_os4 a = [].
Definition clear (d : disk) (h : place) : Prop :=
  d h = Some Folder /\ forall t, In t key_names -> d (t :: h) = None.

Section Fresh.
  Context {C : Crypto}.
  Variable T : Toml.

  Lemma fresh_pair cwd dir priv pub sk pk (d : disk) :
    is_name priv -> is_name pub -> priv <> pub ->
    d (locate cwd dir) = Some Folder -> d (priv :: locate cwd dir) = None -> d (pub :: locate cwd dir) = None ->
    do_job [] cwd d [(Join dir priv, sk); (Join dir pub, pk)] =
      (put (put d (priv :: locate cwd dir) (File sk)) (pub :: locate cwd dir) (File pk), true).
  Proof.
    intros NP NQ NE F EP EQ. cbn [do_job hd tl].
    pose proof (proj1 (locate_Join cwd dir priv NP)) as LP. pose proof (proj1 (locate_Join cwd dir pub NQ)) as LQ.
    rewrite write_fine by (rewrite LP; cbn [tl]; assumption). rewrite LP.
    assert (HL : forall (w : bytes) (h : place), h <> w :: h).
    { intros w h E. apply (f_equal (@List.length bytes)) in E. cbn [List.length] in E. lia. }
    rewrite write_fine.
    - rewrite LQ. reflexivity.
    - rewrite LQ, put_other; [exact EQ|congruence].
    - rewrite LQ. cbn [tl]. rewrite put_other; [exact F|apply HL].
  Qed.

  (** the disk afterwards *)
  Lemma fresh_init a d sk vk : undisturbed a -> clear d (home a) -> in_sign a = Some sk -> in_vrf a = Some vk -> in_cert a = None ->
    forall p, init T a d p =
      if place_eqb p (key "config.toml" :: home a) then Some (File (server_text T (default_doc (config_file (in_dir a)))))
      else if place_eqb p (key "sign.priv" :: home a) then Some (File sk)
      else if place_eqb p (key "sign.pub" :: home a) then Some (File (sign_pub sk))
      else if place_eqb p (key "vrf.priv" :: home a) then Some (File vk)
      else if place_eqb p (key "vrf.pub" :: home a) then Some (File (vrf_pub vk))
      else d p.
  Proof.
    intros (O1 & O2 & O3 & O4) (F & CL) KS KV KC p. unfold home in *. unfold init. rewrite O1, O2, O3, O4, KS, KV, KC. cbn [sign_job vrf_job].
    set (h := locate (in_cwd a) (in_dir a)) in *.
    assert (HL : forall (w : bytes) (h : place), h <> w :: h).
    { intros w h' E. apply (f_equal (@List.length bytes)) in E. cbn [List.length] in E. lia. }
    assert (J1 : do_job [] (in_cwd a) d (config_job T (in_dir a)) = (put d (key "config.toml" :: h) (File (server_text T (default_doc (config_file (in_dir a))))), true)).
    { unfold config_job. cbn [do_job hd tl]. unfold config_file at 1.
      pose proof (proj1 (locate_Join (in_cwd a) (in_dir a) (key "config.toml") ltac:(names))) as LP. fold h in LP.
      rewrite write_fine; [rewrite LP; reflexivity| |].
      - rewrite LP. apply CL. left. reflexivity.
      - rewrite LP. exact F. }
    rewrite J1. cbn [negb].
    rewrite fresh_pair; [|names|names|discriminate| | |].
    2:{ fold h. rewrite put_other by apply HL. exact F. }
    2:{ fold h. rewrite put_other by discriminate. apply CL. cbn. auto. }
    2:{ fold h. rewrite put_other by discriminate. apply CL. cbn. auto. }
    cbn [negb]. fold h.
    rewrite fresh_pair; [|names|names|discriminate| | |].
    2:{ fold h. rewrite !put_other by apply HL. exact F. }
    2:{ fold h. rewrite !put_other by discriminate. apply CL. cbn. auto 6. }
    2:{ fold h. rewrite !put_other by discriminate. apply CL. cbn. auto 6. }
    cbn [negb]. fold h. unfold put.
    destruct (place_eqb p (key "config.toml" :: h)) eqn:E1; [apply place_eqb_eq in E1; subst p; reflexivity|].
    destruct (place_eqb p (key "sign.priv" :: h)) eqn:E2; [apply place_eqb_eq in E2; subst p; reflexivity|].
    destruct (place_eqb p (key "sign.pub" :: h)) eqn:E3; [apply place_eqb_eq in E3; subst p; reflexivity|].
    destruct (place_eqb p (key "vrf.priv" :: h)) eqn:E4; [apply place_eqb_eq in E4; subst p; reflexivity|].
    destruct (place_eqb p (key "vrf.pub" :: h)) eqn:E5; [apply place_eqb_eq in E5; subst p; reflexivity|].
    reflexivity.
  Qed.
End Fresh.


(** What an undisturbed [init] leaves: the five files, and the rest as it was. *)
Theorem C69_complete_init : forall (C : Crypto) T a d sk vk,
  undisturbed a -> clear d (home a) -> in_sign a = Some sk -> in_vrf a = Some vk -> in_cert a = None ->
  let d' := init T a d in
  d' (key "config.toml" :: home a) = Some (File (server_text T (default_doc (Join (in_dir a) (key "config.toml"))))) /\
  d' (key "sign.priv" :: home a) = Some (File sk) /\ d' (key "sign.pub" :: home a) = Some (File (sign_pub sk)) /\
  d' (key "vrf.priv" :: home a) = Some (File vk) /\ d' (key "vrf.pub" :: home a) = Some (File (vrf_pub vk)) /\
  (forall p, ~ In p (map (fun t => t :: home a) key_names) -> d' p = d p).
Proof.
  intros C T a d sk vk U CL KS KV KC d'. subst d'.
  assert (NE : forall (x y : bytes) h, x <> y -> place_eqb (x :: h) (y :: h) = false).
  { intros x y h N. destruct (place_eqb (x :: h) (y :: h)) eqn:E; [apply place_eqb_eq in E; congruence|reflexivity]. }
  assert (G : forall p, init T a d p = _) by (intro p; apply (fresh_init T a d sk vk U CL KS KV KC p)).
  split; [rewrite G, place_eqb_refl; reflexivity|].
  split; [rewrite G, NE, place_eqb_refl by discriminate; reflexivity|].
  split; [rewrite G, !NE, place_eqb_refl by discriminate; reflexivity|].
  split; [rewrite G, !NE, place_eqb_refl by discriminate; reflexivity|].
  split; [rewrite G, !NE, place_eqb_refl by discriminate; reflexivity|].
  intros p N. rewrite G.
  assert (K : forall t, In t key_names -> place_eqb p (t :: home a) = false).
  { intros t I. destruct (place_eqb p (t :: home a)) eqn:E; [|reflexivity]. apply place_eqb_eq in E. subst. destruct N. apply in_map_iff. exists t. auto. }
  rewrite !K by (cbn; auto 6). reflexivity.
Qed.
Print Assumptions C69_complete_init.

(** The configuration [init] makes can be loaded by a process anywhere that is
    pointed at it, and yields the generated keys. *)
Definition default_loaded (file cfile : bytes) (sk vk : bytes) (c : Loaded) : Prop :=
  ld_pol c = mkPolicyConf 60 vk sk /\ ld_hist c = 1000000%N /\ ld_str c = key "init.str" /\ ld_deadline c = 0%N /\
  ld_path c = cfile /\ ld_enc c = key "toml" /\
  ld_logger c = mkLogger true (key "development") (ResolvePath (key "coniksserver.log") file) /\
  ld_conns c = [(mkConn (key "unix:///tmp/coniks.sock") (ResolvePath [] file) (ResolvePath [] file), true);
                (mkConn (key "tcp://0.0.0.0:3000") (ResolvePath (key "server.pem") file) (ResolvePath (key "server.key") file), false)].

Lemma default_plain file : utf8 file -> server_plain (default_doc file).
Proof.
  intro U. unfold server_plain, default_doc. cbn [sd_path sd_enc sd_logger sd_hist sd_pol sd_str sd_addrs sd_deadline outf8 lg_env lg_path po_deadline po_vrf po_sign].
  split; [exact U|].
  repeat match goal with
  | |- _ /\ _ => split
  | |- utf8 (key _) => apply key_utf8; reflexivity
  | |- (_ < _)%N => reflexivity
  end.
  repeat constructor; cbn [aa_conn cn_addr cn_cert cn_key]; try (apply key_utf8; reflexivity); constructor.
Qed.

Lemma beside_name cwd file w : is_name w -> beside cwd file w = w :: locate_dir cwd file.
Proof.
  intros (A & B & D). unfold beside. rewrite (noslash_IsAbs w D). unfold locate. rewrite (noslash_IsAbs w D), (split_one w D).
  cbn [walk fold_left]. apply go_name; assumption.
Qed.

Lemma load_default T cwd d file enc cfile sk vk : TomlOk T -> utf8 cfile ->
  content d (locate cwd file) = Some (server_text T (default_doc cfile)) ->
  content d (key "sign.priv" :: locate_dir cwd file) = Some sk -> length sk = 64 ->
  content d (key "vrf.priv" :: locate_dir cwd file) = Some vk -> length vk = 64 ->
  exists c, Load T cwd d file enc = Ok (Some c) /\ default_loaded file cfile sk vk c.
Proof.
  intros TO U F KS LS KV LV.
  assert (P : server_parse T (server_text T (default_doc cfile)) = Some (default_doc cfile)) by (apply TO, default_plain, U).
  eexists (mkLoaded cfile (key "toml") (mkLogger true (key "development") (ResolvePath (key "coniksserver.log") file)) 1000000 (mkPolicyConf 60 vk sk) (key "init.str") _ 0).
  split; [|unfold default_loaded; cbn [ld_pol ld_hist ld_str ld_deadline ld_path ld_enc ld_logger ld_conns]; repeat (split; [reflexivity|]); reflexivity].
  apply C70_load_iff. exists (server_text T (default_doc cfile)), (default_doc cfile).
  do 2 eexists. exists sk, vk. split; [exact F|]. split; [exact P|]. split; [reflexivity|]. split; [reflexivity|].
  cbn [po_sign po_vrf po_deadline]. rewrite !beside_name by names.
  split; [exact KS|]. split; [exact LS|]. split; [exact KV|]. split; [exact LV|].
  cbn [ld_pol ld_hist ld_str ld_deadline ld_path ld_enc ld_logger ld_conns pc_sign pc_vrf pc_deadline lg_trace lg_env lg_path sd_addrs default_doc sd_hist sd_str sd_deadline sd_path sd_enc].
  split; [|repeat (split; [reflexivity|]); reflexivity].
  apply resolve_addrs_iff. reflexivity.
Qed.

Theorem C69_init_then_load : forall (C : Crypto) T, TomlOk T -> forall a d sk vk cwd file enc,
  undisturbed a -> clear d (home a) -> in_sign a = Some sk -> in_vrf a = Some vk -> in_cert a = None ->
  length sk = 64 -> length vk = 64 -> utf8 (Join (in_dir a) (key "config.toml")) ->
  locate cwd file = key "config.toml" :: home a -> locate_dir cwd file = home a ->
  exists c, Load T cwd (init T a d) file enc = Ok (Some c) /\
    default_loaded file (Join (in_dir a) (key "config.toml")) sk vk c.
Proof.
  intros C T TO a d sk vk cwd file enc U CL KS KV KC LS LV UP L LD.
  destruct (C69_complete_init C T a d sk vk U CL KS KV KC) as (D1 & D2 & _ & D4 & _).
  apply load_default; try assumption.
  - unfold content. rewrite L, D1. reflexivity.
  - unfold content. rewrite LD, D2. reflexivity.
  - unfold content. rewrite LD, D4. reflexivity.
Qed.
Print Assumptions C69_init_then_load.

(** An [init] stopped while it wrote the signing key cannot be repaired by
    running [init] again: the configuration can then never be loaded. *)
Theorem C69_broken_key_stays : forall (C : Crypto) T l d h b,
  d (key "sign.priv" :: h) = Some (File b) -> length b <> 64 ->
  forall cwd file enc text doc pol,
  content (inits T l d) (locate cwd file) = Some text -> server_parse T text = Some doc -> sd_pol doc = Some pol ->
  beside cwd file (po_sign pol) = key "sign.priv" :: h ->
  Load T cwd (inits T l d) file enc = Ok None.
Proof.
  intros C T l d h b E L cwd file enc text doc pol F P EP B.
  assert (K : inits T l d (key "sign.priv" :: h) = Some (File b)).
  { apply C69_nothing_lost; [|exact E]. intros a t _ [<-|[<-|[]]] _; discriminate. }
  unfold Load, ReadFile at 1. fold (content (inits T l d) (locate cwd file)). rewrite F, P, EP.
  rewrite read_beside, B. unfold content. rewrite K.
  destruct (Nat.eqb (length b) PrivateKeySize) eqn:X; [apply Nat.eqb_eq in X; unfold PrivateKeySize in X; congruence|reflexivity].
Qed.
Print Assumptions C69_broken_key_stays.

(** *** Starting *)
Definition log_name : bytes := key "coniksserver.log".
Definition str_name : bytes := key "init.str".
Definition str_text {C : Crypto} (d0 : Directory) : bytes := json_text (enc_dirstr (LatestSTR d0)).

Lemma not_std (cwd : place) file w s : is_name w -> is_name s -> w <> s -> beq (ResolvePath w file) s = false.
Proof.
  intros NW NS NE. apply beq_neq. intro E.
  assert (L : locate cwd (ResolvePath w file) = locate cwd s) by (rewrite E; reflexivity).
  rewrite locate_beside, beside_name in L by exact NW.
  destruct NS as (A & B & D). unfold locate in L at 1. rewrite (noslash_IsAbs s D), (split_one s D) in L.
  cbn [walk fold_left] in L. rewrite go_name in L by assumption. congruence.
Qed.

Lemma start_default (C : Crypto) cwd d file cfile sk vk c r1 r2 d0 :
  default_loaded file cfile sk vk c ->
  d (locate_dir cwd file) = Some Folder -> d (log_name :: locate_dir cwd file) <> Some Folder ->
  Directory_New 60 vk sk (N.to_nat 1000000) true r1 r2 = Ok d0 ->
  exists d' p, StartServer Fine cwd d c r1 r2 = Ok (d', Some p) /\
    sv_dir (pr_server p) = d0 /\ pr_cwd p = cwd /\ pr_file p = cfile /\ pr_enc p = key "toml" /\
    (let s := str_name :: locate_dir cwd cfile in
     d' s = match d s with
            | Some n => Some n
            | None => if is_folder d (locate_dir cwd cfile) then Some (File (str_text d0)) else None
            end /\
     (forall q, q <> s -> q <> log_name :: locate_dir cwd file -> d' q = d q)).
Proof.
  intros DL F LG ND. destruct DL as (D1 & D2 & D3 & D4 & D5 & D6 & D7 & D8).
  set (h := locate_dir cwd file) in *. set (s := str_name :: locate_dir cwd cfile).
  assert (EL : exists dl, NewLogger cwd d (ld_logger c) = Ok dl /\ (forall q, q <> log_name :: h -> dl q = d q) /\
                (forall q, is_folder dl q = is_folder d q)).
  { unfold NewLogger. rewrite D7. cbn [lg_env lg_path].
    change (EqualFold (key "development") (key "development") || EqualFold (key "production") (key "development")) with true. cbv iota.
    change (key "coniksserver.log") with log_name.
    rewrite (not_std cwd file log_name (key "stdout")) by first [names|discriminate].
    rewrite (not_std cwd file log_name (key "stderr")) by first [names|discriminate].
    assert (NE : empty (ResolvePath log_name file) = false) by (pose proof (Resolve_ne log_name file); destruct (ResolvePath log_name file); [congruence|reflexivity]).
    rewrite NE. cbn [orb]. rewrite locate_beside, beside_name by names. fold h. cbn [tl].
    destruct (d (log_name :: h)) as [[b|]|] eqn:EG; [exists d; auto|congruence|].
    unfold is_folder at 1. rewrite F. eexists. split; [reflexivity|]. split.
    - intros q N. apply put_other. exact N.
    - intro q. unfold is_folder, put. destruct (place_eqb q (log_name :: h)) eqn:E; [apply place_eqb_eq in E; subst q; rewrite EG; reflexivity|reflexivity]. }
  destruct EL as (dl & EL & LO & LF).
  unfold StartServer. rewrite EL. cbn [bind]. unfold NewConiksServer, to_config. cbn [cf_pol cf_hist cf_addrs cf_deadline]. rewrite D1. cbn [pc_deadline pc_vrf pc_sign]. rewrite D2, ND. cbn [bind sv_dir].
  rewrite D3, D5, D6.
  destruct (WriteFile Fine cwd dl (ResolvePath (key "init.str") cfile) (json_text (enc_dirstr (LatestSTR d0)))) as [d2 ret] eqn:W.
  assert (RS : ret <> None).
  { unfold WriteFile, write_to in W. destruct (dl _); [injection W as _ <-; discriminate|]. destruct (is_folder dl _); injection W as _ <-; discriminate. }
  destruct ret as [ok|]; [|congruence].
  do 2 eexists. split; [reflexivity|]. cbn [pr_server sv_dir pr_cwd pr_file pr_enc].
  split; [reflexivity|]. split; [reflexivity|]. split; [reflexivity|]. split; [reflexivity|].
  assert (LS : locate cwd (ResolvePath (key "init.str") cfile) = s) by (rewrite locate_beside, beside_name by names; reflexivity).
  assert (SN : s <> log_name :: h) by discriminate.
  fold s. split.
  - unfold WriteFile in W. rewrite LS in W. rewrite (LO s SN) in W. subst s. cbn [tl] in W. rewrite LF in W.
    destruct (d (str_name :: locate_dir cwd cfile)) as [n|] eqn:ES.
    + injection W as <- _. rewrite LO by exact SN. exact ES.
    + destruct (is_folder d (locate_dir cwd cfile)).
      * cbn [write_to] in W. injection W as <- _. rewrite put_same. reflexivity.
      * injection W as <- _. rewrite LO by exact SN. exact ES.
  - intros q N1 N2. rewrite (write_only _ _ _ _ _ _ _ _ W); [apply LO; exact N2|]. rewrite LS. exact N1.
Qed.

Lemma run_default (C : Crypto) net cwd d file cfile sk vk c : default_loaded file cfile sk vk c ->
  net (key "unix:///tmp/coniks.sock") = true -> net (key "tcp://0.0.0.0:3000") = true ->
  Run net cwd d (ld_conns c) =
    match content d (key "server.pem" :: locate_dir cwd file), content d (key "server.key" :: locate_dir cwd file) with
    | Some _, Some _ => Ok tt
    | _, _ => Panic
    end.
Proof.
  intros (_ & _ & _ & _ & _ & _ & _ & D8) N1 N2. rewrite D8. cbn [Run]. unfold Listen. cbn [cn_addr cn_cert cn_key].
  change (scheme (key "unix:///tmp/coniks.sock")) with (Some (key "unix")).
  change (scheme (key "tcp://0.0.0.0:3000")) with (Some (key "tcp")). cbv iota.
  change (beq (key "unix") (key "tcp")) with false. change (beq (key "unix") (key "unix")) with true. change (beq (key "tcp") (key "tcp")) with true. cbv iota.
  rewrite N1, N2. cbn [bind]. rewrite !read_beside, !beside_name by names.
  destruct (content d _); [|reflexivity]. destruct (content d _); reflexivity.
Qed.

(** A deployment made by [init] in folder [home a] (perhaps with other files
    added since). *)
Definition deployed {C : Crypto} (T : Toml) (a : InitArgs) (sk vk : bytes) (d : disk) : Prop :=
  d (home a) = Some Folder /\
  d (key "config.toml" :: home a) = Some (File (server_text T (default_doc (Join (in_dir a) (key "config.toml"))))) /\
  d (key "sign.priv" :: home a) = Some (File sk) /\ d (key "sign.pub" :: home a) = Some (File (sign_pub sk)) /\
  d (key "vrf.priv" :: home a) = Some (File vk).
Definition tls_files (d : disk) (h : place) : Prop :=
  content d (key "server.pem" :: h) <> None /\ content d (key "server.key" :: h) <> None.

Theorem C71_init_deploys : forall (C : Crypto) T a d sk vk,
  undisturbed a -> clear d (home a) -> in_sign a = Some sk -> in_vrf a = Some vk -> in_cert a = None ->
  deployed T a sk vk (init T a d).
Proof.
  intros C T a d sk vk U CL KS KV KC. destruct (C69_complete_init C T a d sk vk U CL KS KV KC) as (D1 & D2 & D3 & D4 & D5 & D6).
  split; [|auto 6]. rewrite D6; [apply CL|].
  intro I. apply in_map_iff in I as (t & E & _). apply (f_equal (@List.length bytes)) in E. cbn [List.length] in E. lia.
Qed.
Print Assumptions C71_init_deploys.

(** The server, pointed at that configuration file from anywhere: it starts
    with the generated keys exactly when the TLS files are there too (the
    sockets being free), and in either case it first writes its initial STR,
    unless there is one already. *)
Theorem C71_start : forall (C : Crypto) T, TomlOk T -> forall a sk vk d cwd file net r1 r2 d0,
  deployed T a sk vk d -> length sk = 64 -> length vk = 64 -> utf8 (Join (in_dir a) (key "config.toml")) ->
  locate cwd file = key "config.toml" :: home a -> locate_dir cwd file = home a ->
  d (log_name :: home a) <> Some Folder ->
  net (key "unix:///tmp/coniks.sock") = true -> net (key "tcp://0.0.0.0:3000") = true ->
  Directory_New 60 vk sk (N.to_nat 1000000) true r1 r2 = Ok d0 ->
  let str := str_name :: locate cwd (in_dir a) in
  exists d' p,
    (tls_files d (home a) -> run_server T Fine net cwd d file r1 r2 = (d', Serving p)) /\
    (~ tls_files d (home a) -> run_server T Fine net cwd d file r1 r2 = (d', Crashed)) /\
    sv_dir (pr_server p) = d0 /\ pr_cwd p = cwd /\ pr_file p = Join (in_dir a) (key "config.toml") /\
    (d str = None -> d (locate cwd (in_dir a)) = Some Folder -> d' str = Some (File (str_text d0))) /\
    (d str <> None \/ d (locate cwd (in_dir a)) <> Some Folder -> d' str = d str) /\
    (forall q, q <> str -> q <> log_name :: home a -> d' q = d q).
Proof.
  intros C T TO a sk vk d cwd file net r1 r2 d0 (D0 & D1 & D2 & D3 & D4) LS LV U L LD LG N1 N2 ND str.
  destruct (load_default T cwd d file (key "toml") (Join (in_dir a) (key "config.toml")) sk vk TO U) as (c & EL & DL);
    [unfold content; rewrite L, D1; reflexivity|unfold content; rewrite LD, D2; reflexivity|exact LS|unfold content; rewrite LD, D4; reflexivity|exact LV|].
  assert (F : d (locate_dir cwd file) = Some Folder) by (rewrite LD; exact D0).
  assert (LG' : d (log_name :: locate_dir cwd file) <> Some Folder) by (rewrite LD; exact LG).
  destruct (start_default C cwd d file _ sk vk c r1 r2 d0 DL F LG' ND) as (d' & p & ST & SV & PC & PF & _ & S1 & S2).
  destruct (locate_Join cwd (in_dir a) (key "config.toml") ltac:(names)) as (_ & LC). rewrite LC in *. fold str in S1, S2. rewrite LD in S2.
  exists d', p.
  assert (TL : forall t, In t tls_names -> content d' (t :: locate_dir cwd file) = content d (t :: home a)).
  { intros t I. rewrite LD. unfold content. rewrite S2; [reflexivity| |]; destruct I as [<-|[<-|[]]]; discriminate. }
  pose proof (run_default C net cwd d' file _ sk vk c DL N1 N2) as RD.
  rewrite (TL (key "server.pem")), (TL (key "server.key")) in RD by (cbn; auto).
  assert (RN : run_server T Fine net cwd d file r1 r2 = match Run net cwd d' (ld_conns c) with Panic => (d', Crashed) | Ok _ => (d', Serving p) end).
  { unfold run_server. rewrite EL, ST. reflexivity. }
  rewrite RN, RD. unfold tls_files.
  split; [intros [A B]; destruct (content d (key "server.pem" :: home a)); [|congruence]; destruct (content d (key "server.key" :: home a)); [reflexivity|congruence]|].
  split; [intro NT; destruct (content d (key "server.pem" :: home a)); [|reflexivity]; destruct (content d (key "server.key" :: home a)); [|reflexivity]; destruct NT; split; discriminate|].
  split; [exact SV|]. split; [exact PC|]. split; [exact PF|].
  split; [|split; [|exact S2]].
  - intros A B. rewrite S1, A. unfold is_folder. rewrite B. reflexivity.
  - intros [A|A]; rewrite S1; destruct (d str) as [n|] eqn:E; try reflexivity; [congruence|].
    unfold is_folder. destruct (d (locate cwd (in_dir a))) as [[|]|]; congruence.
Qed.
Print Assumptions C71_start.

(** *** The client *)

(** A client configuration (in any place, spelled in any way) that refers to
    these two files. *)
Definition refers_to (T : Toml) (d : disk) (cwd : place) (file : bytes) (pub str : place) : Prop :=
  exists text doc, content d (locate cwd file) = Some text /\ client_parse T text = Some doc /\
    beside cwd file (cd_pub doc) = pub /\ beside cwd file (cd_str doc) = str.

Lemma load_str_text (C : Crypto) : CryptoOk C -> forall dl vk sk n r1 r2 d0, (dl < 2 ^ 64)%N ->
  Directory_New dl vk sk n true r1 r2 = Ok d0 ->
  json_parse (str_text d0) = Some (enc_dirstr (LatestSTR d0)) /\
  LoadInitSTR (fun _ => Some (enc_dirstr (LatestSTR d0))) [] = Ok (Some (LatestSTR d0)).
Proof.
  intros OK dl vk sk n r1 r2 d0 L ND. split; [apply json_round_trip, enc_dirstr_utf8|].
  pose (conf := mkConfig [] n (mkPolicyConf dl vk sk) 0).
  assert (N : NewConiksServer conf [] (fun _ => None) r1 r2 = Ok (mkServer (permissions []) d0 (NewEpochTimer 0), fst (SaveSTR (fun _ => None) [] (LatestSTR d0)))).
  { unfold NewConiksServer, conf. cbn [cf_pol cf_hist cf_addrs cf_deadline pc_deadline pc_vrf pc_sign]. rewrite ND. reflexivity. }
  destruct (C56_init_str_saved C OK conf [] (fun _ => None) r1 r2 _ _ N L eq_refl) as (A & _). exact A.
Qed.

Lemma client_load (C : Crypto) T d cwd file enc pub str pk j s :
  refers_to T d cwd file pub str -> content d pub = Some pk -> length pk = 32 ->
  content d str = Some j -> (exists v, json_parse j = Some v /\ LoadInitSTR (fun _ => Some v) [] = Ok (Some s)) ->
  exists cl, ClientLoad T cwd d file enc = Ok (Some cl) /\ cl_key cl = pk /\ cl_str cl = s.
Proof.
  intros (text & doc & F & P & BP & BS) EP LP EJ (v & PJ & LJ).
  unfold ClientLoad, ReadFile at 1. fold (content d (locate cwd file)). rewrite F, P.
  unfold LoadSigningPubKey. rewrite read_beside, BP, EP. unfold PublicKeySize. rewrite LP. cbn [Nat.eqb].
  unfold LoadInitSTR_at. rewrite read_beside, BS, EJ, PJ, LJ. cbn [bind option_map].
  eexists. split; [reflexivity|]. split; reflexivity.
Qed.

(** A server made by [init] and [run] (in the directory where [init] was run,
    or with an absolute path), and a client whose configuration refers to its
    public key and initial STR: the client accepts every honest answer, and
    every honest history runs as expected (theorem C30). *)
Theorem C71_init_run_client : forall (C : Crypto), CryptoOk C -> (forall sk, length (sign_pub sk) = 32) ->
  forall T, TomlOk T -> forall a sk vk d cwd file net r1 r2 d0,
  deployed T a sk vk d -> length sk = 64 -> length vk = 64 -> utf8 (Join (in_dir a) (key "config.toml")) ->
  locate cwd file = key "config.toml" :: home a -> locate_dir cwd file = home a ->
  d (log_name :: home a) <> Some Folder -> d (str_name :: home a) = None -> tls_files d (home a) ->
  net (key "unix:///tmp/coniks.sock") = true -> net (key "tcp://0.0.0.0:3000") = true ->
  Directory_New 60 vk sk (N.to_nat 1000000) true r1 r2 = Ok d0 ->
  locate cwd (in_dir a) = home a ->
  exists d' p, run_server T Fine net cwd d file r1 r2 = (d', Serving p) /\ sv_dir (pr_server p) = d0 /\
  forall d2 cwdc filec enc,
    d2 (key "sign.pub" :: home a) = d' (key "sign.pub" :: home a) -> d2 (str_name :: home a) = d' (str_name :: home a) ->
    refers_to T d2 cwdc filec (key "sign.pub" :: home a) (str_name :: home a) ->
    exists cl cc0, ClientLoad T cwdc d2 filec enc = Ok (Some cl) /\ Client_New (cl_str cl) true (cl_key cl) = Ok cc0 /\
    forall ops, prompt 0 ops -> Forall wf_contact ops -> few (server_ops ops) ->
      vrf_good vk (flat_map contact_names ops ++ names_of (server_ops ops)) ->
      exists dn cc, joint_run (sv_dir (pr_server p)) cc0 ops = Ok (dn, cc, outcomes [] ops).
Proof.
  intros C OK PL T TO a sk vk d cwd file net r1 r2 d0 DE LS LV U L LD LG ES TL N1 N2 ND SAME.
  destruct (C71_start C T TO a sk vk d cwd file net r1 r2 d0 DE LS LV U L LD LG N1 N2 ND) as (d' & p & R & _ & SV & _ & _ & S1 & _ & S3).
  rewrite SAME in S1, S3.
  exists d', p. split; [apply R; exact TL|]. split; [exact SV|].
  intros d2 cwdc filec enc E1 E2 RF.
  destruct DE as (D0 & _ & _ & D3 & _).
  assert (LT : (60 < 2 ^ 64)%N) by reflexivity.
  destruct (load_str_text C OK 60 vk sk _ r1 r2 d0 LT ND) as (PJ & LJ).
  destruct (client_load C T d2 cwdc filec enc _ _ (sign_pub sk) (str_text d0) (LatestSTR d0) RF) as (cl & CL & K & S).
  - unfold content. rewrite E1, S3, D3 by discriminate. reflexivity.
  - apply PL.
  - unfold content. rewrite E2, S1 by assumption. reflexivity.
  - exists (enc_dirstr (LatestSTR d0)). split; assumption.
  - destruct (Client_New (cl_str cl) true (cl_key cl)) as [cc0|] eqn:CN; [|discriminate CN].
    exists cl, cc0. split; [exact CL|]. split; [exact CN|]. intros ops P W F SP. rewrite K, S in CN. rewrite SV.
    destruct (C30_honest_runs C OK 60 vk sk _ r1 r2 d0 cc0 ops ND CN P W F SP) as (dn & cc & J & _). exists dn, cc. exact J.
Qed.
Print Assumptions C71_init_run_client.

(** Without the TLS files the server crashes after it has written its initial
    STR; when it is started again with them, that file does not belong to the
    server that runs: [d0] is the directory that crashed, [d1] the one that
    serves. *)
Theorem C71_after_crash_refuted : forall (C : Crypto), CryptoOk C -> forall T, TomlOk T ->
  forall a sk vk d cwd file net r1 r2 d0 r1' r2' d1 cert certkey,
  deployed T a sk vk d -> length sk = 64 -> length vk = 64 -> utf8 (Join (in_dir a) (key "config.toml")) ->
  locate cwd file = key "config.toml" :: home a -> locate_dir cwd file = home a -> locate cwd (in_dir a) = home a ->
  d (log_name :: home a) <> Some Folder -> d (str_name :: home a) = None -> ~ tls_files d (home a) ->
  net (key "unix:///tmp/coniks.sock") = true -> net (key "tcp://0.0.0.0:3000") = true ->
  Directory_New 60 vk sk (N.to_nat 1000000) true r1 r2 = Ok d0 ->
  Directory_New 60 vk sk (N.to_nat 1000000) true r1' r2' = Ok d1 ->
  exists d' d'' p,
    run_server T Fine net cwd d file r1 r2 = (d', Crashed) /\
    run_server T Fine net cwd (put (put d' (key "server.pem" :: home a) (File cert)) (key "server.key" :: home a) (File certkey)) file r1' r2' = (d'', Serving p) /\
    sv_dir (pr_server p) = d1 /\
    forall cwdf filef path, beside cwdf filef path = str_name :: home a ->
      LoadInitSTR_at cwdf d'' path filef = Ok (Some (LatestSTR d0)).
Proof.
  intros C OK T TO a sk vk d cwd file net r1 r2 d0 r1' r2' d1 cert ck DE LS LV U L LD SAME LG ES TL N1 N2 ND ND'.
  destruct (C71_start C T TO a sk vk d cwd file net r1 r2 d0 DE LS LV U L LD LG N1 N2 ND) as (d' & p & _ & R & SV & _ & _ & S1 & _ & S3).
  rewrite SAME in S1, S3.
  set (dt := put (put d' (key "server.pem" :: home a) (File cert)) (key "server.key" :: home a) (File ck)).
  destruct DE as (D0 & D1 & D2 & D3 & D4).
  assert (HL : forall (w : bytes) (h : place), h <> w :: h).
  { intros w h' E. apply (f_equal (@List.length bytes)) in E. cbn [List.length] in E. lia. }
  assert (K : forall q, q <> str_name :: home a -> q <> log_name :: home a -> q <> key "server.pem" :: home a -> q <> key "server.key" :: home a -> dt q = d q).
  { intros q A B E F. unfold dt. rewrite !put_other by assumption. apply S3; assumption. }
  assert (DE' : deployed T a sk vk dt).
  { split; [rewrite K by apply HL; exact D0|]. split; [rewrite K by discriminate; exact D1|]. split; [rewrite K by discriminate; exact D2|].
    split; [rewrite K by discriminate; exact D3|]. rewrite K by discriminate; exact D4. }
  assert (LG' : dt (log_name :: home a) <> Some Folder).
  { unfold dt. rewrite !put_other by discriminate. intro X.
    (* the log is a file the first run made, or what was there *)
    revert X. clear - LG S3 R D0 TL LD TO U L D1 D2 D4 LS LV ND.
    specialize (R TL). unfold run_server in R.
    destruct (load_default T cwd d file (key "toml") (Join (in_dir a) (key "config.toml")) sk vk TO U) as (c & EL & DL);
      [unfold content; rewrite L, D1; reflexivity|unfold content; rewrite LD, D2; reflexivity|exact LS|unfold content; rewrite LD, D4; reflexivity|exact LV|].
    rewrite EL in R. unfold StartServer in R.
    destruct (NewLogger cwd d (ld_logger c)) as [dl|] eqn:NL; cbn [bind] in R; [|injection R as <-; exact LG].
    assert (G : dl (log_name :: home a) <> Some Folder).
    { unfold NewLogger in NL. destruct (EqualFold (key "development") (lg_env (ld_logger c)) || EqualFold (key "production") (lg_env (ld_logger c))); [|discriminate NL].
      destruct (empty (lg_path (ld_logger c)) || beq (lg_path (ld_logger c)) (key "stdout") || beq (lg_path (ld_logger c)) (key "stderr")); [injection NL as <-; exact LG|].
      destruct (d (locate cwd (lg_path (ld_logger c)))) as [[b|]|]; [injection NL as <-; exact LG|discriminate NL|].
      destruct (is_folder d (tl (locate cwd (lg_path (ld_logger c))))); [|discriminate NL]. injection NL as <-.
      unfold put. destruct (place_eqb _ _); [discriminate|exact LG]. }
    destruct (NewConiksServer (to_config c) [] (fun _ => None) r1 r2) as [[sv fs]|]; cbn [bind] in R; [|injection R as <-; exact LG].
    destruct (WriteFile Fine cwd dl (ResolvePath (ld_str c) (ld_path c)) (json_text (enc_dirstr (LatestSTR (sv_dir sv))))) as [dw ret] eqn:W.
    assert (G' : dw (log_name :: home a) <> Some Folder).
    { destruct (list_eq_dec (list_eq_dec Byte.byte_eq_dec) (log_name :: home a) (locate cwd (ResolvePath (ld_str c) (ld_path c)))) as [E|NE].
      - destruct (write_there _ _ _ _ _ _ _ W) as [X|(n & X)]; rewrite <- E in X; rewrite X; [exact G|discriminate].
      - rewrite (write_only _ _ _ _ _ _ _ _ W NE). exact G. }
    destruct ret as [ok|]; cbn [bind] in R; [|discriminate R].
    destruct (Run net cwd dw (ld_conns c)); [discriminate R|]. injection R as <-. exact G'. }
  assert (TL' : tls_files dt (home a)).
  { split; unfold content, dt; [rewrite put_other by discriminate|]; rewrite put_same; discriminate. }
  destruct (C71_start C T TO a sk vk dt cwd file net r1' r2' d1 DE' LS LV U L LD LG' N1 N2 ND') as (d'' & p' & R' & _ & SV' & _ & _ & _ & S2' & _).
  rewrite SAME in S2'.
  assert (EST : dt (str_name :: home a) = Some (File (str_text d0))).
  { unfold dt. rewrite !put_other by discriminate. apply S1; [exact ES|exact D0]. }
  exists d', d'', p'. split; [apply R; exact TL|]. split; [apply R'; exact TL'|]. split; [exact SV'|].
  intros cwdf filef path B. unfold LoadInitSTR_at. rewrite read_beside, B. unfold content.
  rewrite S2' by (left; rewrite EST; discriminate). rewrite EST.
  assert (LT : (60 < 2 ^ 64)%N) by reflexivity.
  destruct (load_str_text C OK 60 vk sk _ r1 r2 d0 LT ND) as (PJ & LJ). rewrite PJ. exact LJ.
Qed.
Print Assumptions C71_after_crash_refuted.

(** Made by [init -d dir] with a relative [dir] and then started from another
    directory: the server looks for its configuration file, on reload, and puts
    its initial STR, relative to the wrong directory.  If that directory does
    not exist, the STR is not saved and no reload has any effect. *)
Theorem C71_started_elsewhere_refuted : forall (C : Crypto) T, TomlOk T -> forall a sk vk d cwd file net r1 r2 d0,
  deployed T a sk vk d -> length sk = 64 -> length vk = 64 -> utf8 (Join (in_dir a) (key "config.toml")) ->
  locate cwd file = key "config.toml" :: home a -> locate_dir cwd file = home a ->
  d (log_name :: home a) <> Some Folder -> tls_files d (home a) ->
  net (key "unix:///tmp/coniks.sock") = true -> net (key "tcp://0.0.0.0:3000") = true ->
  Directory_New 60 vk sk (N.to_nat 1000000) true r1 r2 = Ok d0 ->
  locate cwd (in_dir a) <> home a -> d (locate cwd (in_dir a)) = None -> d (str_name :: home a) = None ->
  exists d' p, run_server T Fine net cwd d file r1 r2 = (d', Serving p) /\
    d' (str_name :: home a) = None /\
    forall d2, content d2 (key "config.toml" :: locate cwd (in_dir a)) = None -> Reload T d2 p = Ok p.
Proof.
  intros C T TO a sk vk d cwd file net r1 r2 d0 DE LS LV U L LD LG TL N1 N2 ND NS NF ES.
  destruct (C71_start C T TO a sk vk d cwd file net r1 r2 d0 DE LS LV U L LD LG N1 N2 ND) as (d' & p & R & _ & SV & PC & PF & _ & _ & S3).
  exists d', p. split; [apply R; exact TL|]. split; [rewrite S3; [exact ES|congruence|discriminate]|].
  intros d2 E. unfold Reload. rewrite PC, PF.
  assert (X : Load T cwd d2 (Join (in_dir a) (key "config.toml")) (pr_enc p) = Ok None).
  { unfold Load, ReadFile at 1. rewrite (proj1 (locate_Join cwd (in_dir a) (key "config.toml") ltac:(names))).
    fold (content d2 (key "config.toml" :: locate cwd (in_dir a))). rewrite E. reflexivity. }
  rewrite X. cbn [bind option_map]. destruct p as [pc pf pe [x y z]]. cbn [pr_cwd pr_file] in *. subst. reflexivity.
Qed.
Print Assumptions C71_started_elsewhere_refuted.
(** ... although the same server started where [init] was run reloads the file
    it was started with. *)
Theorem C71_reload_reads_its_file : forall (C : Crypto) T cwd a p d, pr_cwd p = cwd -> pr_file p = Join (in_dir a) (key "config.toml") ->
  locate cwd (in_dir a) = home a ->
  forall c, Load T cwd d (pr_file p) (pr_enc p) = Ok (Some c) ->
  exists text doc pol, content d (key "config.toml" :: home a) = Some text /\ server_parse T text = Some doc /\ sd_pol doc = Some pol /\
    exists p', Reload T d p = Ok p' /\ pol_deadline (dr_pol (sv_dir (pr_server p'))) = po_deadline pol.
Proof.
  intros C T cwd a p d PC PF SAME c LC. pose proof LC as LC'. rewrite PF in LC'.
  apply C70_load_iff in LC' as (t & doc & pol & lg & sk & vk & A1 & A2 & A3 & _ & _ & _ & _ & _ & _ & _ & _ & A12 & _).
  rewrite (proj1 (locate_Join cwd (in_dir a) (key "config.toml") ltac:(names))), SAME in A1.
  exists t, doc, pol. split; [exact A1|]. split; [exact A2|]. split; [exact A3|].
  destruct (Reload T d p) as [p'|] eqn:R.
  - exists p'. split; [reflexivity|]. pose proof (C70_reload_effect C T d p p' R) as (_ & _ & _ & _ & _ & _ & _ & _ & _ & E). rewrite PC, LC in E. congruence.
  - apply C70_reload_crash_iff in R. rewrite PC, LC in R. discriminate R.
Qed.
Print Assumptions C71_reload_reads_its_file.

(** ** C72: the client's default configuration *)

(** What [coniksclient init] refers to, from folder [h]. *)
Theorem C72_default_references : forall cwd file h, locate_dir cwd file = h ->
  beside cwd file (cd_pub (client_default file)) = key "sign.pub" :: key "coniksserver" :: tl h /\
  beside cwd file (cd_str (client_default file)) = key "init.str" :: key "coniksserver" :: key "keyserver" :: tl (tl h).
Proof. intros cwd file h <-. split; reflexivity. Qed.
Print Assumptions C72_default_references.

(** Both files come from the same folder exactly when the client's folder is
    in one called "keyserver". *)
Theorem C72_same_server_iff : forall cwd file h, locate_dir cwd file = h ->
  tl (beside cwd file (cd_pub (client_default file))) = tl (beside cwd file (cd_str (client_default file))) <->
  exists me rest, h = me :: key "keyserver" :: rest.
Proof.
  intros cwd file h E. destruct (C72_default_references cwd file h E) as (-> & ->). cbn [tl].
  destruct h as [|me [|k rest]]; cbn [tl].
  - split; [discriminate|]. intros (? & ? & X); discriminate X.
  - split; [discriminate|]. intros (? & ? & X); discriminate X.
  - split.
    + intros [= ->]. exists me, rest. reflexivity.
    + intros (? & ? & [= -> -> ->]). reflexivity.
Qed.
Print Assumptions C72_same_server_iff.

(** So with server and client in sibling folders named as in the repository
    (cli/coniksserver, cli/coniksclient), the client made by [init] finds the
    server's key but not its STR, and does not start. *)
Theorem C72_siblings_refuted : forall (C : Crypto) T, TomlOk T -> forall d rest cwd dir,
  locate cwd dir = key "coniksclient" :: key "cli" :: rest -> utf8 (Join dir (key "config.toml")) ->
  d (key "config.toml" :: locate cwd dir) = None -> d (locate cwd dir) = Some Folder ->
  content d (key "init.str" :: key "coniksserver" :: key "keyserver" :: rest) = None ->
  forall enc, ClientLoad T cwd (fst (client_init T Fine cwd dir d)) (Join dir (key "config.toml")) enc = Ok None.
Proof.
  intros C T TO d rest cwd dir H U N F NS enc. unfold client_init.
  destruct (locate_Join cwd dir (key "config.toml") ltac:(names)) as (LP & LD).
  rewrite write_fine; [|rewrite LP; exact N|rewrite LP; exact F]. cbn [fst]. rewrite LP.
  unfold ClientLoad, ReadFile at 1. rewrite LP, put_same.
  rewrite (ok_client T TO) by (unfold client_plain, client_default; cbn [cd_path cd_enc cd_pub cd_str cd_reg cd_addr outf8];
    split; [exact U|]; repeat split; apply key_utf8; reflexivity).
  destruct (LoadSigningPubKey _ _ _ _); [|reflexivity].
  unfold LoadInitSTR_at. rewrite read_beside.
  pose proof (proj2 (C72_default_references cwd (Join dir (key "config.toml")) _ LD)) as B.
  change (cd_str (client_default (Join dir (key "config.toml")))) with (key "../../keyserver/coniksserver/init.str") in *.
  rewrite B, H. cbn [tl]. unfold content in *.
  rewrite put_other; [|discriminate]. rewrite NS. reflexivity.
Qed.
Print Assumptions C72_siblings_refuted.
(** ... while under a folder called "keyserver" it does. *)
Theorem C72_under_keyserver : forall (C : Crypto), CryptoOk C -> (forall sk, length (sign_pub sk) = 32) ->
  forall T, TomlOk T -> forall d cwd dir rest me dl vk sk n r1 r2 d0,
  locate cwd dir = me :: key "keyserver" :: rest -> utf8 (Join dir (key "config.toml")) ->
  d (key "config.toml" :: locate cwd dir) = None -> d (locate cwd dir) = Some Folder ->
  d (key "sign.pub" :: key "coniksserver" :: key "keyserver" :: rest) = Some (File (sign_pub sk)) ->
  d (key "init.str" :: key "coniksserver" :: key "keyserver" :: rest) = Some (File (str_text d0)) ->
  (dl < 2 ^ 64)%N -> Directory_New dl vk sk n true r1 r2 = Ok d0 ->
  forall enc, exists cl, ClientLoad T cwd (fst (client_init T Fine cwd dir d)) (Join dir (key "config.toml")) enc = Ok (Some cl) /\
    cl_key cl = sign_pub sk /\ cl_str cl = LatestSTR d0.
Proof.
  intros C OK PL T TO d cwd dir rest me dl vk sk n r1 r2 d0 H U N F EP ES LT ND enc. unfold client_init.
  destruct (locate_Join cwd dir (key "config.toml") ltac:(names)) as (LP & LD).
  rewrite write_fine; [|rewrite LP; exact N|rewrite LP; exact F]. cbn [fst]. rewrite LP.
  destruct (load_str_text C OK dl vk sk n r1 r2 d0 LT ND) as (PJ & LJ).
  destruct (C72_default_references cwd (Join dir (key "config.toml")) _ LD) as (B1 & B2). rewrite H in B1, B2. cbn [tl] in B1, B2.
  apply (client_load C T _ cwd _ enc (key "sign.pub" :: key "coniksserver" :: key "keyserver" :: rest)
           (key "init.str" :: key "coniksserver" :: key "keyserver" :: rest) (sign_pub sk) (str_text d0)).
  - eexists. exists (client_default (Join dir (key "config.toml"))). split; [unfold content; rewrite LP, put_same; reflexivity|].
    split; [|split; [exact B1|exact B2]]. apply (ok_client T TO). unfold client_plain, client_default. cbn [cd_path cd_enc cd_pub cd_str cd_reg cd_addr outf8].
    split; [exact U|]; repeat split; apply key_utf8; reflexivity.
  - unfold content. rewrite put_other by discriminate. rewrite EP. reflexivity.
  - apply PL.
  - unfold content. rewrite put_other by discriminate. rewrite ES. reflexivity.
  - exists (enc_dirstr (LatestSTR d0)). split; assumption.
Qed.
Print Assumptions C72_under_keyserver.

(** ** C73: coniks.pid *)

(** The pid file holds the process number when there was none, or none with
    more digits. *)
Theorem C73_pid_written : forall cwd d pid,
  (d (key "coniks.pid" :: cwd) = None /\ d cwd = Some Folder \/
   exists old, d (key "coniks.pid" :: cwd) = Some (File old) /\ length old <= length (decimal pid)) ->
  writePID cwd d pid (key "coniks.pid" :: cwd) = Some (File (decimal pid)).
Proof.
  intros cwd d pid H. unfold writePID.
  assert (L : locate cwd (Join [dot] (key "coniks.pid")) = key "coniks.pid" :: cwd)
    by (rewrite (proj1 (locate_Join cwd [dot] (key "coniks.pid") ltac:(names))); reflexivity).
  rewrite L. destruct H as [(N & F)|(old & E & LE)].
  - rewrite N. cbn [tl]. unfold is_folder. rewrite F. apply put_same.
  - rewrite E, put_same, skipn_all2 by exact LE. rewrite app_nil_r. reflexivity.
Qed.
Print Assumptions C73_pid_written.
(** Nothing else is touched. *)
Theorem C73_only_pid : forall cwd d pid p, p <> key "coniks.pid" :: cwd -> writePID cwd d pid p = d p.
Proof.
  intros cwd d pid p N. unfold writePID.
  rewrite (proj1 (locate_Join cwd [dot] (key "coniks.pid") ltac:(names))). change (locate cwd [dot]) with cwd.
  destruct (d (key "coniks.pid" :: cwd)) as [[old|]|]; [apply put_other; exact N|reflexivity|].
  destruct (is_folder d _); [apply put_other; exact N|reflexivity].
Qed.
Print Assumptions C73_only_pid.
(** Over a longer number of a previous run it leaves the number of some other
    process. *)
Theorem C73_stale_digits_refuted : exists d old new,
  d [key "coniks.pid"] = Some (File (decimal old)) /\
  writePID [] d new [key "coniks.pid"] = Some (File (decimal 99345)) /\ new = 99%N /\ old = 12345%N.
Proof.
  exists (fun p => match p with [] => Some Folder | _ => Some (File (decimal 12345)) end), 12345%N, 99%N.
  split; [reflexivity|]. split; [vm_compute; reflexivity|]. split; reflexivity.
Qed.
Print Assumptions C73_stale_digits_refuted.
Theorem C73_stale_iff : forall cwd d pid old, d (key "coniks.pid" :: cwd) = Some (File old) ->
  (writePID cwd d pid (key "coniks.pid" :: cwd) = Some (File (decimal pid)) <-> length old <= length (decimal pid)).
Proof.
  intros cwd d pid old E. split.
  - unfold writePID. rewrite (proj1 (locate_Join cwd [dot] (key "coniks.pid") ltac:(names))). change (locate cwd [dot]) with cwd.
    rewrite E, put_same. intros [= X]. apply (f_equal (@List.length byte)) in X. rewrite app_length, skipn_length in X. lia.
  - intro LE. apply C73_pid_written. right. exists old. auto.
Qed.
Print Assumptions C73_stale_iff.

(** ** Concrete cases *)
Definition k64 (b : byte) : bytes := repeat b 64.
Definition ex_disk : disk := fun p => match p with [] => Some Folder | [w] => if beq w (key "srv") then Some Folder else None | _ => None end.
Definition ex_init : InitArgs := mkInit [] (key "srv") (Some (k64 x11)) (Some (k64 x12)) None [] [] [] [].
(** stopped with ten bytes of the signing key written *)
Definition ex_stopped : InitArgs := mkInit [] (key "srv") (Some (k64 x11)) (Some (k64 x12)) None [] [StopAfter 10] [] [].
Example C69_example :
  undisturbed ex_init /\ clear ex_disk (home ex_init) /\ home ex_init = [key "srv"] /\
  @deployed ToyCrypto ToyToml ex_init (k64 x11) (k64 x12) (@init ToyCrypto ToyToml ex_init ex_disk) /\
  (* relative and absolute spellings of the file from elsewhere *)
  locate [key "srv"] (key "config.toml") = key "config.toml" :: home ex_init /\
  locate_dir [key "srv"] (key "config.toml") = home ex_init /\
  locate [key "x"] (key "../srv/./config.toml") = key "config.toml" :: home ex_init /\
  utf8 (Join (in_dir ex_init) (key "config.toml")) /\
  (* the interrupted one and its repetition *)
  @inits ToyCrypto ToyToml [ex_stopped; ex_init] ex_disk [key "sign.priv"; key "srv"] = Some (File (repeat x11 10)) /\
  @inits ToyCrypto ToyToml [ex_stopped; ex_init] ex_disk [key "sign.pub"; key "srv"] = None /\
  @inits ToyCrypto ToyToml [ex_stopped; ex_init] ex_disk [key "vrf.priv"; key "srv"] = Some (File (k64 x12)).
Proof.
  split; [repeat split|]. split.
  { split; [reflexivity|]. intros t I. repeat (destruct I as [<-|I]; [reflexivity|]). destruct I. }
  split; [reflexivity|]. split.
  { apply C71_init_deploys; try reflexivity; [repeat split|]. split; [reflexivity|]. intros t I. repeat (destruct I as [<-|I]; [reflexivity|]). destruct I. }
  split; [reflexivity|]. split; [reflexivity|]. split; [reflexivity|].
  split; [apply key_utf8 with (s := "srv/config.toml"%string); reflexivity|].
  split; [vm_compute; reflexivity|]. split; [vm_compute; reflexivity|]. vm_compute; reflexivity.
Qed.

(** The directory of the running server exists, and its restart differs. *)
Example C71_example : exists d0 d1,
  @Directory_New ToyCrypto 60 (k64 x12) (k64 x11) (N.to_nat 1000000) true (Some [x07]) (Some [x08]) = Ok d0 /\
  @Directory_New ToyCrypto 60 (k64 x12) (k64 x11) (N.to_nat 1000000) true (Some [x09]) (Some [x0a]) = Ok d1 /\
  sig_of (LatestSTR d0) <> sig_of (LatestSTR d1) /\
  d0 <> d1.
Proof.
  pose (f := fun n r1 r2 => @Directory_New ToyCrypto 60 (k64 x12) (k64 x11) n true (Some r1) (Some r2)).
  assert (G : forall n, match f n [x07] [x08], f n [x09] [x0a] with
                        | Ok d0, Ok d1 => beq (sig_of (LatestSTR d0)) (sig_of (LatestSTR d1)) = false
                        | _, _ => False end).
  { intro n. vm_compute. reflexivity. }
  specialize (G (N.to_nat 1000000)). unfold f in G.
  destruct (Directory_New _ _ _ _ _ (Some [x07]) _) as [d0|]; [|destruct G].
  destruct (Directory_New _ _ _ _ _ (Some [x09]) _) as [d1|]; [|destruct G].
  exists d0, d1. apply beq_neq in G. repeat (split; [first [reflexivity|assumption]|]). congruence.
Qed.
