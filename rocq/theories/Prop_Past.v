(** C99: the past that the concurrent server shows is one and the same for all clients
    (Conc.v, Prop_Server.v, Prop_Directory.v, Prop_Together.v). *)
From Coq Require Import List NArith ZArith Lia Bool Arith.
From Verif Require Import Base Utils Crypto Tree TreeSpec STR PAD PADSpec PADMain Protocol Directory DirSpec DirFacts DirMain Prop_Directory
  Path Json Wire Conc Server ServerFacts ServerWire Prop_Server Prop_Together.
Import ListNotations.
Local Open Scope list_scope.
Local Open Scope nat_scope.
Notation length := List.length.

(** ** Requests and answers
    Specification only, as in Prop_Together.v. None of these definitions models a line of
    its own in /repo. *)
(** A message, at an address that takes it, that asks for the key of [name] in epoch [e]
    (protocol/directory/directory.go 236-264), or in the epochs [a] to [b] (281-311). *)
Definition asks_past (p : permtable) (op : srv_op) (name : bytes) (e : N) : Prop :=
  exists addr msg r, op = OMsg addr msg r /\ p addr KeyLookupInEpochType = true /\
    obind msg UnmarshalRequest = Some (mkReq KeyLookupInEpochType (WKeyLookupInEpoch name e)).
Definition monitors (p : permtable) (op : srv_op) (name : bytes) (a b : N) : Prop :=
  exists addr msg r, op = OMsg addr msg r /\ p addr MonitoringType = true /\
    obind msg UnmarshalRequest = Some (mkReq MonitoringType (WMonitoring name a b)).
(** Any of the four requests of a client about a name. *)
Definition about (p : permtable) (op : srv_op) (name : bytes) : Prop :=
  (exists k r, registers p op name k r) \/ looks_up p op name \/ (exists e, asks_past p op name e) \/ (exists a b, monitors p op name a b).
(** All names in such messages. *)
Definition names_asked {R} (tr : list (event R srv_op)) : list bytes :=
  flat_map (fun e => match e with
    | EInv _ (OMsg _ msg _) => match obind msg UnmarshalRequest with
        | Some q => match q_body q with
                    | WRegistration n _ _ _ => [n] | WKeyLookup n => [n] | WKeyLookupInEpoch n _ => [n] | WMonitoring n _ _ => [n]
                    | _ => [] end
        | None => [] end
    | _ => [] end) tr.
(** The answer shows [v] ([None]: no key) in the tree under the root [str]: one of its
    authentication paths ends in that value, and the root at the same place is [str]. *)
Definition view (resp : Response) (v : option bytes) (str : DirSTR) : Prop :=
  exists aps strs tb i ap leaf, r_df resp = Some (DProof (Some (mkDP aps strs tb))) /\
    nth_error aps i = Some (Some ap) /\ nth_error strs i = Some (Some str) /\ ap_leaf ap = Some leaf /\ pn_value leaf = v.

(** ** One answer in one history *)
Lemma dupto_past : forall a k b, dupdates a < k -> exists c, dupto k (a ++ b) = a ++ c.
Proof.
  induction a as [|op a IH]; intros k b L; [exists (dupto k b); reflexivity|].
  destruct k as [|k]; [lia|]. destruct op as [r n x| |t]; cbn [app dupto dupdates] in *.
  - destruct (IH (S k) b L) as (c & ->). exists c. reflexivity.
  - destruct (IH k b ltac:(lia)) as (c & ->). exists c. reflexivity.
  - destruct (IH (S k) b L) as (c & ->). exists c. reflexivity.
Qed.
Lemma no_view e v str : ~ view (NewErrorResponse e) v str.
Proof. intros (aps & strs & tb & i & ap & leaf & E & _). discriminate E. Qed.

Section One.
  Context {C : Crypto} (OK : CryptoOk C).
  Variables (dl0 : N) (vk sk : bytes) (size : nat) (r1 r2 : option bytes) (p : permtable).
  Notation built := (dir_built dl0 vk sk size r1 r2).

  (** A view of a single path and root. *)
  Lemma one_view e ap strs str0 tb v v' str h vpk n :
    view (mkResp e (Some (DProof (Some (mkDP [Some ap] (Some str0 :: strs) tb))))) v str -> shows vpk n ap v' h -> str = str0 /\ v = v'.
  Proof.
    intros (aps & ss & tb' & i & ap' & leaf & E & A & S & AL & PV) (_ & _ & leaf' & AL' & PV' & _). injection E as <- <- <-.
    destruct i as [|i]; cbn [nth_error] in A, S; [|destruct i; discriminate A].
    injection A as <-. injection S as <-. rewrite AL in AL'. injection AL' as <-. split; [reflexivity|]. rewrite <- PV. exact PV'.
  Qed.

  (** Whatever an answer shows about a name under a root is what was registered for
      it before the root was published. *)
  Lemma past_view ops d op n d' resp v str : built ops d -> few ops -> vrf_good vk (n :: names_of ops) -> n <> [] ->
    about p op n -> srv_sem p op d = Ok (d', Some resp) -> view resp v str ->
    exists k, k <= dupdates ops /\ published dl0 vk sk size r1 r2 ops k str /\ epoch_of str = Some (N.of_nat k) /\ v = reg (dupto k ops) n.
  Proof.
    intros B F VG NN AB SE VW. destruct (root_published OK dl0 vk sk size r1 r2 ops d B F) as (RP & RE).
    assert (LATEST : forall e ap tb w, view (mkResp e (Some (DProof (Some (mkDP [Some ap] [Some (LatestSTR d)] tb))))) v str ->
      shows (vrf_pub vk) n ap w (tree_hash_of (LatestSTR d)) -> w = visible ops n ->
      exists k, k <= dupdates ops /\ published dl0 vk sk size r1 r2 ops k str /\ epoch_of str = Some (N.of_nat k) /\ v = reg (dupto k ops) n).
    { intros e ap tb w V SH W. destruct (one_view _ _ _ _ _ _ _ _ _ _ _ V SH) as (-> & ->). exists (dupdates ops).
      split; [exact (le_n _)|]. split; [exact RP|]. split; [exact RE|]. exact W. }
    assert (LE : latestEpoch d = N.of_nat (dupdates ops)).
    { pose proof RE as RE'. unfold epoch_of in RE'. cbn in RE'. injection RE' as RE'. exact RE'. }
    destruct AB as [(k & r & addr & msg & u & w & -> & P & Q)|[(addr & msg & r & -> & P & Q)|[(e & addr & msg & r & -> & P & Q)|(a & b & addr & msg & r & -> & P & Q)]]];
      cbn [srv_sem] in SE; unfold accept in SE; rewrite Q in SE; unfold checkRequestType in SE; cbn [q_type] in SE; rewrite P in SE;
      unfold HandleRequests in SE; cbn [q_type q_body] in SE.
    - change (Z.eqb RegistrationType RegistrationType) with true in SE. cbv iota in SE.
      destruct (C24_register C OK dl0 vk sk size r1 r2 ops d r n k B F VG) as (d1 & rs & E & X). rewrite E in SE. cbn [bind] in SE. injection SE as <- <-.
      destruct (is_nil n || is_nil k). { destruct X as (_ & ->). exfalso. exact (no_view _ _ _ VW). }
      destruct X as (X0 & X1 & X2 & X3). destruct (visible ops n) as [k1|] eqn:V.
      + destruct (X3 k1 eq_refl) as (_ & ap & -> & _ & SH). exact (LATEST _ _ _ _ VW SH eq_refl).
      + destruct (reg ops n) as [k0|] eqn:RG.
        * destruct (X2 k0 eq_refl eq_refl) as (_ & ap & tb & -> & _ & SH & _). exact (LATEST _ _ _ _ VW SH eq_refl).
        * destruct r as [r|].
          -- destruct (X1 eq_refl ltac:(discriminate)) as (ap & tb & -> & _ & SH & _). exact (LATEST _ _ _ _ VW SH eq_refl).
          -- destruct (X0 eq_refl eq_refl) as (_ & ->). exfalso. exact (no_view _ _ _ VW).
    - change (Z.eqb KeyLookupType RegistrationType) with false in SE. change (Z.eqb KeyLookupType KeyLookupType) with true in SE. cbv iota in SE.
      destruct (C24_key_lookup C OK dl0 vk sk size r1 r2 ops d n B F VG NN) as (ap & _ & SH & X).
      destruct (visible ops n) as [k1|] eqn:V; [|destruct (reg ops n) as [k0|] eqn:RG].
      + rewrite X in SE. cbn [bind] in SE. injection SE as _ <-. exact (LATEST _ _ _ _ VW SH eq_refl).
      + destruct X as (tb & X & _). rewrite X in SE. cbn [bind] in SE. injection SE as _ <-. exact (LATEST _ _ _ _ VW SH eq_refl).
      + rewrite X in SE. cbn [bind] in SE. injection SE as _ <-. exact (LATEST _ _ _ _ VW SH eq_refl).
    - change (Z.eqb KeyLookupInEpochType RegistrationType) with false in SE. change (Z.eqb KeyLookupInEpochType KeyLookupType) with false in SE.
      change (Z.eqb KeyLookupInEpochType KeyLookupInEpochType) with true in SE. cbv iota in SE.
      destruct (C26_lookup_in_epoch C OK dl0 vk sk size r1 r2 ops d n B F VG NN) as (lo & W & OLD & HELD).
      rewrite <- (N2Nat.id e) in SE. set (m := N.to_nat e) in *.
      destruct (le_lt_dec m (dupdates ops)) as [L|L].
      + destruct (le_lt_dec lo m) as [L2|L2].
        * destruct (HELD m L2 L) as (ap & s0 & strs & E & LN & (CH & _) & SH). rewrite E in SE. cbn [bind] in SE. injection SE as _ <-.
          unfold NewKeyLookupInEpochProof in VW. cbn [map] in VW.
          destruct (one_view _ _ _ _ _ _ _ _ _ _ _ VW SH) as (-> & ->). destruct (CH 0 s0 eq_refl) as (PU & EP & _). rewrite Nat.add_0_r in PU, EP.
          exists m. split; [exact L|]. split; [exact PU|]. split; [exact EP|reflexivity].
        * rewrite (OLD m L2) in SE. cbn [bind] in SE. injection SE as _ <-. exfalso. exact (no_view _ _ _ VW).
      + unfold KeyLookupInEpoch in SE. rewrite LE in SE. destruct (N.ltb_spec (N.of_nat (dupdates ops)) (N.of_nat m)) as [LT|LT]; [|lia].
        rewrite orb_true_r in SE. cbn [bind] in SE. injection SE as _ <-. exfalso. exact (no_view _ _ _ VW).
    - change (Z.eqb MonitoringType RegistrationType) with false in SE. change (Z.eqb MonitoringType KeyLookupType) with false in SE.
      change (Z.eqb MonitoringType KeyLookupInEpochType) with false in SE. change (Z.eqb MonitoringType MonitoringType) with true in SE. cbv iota in SE.
      destruct (C26_monitor C OK dl0 vk sk size r1 r2 ops d n B F VG NN) as (lo & W & M).
      rewrite <- (N2Nat.id a), <- (N2Nat.id b) in SE. set (x := N.to_nat a) in *. set (y := N.to_nat b) in *.
      destruct (M x y) as (BAD & OLD & HELD).
      destruct (le_lt_dec x (dupdates ops)) as [L|L].
      2:{ rewrite (BAD (or_introl L)) in SE. cbn [bind] in SE. injection SE as _ <-. exfalso. exact (no_view _ _ _ VW). }
      destruct (le_lt_dec x y) as [L1|L1].
      2:{ rewrite (BAD (or_intror L1)) in SE. cbn [bind] in SE. injection SE as _ <-. exfalso. exact (no_view _ _ _ VW). }
      destruct (le_lt_dec lo x) as [L2|L2].
      2:{ rewrite (OLD L2 L1) in SE. cbn [bind] in SE. injection SE as _ <-. exfalso. exact (no_view _ _ _ VW). }
      destruct (HELD L2 L1 L) as (aps & strs & E & LN & LN2 & (CH & _) & SH). rewrite E in SE. cbn [bind] in SE. injection SE as _ <-.
      destruct VW as (aps' & strs' & tb & i & ap & leaf & EV & A & S & AL & PV). injection EV as <- <- <-.
      rewrite nth_error_map in A, S. destruct (nth_error aps i) as [ap1|] eqn:NA; [|discriminate A]. destruct (nth_error strs i) as [s1|] eqn:NS; [|discriminate S].
      injection A as ->. injection S as ->.
      destruct (SH i ap str NA NS) as (_ & _ & leaf' & AL' & PV' & _). rewrite AL in AL'. injection AL' as <-.
      destruct (CH i str NS) as (PU & EP & _). exists (x + i).
      assert (LI : i < length aps) by (apply nth_error_Some; rewrite NA; discriminate).
      split; [rewrite LN in LI; lia|]. split; [exact PU|]. split; [exact EP|]. rewrite <- PV. exact PV'.
  Qed.
  (** A monitoring request that is answered shows every epoch asked for, up to the latest. *)
  Lemma monitor_all ops d op n a b d' resp : built ops d -> few ops -> vrf_good vk (n :: names_of ops) -> n <> [] ->
    monitors p op n a b -> srv_sem p op d = Ok (d', Some resp) -> r_error resp = ReqSuccess ->
    (a <= N.min b (N.of_nat (dupdates ops)))%N /\
    forall e, (a <= e <= N.min b (N.of_nat (dupdates ops)))%N -> exists v str, view resp v str /\ epoch_of str = Some e.
  Proof.
    intros B F VG NN (addr & msg & r & -> & P & Q) SE RE.
    cbn [srv_sem] in SE; unfold accept in SE; rewrite Q in SE; unfold checkRequestType in SE; cbn [q_type] in SE; rewrite P in SE;
      unfold HandleRequests in SE; cbn [q_type q_body] in SE.
    change (Z.eqb MonitoringType RegistrationType) with false in SE. change (Z.eqb MonitoringType KeyLookupType) with false in SE.
    change (Z.eqb MonitoringType KeyLookupInEpochType) with false in SE. change (Z.eqb MonitoringType MonitoringType) with true in SE. cbv iota in SE.
    destruct (C26_monitor C OK dl0 vk sk size r1 r2 ops d n B F VG NN) as (lo & W & M).
    destruct (M (N.to_nat a) (N.to_nat b)) as (BAD & OLD & HELD). rewrite !N2Nat.id in BAD, OLD, HELD.
    destruct (le_lt_dec (N.to_nat a) (dupdates ops)) as [L|L].
    2:{ rewrite (BAD (or_introl L)) in SE. cbn [bind] in SE. injection SE as _ <-. discriminate RE. }
    destruct (le_lt_dec (N.to_nat a) (N.to_nat b)) as [L1|L1].
    2:{ rewrite (BAD (or_intror L1)) in SE. cbn [bind] in SE. injection SE as _ <-. discriminate RE. }
    destruct (le_lt_dec lo (N.to_nat a)) as [L2|L2].
    2:{ rewrite (OLD L2 L1) in SE. cbn [bind] in SE. injection SE as _ <-. discriminate RE. }
    destruct (HELD L2 L1 L) as (aps & strs & E & LN & LN2 & (CH & _) & SH). rewrite E in SE. cbn [bind] in SE. injection SE as _ <-.
    split; [lia|]. intros e He. set (i := N.to_nat e - N.to_nat a).
    assert (LI : i < length aps) by (unfold i; lia).
    assert (LI2 : i < length strs) by lia.
    destruct (nth_error aps i) as [ap|] eqn:NA; [|apply nth_error_None in NA; lia].
    destruct (nth_error strs i) as [str|] eqn:NS; [|apply nth_error_None in NS; lia].
    destruct (SH i ap str NA NS) as (_ & _ & leaf & AL & PV & _). destruct (CH i str NS) as (_ & EP & _).
    exists (pn_value leaf), str. split.
    - exists (map Some aps), (map Some strs), None, i, ap, leaf. split; [reflexivity|]. rewrite !nth_error_map, NA, NS.
      split; [reflexivity|]. split; [reflexivity|]. split; [exact AL|reflexivity].
    - rewrite EP. f_equal. unfold i. lia.
  Qed.
  (** A lookup in a past epoch that is answered shows that epoch, and says whether a key is there. *)
  Lemma past_all ops d op n e d' resp : built ops d -> few ops -> vrf_good vk (n :: names_of ops) -> n <> [] ->
    asks_past p op n e -> srv_sem p op d = Ok (d', Some resp) -> r_error resp = ReqSuccess \/ r_error resp = ReqNameNotFound ->
    exists v str, view resp v str /\ epoch_of str = Some e /\ (r_error resp = ReqSuccess <-> v <> None).
  Proof.
    intros B F VG NN (addr & msg & r & -> & P & Q) SE RE.
    cbn [srv_sem] in SE; unfold accept in SE; rewrite Q in SE; unfold checkRequestType in SE; cbn [q_type] in SE; rewrite P in SE;
      unfold HandleRequests in SE; cbn [q_type q_body] in SE.
    change (Z.eqb KeyLookupInEpochType RegistrationType) with false in SE. change (Z.eqb KeyLookupInEpochType KeyLookupType) with false in SE.
    change (Z.eqb KeyLookupInEpochType KeyLookupInEpochType) with true in SE. cbv iota in SE.
    destruct (root_published OK dl0 vk sk size r1 r2 ops d B F) as (_ & RP).
    assert (LE : latestEpoch d = N.of_nat (dupdates ops)).
    { unfold epoch_of in RP. cbn in RP. injection RP as RP. exact RP. }
    destruct (C26_lookup_in_epoch C OK dl0 vk sk size r1 r2 ops d n B F VG NN) as (lo & W & OLD & HELD).
    rewrite <- (N2Nat.id e) in SE |- *. set (m := N.to_nat e) in *.
    destruct (le_lt_dec m (dupdates ops)) as [L|L].
    - destruct (le_lt_dec lo m) as [L2|L2].
      + destruct (HELD m L2 L) as (ap & s0 & strs & E & LN & (CH & _) & SH). rewrite E in SE. cbn [bind] in SE. injection SE as _ <-.
        destruct SH as (_ & _ & leaf & AL & PV & _). destruct (CH 0 s0 eq_refl) as (_ & EP & _). rewrite Nat.add_0_r in EP.
        exists (reg (dupto m ops) n), s0. split.
        * exists [Some ap], (map Some (s0 :: strs)), None, 0, ap, leaf. split; [reflexivity|]. split; [reflexivity|]. split; [reflexivity|]. split; [exact AL|exact PV].
        * split; [exact EP|]. unfold NewKeyLookupInEpochProof. cbn [r_error]. destruct (reg (dupto m ops) n) as [k|]; split; intro H; try discriminate H; try reflexivity; try discriminate.
          exfalso. exact (H eq_refl).
      + rewrite (OLD m L2) in SE. cbn [bind] in SE. injection SE as _ <-. destruct RE as [RE|RE]; discriminate RE.
    - unfold KeyLookupInEpoch in SE. rewrite LE in SE. destruct (N.ltb_spec (N.of_nat (dupdates ops)) (N.of_nat m)) as [LT|LT]; [|lia].
      rewrite orb_true_r in SE. cbn [bind] in SE. injection SE as _ <-. destruct RE as [RE|RE]; discriminate RE.
  Qed.
End One.

(** ** One answer in one run *)
Section Run.
  Context {C : Crypto} (OK : CryptoOk C).
  Variables (dl0 : N) (vk sk : bytes) (size : nat) (r1 r2 : option bytes) (p : permtable) (torn : Directory -> list Directory) (d0 : Directory).
  Variables (tr : list (event (option Response) srv_op)) (s : state Directory (option Response) srv_op).
  Hypothesis ND : Directory_New dl0 vk sk size true r1 r2 = Ok d0.
  Hypothesis RU : server_runs p torn d0 tr s.
  Hypothesis TK : (N.of_nat (ticks tr) < 2 ^ 64 - 1)%N.
  Hypothesis VG : vrf_good vk (names_asked tr).

  Lemma asked_in : incl (names_in tr) (names_asked tr).
  Proof.
    intros n H. apply in_flat_map in H as (e & I & H). apply in_flat_map. exists e. split; [exact I|].
    destruct e as [i op|i ans]; [|destruct H]. destruct op as [addr msg r| |]; [|destruct H|destruct H].
    destruct (obind msg UnmarshalRequest) as [q|]; [|destruct H]. destruct (q_body q); try exact H; destruct H.
  Qed.
  Lemma VGn : vrf_good vk (names_in tr).
  Proof. exact (vrf_good_incl vk _ _ asked_in VG). Qed.
  Variable lin : list (nat * srv_op * option Response).
  Hypothesis ORD : order p d0 tr lin.

  Lemma asked n op i ans : In (i, op, ans) lin -> about p op n -> In n (names_asked tr).
  Proof.
    destruct ORD as (m & [A B I W O]). intros L H. apply in_flat_map. exists (EInv i op). split; [exact (I _ _ _ L)|].
    destruct H as [(k & r & addr & msg & u & w & -> & _ & Q)|[(addr & msg & r & -> & _ & Q)|[(e & addr & msg & r & -> & _ & Q)|(a & b & addr & msg & r & -> & _ & Q)]]];
      rewrite Q; left; reflexivity.
  Qed.
  Lemma view_at l1 i op resp l2 n v str : lin = l1 ++ (i, op, Some resp) :: l2 -> about p op n -> n <> [] -> view resp v str ->
    exists k, k <= dupdates (calls_of p l1) /\ published dl0 vk sk size r1 r2 (calls_of p l1) k str /\ epoch_of str = Some (N.of_nat k) /\
      v = reg (dupto k (calls_of p l1)) n.
  Proof.
    intros E AB NN VW. destruct (directory_at dl0 vk sk size r1 r2 p d0 tr ND TK VGn lin ORD l1 i op _ l2 E) as (d & d' & B & F & SE & _).
    assert (L : In (i, op, Some resp) lin) by (rewrite E; apply in_or_app; right; left; reflexivity).
    assert (V : vrf_good vk (n :: names_of (calls_of p l1))).
    { apply (vrf_good_incl vk _ _) with (2 := VG). intros x [<-|K]; [exact (asked n op i _ L AB)|].
      apply asked_in. apply (calls_named p d0 tr lin ORD l1) with (2 := K). intros y Hy. rewrite E. apply in_or_app. left. exact Hy. }
    exact (past_view OK dl0 vk sk size r1 r2 p (calls_of p l1) d op n d' resp v str B F V NN AB SE VW).
  Qed.
  Lemma about_good l1 i op resp l2 n : lin = l1 ++ (i, op, Some resp) :: l2 -> about p op n ->
    exists d d', dir_built dl0 vk sk size r1 r2 (calls_of p l1) d /\ few (calls_of p l1) /\ srv_sem p op d = Ok (d', Some resp) /\
      vrf_good vk (n :: names_of (calls_of p l1)).
  Proof.
    intros E AB. destruct (directory_at dl0 vk sk size r1 r2 p d0 tr ND TK VGn lin ORD l1 i op _ l2 E) as (d & d' & B & F & SE & _).
    exists d, d'. split; [exact B|]. split; [exact F|]. split; [exact SE|].
    assert (L : In (i, op, Some resp) lin) by (rewrite E; apply in_or_app; right; left; reflexivity).
    apply (vrf_good_incl vk _ _) with (2 := VG). intros x [<-|K]; [exact (asked n op i _ L AB)|].
    apply asked_in. apply (calls_named p d0 tr lin ORD l1) with (2 := K). intros y Hy. rewrite E. apply in_or_app. left. exact Hy.
  Qed.
End Run.

(** Two beginnings of one list. *)
Lemma two_starts_of {X} : forall (a c : list X) x y, a ++ x = c ++ y -> (exists z, c = a ++ z) \/ (exists z, a = c ++ z).
Proof.
  induction a as [|z a IH]; intros c x y E; [left; exists c; reflexivity|]. destruct c as [|w c]; [right; exists (z :: a); reflexivity|].
  cbn [app] in E. injection E as <- E. destruct (IH c x y E) as [(q & ->)|(q & ->)]; [left|right]; exists q; reflexivity.
Qed.

(** ** Theorems
    A server built and run as in C42 (any interleaving of the handlers' single steps, the
    epoch timer and reloads), with fewer than 2^64 - 1 ticks; [VG]: C24's condition on
    the names in use. *)
Section Theorems.
  Context {C : Crypto} (OK : CryptoOk C).
  Variables (dl0 : N) (vk sk : bytes) (size : nat) (r1 r2 : option bytes) (p : permtable) (torn : Directory -> list Directory) (d0 : Directory).
  Variables (tr : list (event (option Response) srv_op)) (s : state Directory (option Response) srv_op).
  Hypothesis ND : Directory_New dl0 vk sk size true r1 r2 = Ok d0.
  Hypothesis RU : server_runs p torn d0 tr s.
  Hypothesis TK : (N.of_nat (ticks tr) < 2 ^ 64 - 1)%N.
  Hypothesis VG : vrf_good vk (names_asked tr).
  Notation lin_of := (ordered p torn d0 tr s RU).

  (** Whatever two answers show for one epoch agrees: the root is the same, and so is the
      key (or its absence) if they are about the same name. The answers may be to
      registrations, lookups, lookups in an epoch or monitoring requests, of any two clients,
      at any two times of the run. *)
  Theorem C99_one_past : forall i j opi opj ni nj ri rj vi vj si sj e, ni <> [] -> nj <> [] ->
    In (EInv i opi) tr -> about p opi ni -> In (ERes i (Some ri)) tr -> view ri vi si -> epoch_of si = Some e ->
    In (EInv j opj) tr -> about p opj nj -> In (ERes j (Some rj)) tr -> view rj vj sj -> epoch_of sj = Some e ->
    si = sj /\ (ni = nj -> vi = vj).
  Proof.
    intros i j opi opj ni nj ri rj vi vj si sj e NNi NNj Ii Ai Ri Vi Ei Ij Aj Rj Vj Ej. destruct lin_of as (lin & ORD).
    destruct (place p torn d0 tr s RU lin ORD i opi (Some ri) Ii Ri) as (a & b & La).
    destruct (place p torn d0 tr s RU lin ORD j opj (Some rj) Ij Rj) as (c & f & Lc).
    destruct (view_at OK dl0 vk sk size r1 r2 p d0 tr ND TK VG lin ORD a i opi ri b ni vi si La Ai NNi Vi) as (k & Lk & Pk & Ek & ->).
    destruct (view_at OK dl0 vk sk size r1 r2 p d0 tr ND TK VG lin ORD c j opj rj f nj vj sj Lc Aj NNj Vj) as (k' & Lk' & Pk' & Ek' & ->).
    rewrite Ei in Ek. injection Ek as Ek. rewrite Ej in Ek'. injection Ek' as Ek'. rewrite Ek in Ek'. apply Nat2N.inj in Ek'. subst k'.
    destruct (two_starts_of a c _ _ (eq_trans (eq_sym La) Lc)) as [(z & EZ)|(z & EZ)].
    - assert (EC : calls_of p c = calls_of p a ++ calls_of p z) by (rewrite EZ; unfold calls_of; apply flat_map_app).
      rewrite EC in Pk' |- *. rewrite (dupto_app k _ _ Lk). split; [|intros ->; reflexivity].
      exact (published_fun dl0 vk sk size r1 r2 _ _ _ _ _ Lk Pk Pk').
    - assert (EC : calls_of p a = calls_of p c ++ calls_of p z) by (rewrite EZ; unfold calls_of; apply flat_map_app).
      rewrite EC in Pk |- *. rewrite (dupto_app k _ _ Lk'). split; [|intros ->; reflexivity].
      symmetry. exact (published_fun dl0 vk sk size r1 r2 _ _ _ _ _ Lk' Pk' Pk).
  Qed.

  (** The key of a successful registration is shown under every root newer than the one that
      came with the success, and under no other: whoever asks, whenever, and about whichever
      epoch. *)
  Theorem C99_known_since : forall i j opi opj n ki xi ri rj s0 e0 v str e,
    In (EInv i opi) tr -> registers p opi n ki xi -> In (ERes i (Some ri)) tr -> r_error ri = ReqSuccess -> comes_with ri s0 -> epoch_of s0 = Some e0 ->
    In (EInv j opj) tr -> about p opj n -> In (ERes j (Some rj)) tr -> view rj v str -> epoch_of str = Some e ->
    v = (if (e0 <? e)%N then Some ki else None).
  Proof.
    intros i j opi opj n ki xi ri rj s0 e0 v str e Ii Gi Ri Si CW E0 Ij Aj Rj Vj Ej. destruct lin_of as (lin & ORD).
    pose proof (VGn vk tr VG) as VG'.
    destruct (place p torn d0 tr s RU lin ORD i opi (Some ri) Ii Ri) as (a & b & La).
    destruct (place p torn d0 tr s RU lin ORD j opj (Some rj) Ij Rj) as (c & f & Lc).
    destruct (success_registers OK dl0 vk sk size r1 r2 p d0 tr ND TK VG' lin ORD a i opi ri b n ki xi La Gi Si) as (Na & NN & Wa).
    destruct (reg_at OK dl0 vk sk size r1 r2 p d0 tr ND TK VG' lin ORD a i opi _ b n ki xi La Gi) as (resp & di & EA & Bi & Fi & X).
    injection EA as <-. rewrite Na in X.
    destruct (is_nil n || is_nil ki); [rewrite Si in X; discriminate X|]. destruct xi as [xi|]; [|rewrite Si in X; discriminate X].
    destruct X as (_ & _ & CW').
    assert (CWE : s0 = LatestSTR di).
    { destruct CW as (ap & tb & E1), CW' as (ap' & tb' & E2). rewrite E1 in E2. injection E2 as _ -> _. reflexivity. }
    subst s0. destruct (root_published OK dl0 vk sk size r1 r2 _ di Bi Fi) as (_ & Ei). rewrite Ei in E0. injection E0 as <-.
    destruct (view_at OK dl0 vk sk size r1 r2 p d0 tr ND TK VG lin ORD c j opj rj f n v str Lc Aj NN Vj) as (k & Lk & _ & Ek & ->).
    rewrite Ej in Ek. injection Ek as ->.
    set (k0 := dupdates (calls_of p a)) in *.
    assert (NONE : forall ops x, calls_of p a = ops ++ x -> reg ops n = None).
    { intros ops x E. destruct (reg ops n) as [w|] eqn:R; [|reflexivity]. pose proof (reg_mono ops x n w R) as R'. rewrite <- E in R'. rewrite R' in Na. discriminate Na. }
    assert (OLD : forall z, k <= k0 -> reg (dupto k (calls_of p a ++ z)) n = None).
    { intros z L. rewrite (dupto_app k _ z L). destruct (dupto_prefix k (calls_of p a)) as (y & Y). exact (NONE _ y Y). }
    destruct (N.ltb_spec (N.of_nat k0) (N.of_nat k)) as [LT|LT].
    - assert (D : (i, opi, Some ri) <> (j, opj, Some rj) \/ (i, opi, Some ri) = (j, opj, Some rj)).
      { destruct (two_starts_of a c _ _ (eq_trans (eq_sym La) Lc)) as [(z & EZ)|(z & EZ)].
        - destruct z as [|q z]; [|left].
          + exfalso. rewrite app_nil_r in EZ. rewrite EZ in Lk. fold k0 in Lk. lia.
          + intro Q. rewrite EZ in Lc. rewrite <- Q in Lc. pose proof (lin_once p d0 tr lin ORD) as B. rewrite Lc in B.
            rewrite <- app_assoc in Lc. rewrite La in Lc. apply app_inv_head in Lc. cbn [app] in Lc. injection Lc as <- Lc.
            rewrite <- app_assoc, map_app in B. cbn [app map] in B. apply NoDup_remove_2 in B. apply B. apply in_or_app. right.
            rewrite map_app. apply in_or_app. right. left. reflexivity.
        - left. intro Q. exfalso. assert (EC : calls_of p a = calls_of p c ++ calls_of p z) by (rewrite EZ; unfold calls_of; apply flat_map_app).
          unfold k0 in LT. rewrite EC, dupdates_app in LT. lia. }
      destruct D as [D|D].
      + destruct (two_splits _ _ _ _ _ _ (eq_trans (eq_sym La) Lc) D) as [(m & EM)|(m & EM)].
        * destruct (Wa m) as (z & _ & W2 & W3 & W4). rewrite EM, W2.
          destruct (dupto_past (calls_of p (a ++ [(i, opi, Some ri)])) k z ltac:(rewrite W4; fold k0; lia)) as (y & ->).
          exact (reg_mono _ y n ki W3).
        * exfalso. assert (EC : exists z, calls_of p a = calls_of p c ++ z) by (exists (calls_of p ((j, opj, Some rj) :: m)); rewrite EM; unfold calls_of; apply flat_map_app).
          destruct EC as (z & EC). unfold k0 in LT. rewrite EC, dupdates_app in LT. lia.
      + exfalso. pose proof (lin_once p d0 tr lin ORD) as B. rewrite <- D in Lc.
        destruct (two_starts_of a c _ _ (eq_trans (eq_sym La) Lc)) as [(z & EZ)|(z & EZ)].
        * rewrite EZ in Lc. rewrite Lc in B. rewrite <- app_assoc in Lc. rewrite La in Lc. apply app_inv_head in Lc.
          destruct z as [|q z]; [rewrite app_nil_r in EZ; rewrite EZ in Lk; fold k0 in Lk; lia|].
          cbn [app] in Lc. injection Lc as <- Lc. rewrite <- app_assoc, map_app in B. cbn [app map] in B. apply NoDup_remove_2 in B. apply B.
          apply in_or_app. right. rewrite map_app. apply in_or_app. right. left. reflexivity.
        * assert (EC : calls_of p a = calls_of p c ++ calls_of p z) by (rewrite EZ; unfold calls_of; apply flat_map_app).
          unfold k0 in LT. rewrite EC, dupdates_app in LT. lia.
    - assert (L : k <= k0) by lia.
      destruct (two_starts_of a c _ _ (eq_trans (eq_sym La) Lc)) as [(z & EZ)|(z & EZ)].
      + assert (EC : calls_of p c = calls_of p a ++ calls_of p z) by (rewrite EZ; unfold calls_of; apply flat_map_app).
        rewrite EC. exact (OLD _ L).
      + assert (EC : calls_of p a = calls_of p c ++ calls_of p z) by (rewrite EZ; unfold calls_of; apply flat_map_app).
        destruct (dupto_prefix k (calls_of p c)) as (y & Y). apply (NONE (dupto k (calls_of p c)) (y ++ calls_of p z)).
        rewrite EC. rewrite Y at 1. rewrite <- app_assoc. reflexivity.
  Qed.
  (** Monitoring is complete and never behind: an answered request shows every epoch from
      the first asked for up to some epoch, which is the last one asked for or at least
      every epoch that anybody was shown before the request was made. *)
  Theorem C99_monitoring_complete : forall i op n a b ri, n <> [] ->
    In (EInv i op) tr -> monitors p op n a b -> In (ERes i (Some ri)) tr -> r_error ri = ReqSuccess ->
    exists e1, (a <= e1 <= b)%N /\
      (forall e, (a <= e <= e1)%N -> exists v str, view ri v str /\ epoch_of str = Some e) /\
      (forall j opj nj rj vj sj ej, nj <> [] -> In (EInv j opj) tr -> about p opj nj -> earlier (ERes j (Some rj)) (EInv i op) tr ->
         view rj vj sj -> epoch_of sj = Some ej -> (ej <= b)%N -> (ej <= e1)%N).
  Proof.
    intros i op n a b ri NN Ii MO Ri Si. destruct lin_of as (lin & ORD).
    assert (AB : about p op n) by (right; right; right; exists a, b; exact MO).
    destruct (place p torn d0 tr s RU lin ORD i op (Some ri) Ii Ri) as (l1 & l2 & La).
    destruct (about_good dl0 vk sk size r1 r2 p d0 tr ND TK VG lin ORD l1 i op ri l2 n La AB) as (d & d' & B & F & SE & V).
    destruct (monitor_all OK dl0 vk sk size r1 r2 p (calls_of p l1) d op n a b d' ri B F V NN MO SE Si) as (LO & ALL).
    exists (N.min b (N.of_nat (dupdates (calls_of p l1)))). split; [lia|]. split; [exact ALL|].
    intros j opj nj rj vj sj ej NNj Ij Aj BF Vj Ej LB.
    assert (Rj : In (ERes j (Some rj)) tr) by (destruct BF as (t1 & t2 & t3 & ->); apply in_or_app; right; left; reflexivity).
    destruct (place p torn d0 tr s RU lin ORD j opj (Some rj) Ij Rj) as (c & f & Lc).
    destruct (view_at OK dl0 vk sk size r1 r2 p d0 tr ND TK VG lin ORD c j opj rj f nj vj sj Lc Aj NNj Vj) as (k & Lk & _ & Ek & _).
    rewrite Ej in Ek. injection Ek as ->.
    destruct (in_order p d0 tr lin ORD j i opj op (Some rj) (Some ri) c f l1 l2 Lc La BF) as (m & EM).
    assert (EC : calls_of p l1 = calls_of p c ++ calls_of p ((j, opj, Some rj) :: m)) by (rewrite EM; unfold calls_of; apply flat_map_app).
    rewrite EC, dupdates_app. lia.
  Qed.
  (** A lookup in a past epoch, if answered, shows that very epoch, and success means that a
      key is there. *)
  Theorem C99_past_lookup_complete : forall i op n e ri, n <> [] ->
    In (EInv i op) tr -> asks_past p op n e -> In (ERes i (Some ri)) tr -> r_error ri = ReqSuccess \/ r_error ri = ReqNameNotFound ->
    exists v str, view ri v str /\ epoch_of str = Some e /\ (r_error ri = ReqSuccess <-> v <> None).
  Proof.
    intros i op n e ri NN Ii AP Ri Si. destruct lin_of as (lin & ORD).
    assert (AB : about p op n) by (right; right; left; exists e; exact AP).
    destruct (place p torn d0 tr s RU lin ORD i op (Some ri) Ii Ri) as (l1 & l2 & La).
    destruct (about_good dl0 vk sk size r1 r2 p d0 tr ND TK VG lin ORD l1 i op ri l2 n La AB) as (d & d' & B & F & SE & V).
    exact (past_all OK dl0 vk sk size r1 r2 p (calls_of p l1) d op n e d' ri B F V NN AP SE Si).
  Qed.
End Theorems.
Print Assumptions C99_one_past.
Print Assumptions C99_known_since.
Print Assumptions C99_monitoring_complete.
Print Assumptions C99_past_lookup_complete.

(** ** A concrete run: a registration, an update of the epoch, then a lookup in epoch 0 on one
    address while another client monitors the epochs 0 to 5 on the other. *)
Definition views (resp : Response) : list (option bytes * option N) :=
  match r_df resp with
  | Some (DProof (Some (mkDP aps strs _))) =>
      flat_map (fun x => match x with
        | (Some ap, Some str) => match ap_leaf ap with Some leaf => [(pn_value leaf, epoch_of str)] | None => [] end
        | _ => [] end) (combine aps strs)
  | _ => []
  end.
Lemma in_combine_nth {A B} : forall (l : list A) (l' : list B) x y, In (x, y) (combine l l') -> exists i, nth_error l i = Some x /\ nth_error l' i = Some y.
Proof.
  induction l as [|a l IH]; intros [|b l'] x y H; try (destruct H; fail). destruct H as [H|H].
  - injection H as -> ->. exists 0. split; reflexivity.
  - destruct (IH l' x y H) as (i & P & Q). exists (S i). split; [exact P|exact Q].
Qed.
Lemma views_view resp v e : In (v, Some e) (views resp) -> exists str, view resp v str /\ epoch_of str = Some e.
Proof.
  unfold views, view. destruct (r_df resp) as [[[[aps strs tb]|]|]|]; try (intros []; fail). intro H. apply in_flat_map in H as ((a & b) & I & H).
  destruct a as [ap|]; [|destruct H]. destruct b as [str|]; [|destruct H]. destruct (ap_leaf ap) as [leaf|] eqn:AL; [|destruct H].
  destruct H as [H|[]]. injection H as <- EP. destruct (in_combine_nth _ _ _ _ I) as (i & P & Q).
  exists str. split; [|exact EP]. exists aps, strs, tb, i, ap, leaf. split; [reflexivity|]. split; [exact P|]. split; [exact Q|]. split; [exact AL|reflexivity].
Qed.
Definition pt_past : srv_op := OMsg 0 (toy_msg (WKeyLookupInEpoch [x61] 0)) None.
Definition pt_mon : srv_op := OMsg 1 (toy_msg (WMonitoring [x61] 0 5)) None.
Definition pt_schedule : list (action srv_op) :=
  [Invoke _ 0 (tg_reg [x62])] ++ flat_map (fun _ => [Move _ 0]) (seq 0 60)
  ++ [Invoke _ 1 OTick] ++ flat_map (fun _ => [Move _ 1]) (seq 0 60)
  ++ [Invoke _ 2 pt_past; Invoke _ 3 pt_mon] ++ flat_map (fun _ => [Move _ 2; Move _ 3]) (seq 0 60).
Definition pt_run : result (list (event (option Response) srv_op) * state Directory (option Response) srv_op) :=
  do d0 <- toy_dir0;
  Ok (exec _ _ _ (srv_code (C := ToyCrypto) tg_perm tg_torn) (srv_reader tg_perm) (srv_direct tg_perm) (initial d0) [] pt_schedule).
Definition views_in (tr : list (event (option Response) srv_op)) (i : nat) : list (list (option bytes * option N)) :=
  flat_map (fun e => match e with ERes j (Some r) => if Nat.eqb i j then [views r] else [] | _ => [] end) tr.
Lemma views_in_res tr i l : views_in tr i = [l] -> exists r, In (ERes i (Some r)) tr /\ views r = l.
Proof.
  intro H. assert (K : In l (views_in tr i)) by (rewrite H; left; reflexivity). apply in_flat_map in K as (e & I & K).
  destruct e as [|j [r|]]; try (destruct K; fail). destruct (Nat.eqb_spec i j) as [->|]; [|destruct K]. destruct K as [<-|[]].
  exists r. split; [exact I|reflexivity].
Qed.
Definition key_dec (a b : option bytes) : {a = b} + {a <> b}.
Proof. destruct a as [a|], b as [b|]; [|right; discriminate|right; discriminate|left; reflexivity].
  destruct (list_eq_dec Byte.byte_eq_dec a b) as [EQ|NE]; [left; rewrite EQ; reflexivity|right; intro E; injection E as E; exact (NE E)]. Defined.
Definition epoch_dec (a b : option N) : {a = b} + {a <> b}.
Proof. destruct a as [a|], b as [b|]; [|right; discriminate|right; discriminate|left; reflexivity].
  destruct (N.eq_dec a b) as [EQ|NE]; [left; rewrite EQ; reflexivity|right; intro E; injection E as E; exact (NE E)]. Defined.
Definition one_dec (a b : option bytes * option N) : {a = b} + {a <> b}.
Proof. destruct a as [a c], b as [b d]. destruct (key_dec a b) as [EQ|NE]; [|right; intro E; injection E as E _; exact (NE E)].
  destruct (epoch_dec c d) as [EQ2|NE]; [left; rewrite EQ, EQ2; reflexivity|right; intro E; injection E as _ E; exact (NE E)]. Defined.
Definition view_dec (a b : list (list (option bytes * option N))) : {a = b} + {a <> b} := list_eq_dec (list_eq_dec one_dec) a b.
Definition pt_ok (tr : list (event (option Response) srv_op)) : bool :=
  spreadb (names_asked tr) && (if view_dec (map (fun i => concat (views_in tr i)) [0; 2; 3])
     [[(None, Some 0%N)]; [(None, Some 0%N)]; [(None, Some 0%N); (Some [x62], Some 1%N)]] then true else false) && Nat.eqb (ticks tr) 1.
Example C99_case : exists d0 tr s,
  toy_dir0 = Ok d0 /\ @server_runs ToyCrypto tg_perm tg_torn d0 tr s /\ (N.of_nat (ticks tr) < 2 ^ 64 - 1)%N /\
  @vrf_good ToyCrypto [x11] (names_asked tr) /\
  map (fun i => concat (views_in tr i)) [0; 2; 3] = [[(None, Some 0%N)]; [(None, Some 0%N)]; [(None, Some 0%N); (Some [x62], Some 1%N)]] /\
  about tg_perm (tg_reg [x62]) [x61] /\ about tg_perm pt_past [x61] /\ about tg_perm pt_mon [x61].
Proof.
  assert (H : match pt_run with Ok (tr, _) => pt_ok tr | Panic => false end = true) by (vm_compute; reflexivity).
  unfold pt_run in H. destruct toy_dir0 as [d0|] eqn:E; [|discriminate H]. cbn [bind] in H.
  pose proof (exec_reach Directory (option Response) srv_op
     (srv_code (C := ToyCrypto) tg_perm tg_torn) (srv_reader tg_perm) (srv_direct tg_perm) d0 pt_schedule _ _ (r_init _ _ _ _ _ _ d0)) as R.
  destruct (exec _ _ _ _ _ _ _ _ _) as [tr s]. cbn [fst snd] in R. exists d0, tr, s.
  split; [reflexivity|]. split; [exact R|]. unfold pt_ok in H. apply andb_true_iff in H as (H & T). apply andb_true_iff in H as (SP & CD).
  apply Nat.eqb_eq in T. split; [rewrite T; reflexivity|]. split; [exact (spreadb_good _ SP)|].
  split; [destruct (view_dec _ _) as [Q|] in CD; [exact Q|discriminate CD]|].
  split; [left; exists [x62], (Some [x09])|split; [right; right; left|right; right; right]].
  - exists 0, (toy_msg (WRegistration [x61] [x62] false false)), false, false. split; [reflexivity|]. split; [reflexivity|]. vm_compute. reflexivity.
  - exists 0%N, 0, (toy_msg (WKeyLookupInEpoch [x61] 0)), None. split; [reflexivity|]. split; [reflexivity|]. vm_compute. reflexivity.
  - exists 0%N, 5%N, 1, (toy_msg (WMonitoring [x61] 0 5)), None. split; [reflexivity|]. split; [reflexivity|]. vm_compute. reflexivity.
Qed.
