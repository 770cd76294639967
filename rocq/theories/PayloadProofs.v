(** The payload decoders refine the reference decoder of SpecPayload.v, for every writer. *)
From Verif Require Import Base Lib VersionDb ModelGF ModelRS ModelDecode GFProofs SpecQR SpecPayload
  StreamProofs.
From Coq Require Import ZifyBool ZifyNat ZifyN.
Ltac Zify.zify_post_hook ::= Z.div_mod_to_equations.

Notation writer W := (W -> list Z -> W * bool) (only parsing).

(** [m] produces what the reference says: these chunks for any writer, and then either underflow or
    a stream positioned at the remaining bits. *)
Definition refines (m : forall W, writer W -> io W CorrectedDataStream) (p : parsed) : Prop :=
  exists chunks, concat chunks = fst p /\
    match snd p with
    | None => traced m chunks (Err DataUnderflow)
    | Some rest => exists ds', at_bits ds' rest /\ traced m chunks (Ok ds')
    end.

Lemma traced_ext {A} (m m' : forall W, writer W -> io W A) cs r :
  (forall W wr w, m W wr w = m' W wr w) -> traced m' cs r -> traced m cs r.
Proof. intros H Ht W wr w. rewrite H. apply Ht. Qed.

Lemma refines_ext (m m' : forall W, writer W -> io W CorrectedDataStream) p :
  (forall W wr w, m W wr w = m' W wr w) -> refines m' p -> refines m p.
Proof.
  intros H (cs & Hc & Hp). exists cs. split; [exact Hc|].
  destruct (snd p); [destruct Hp as (ds' & Ha & Ht); exists ds'; split; [exact Ha|]|];
    eapply traced_ext; eauto.
Qed.

Lemma refines_stop ds bs : at_bits ds bs -> refines (fun W _ => io_ret ds) (stop bs).
Proof. intros H. exists []. split; [reflexivity|]. exists ds. split; [exact H|apply traced_ret]. Qed.

Lemma refines_underflow : refines (fun W _ => io_lift (Err DataUnderflow)) ([], None).
Proof. exists []. split; [reflexivity|apply traced_lift]. Qed.

Lemma refines_lift_err {A} (r : res deqr_error A)
  (k : forall W, writer W -> A -> io W CorrectedDataStream) :
  r = Err DataUnderflow -> refines (fun W wr => io_bind (io_lift r) (k W wr)) ([], None).
Proof. intros ->. exists []. split; [reflexivity|]. intros W wr w. reflexivity. Qed.

Lemma refines_lift {A} (r : res deqr_error A)
  (k : forall W, writer W -> A -> io W CorrectedDataStream) a p :
  r = Ok a -> refines (fun W wr => k W wr a) p -> refines (fun W wr => io_bind (io_lift r) (k W wr)) p.
Proof. intros -> Hk. eapply refines_ext; [|exact Hk]. intros. reflexivity. Qed.

Lemma refines_write c (k : forall W, writer W -> unit -> io W CorrectedDataStream) p :
  refines (fun W wr => k W wr tt) p ->
  refines (fun W wr => io_bind (io_write wr c) (k W wr)) (prepend c p).
Proof.
  intros (cs & Hc & Hp). exists (c :: cs). split; [cbn; rewrite Hc; reflexivity|].
  cbn [prepend snd]. destruct (snd p).
  - destruct Hp as (ds' & Ha & Ht). exists ds'. split; [exact Ha|]. apply traced_write_bind, Ht.
  - apply traced_write_bind, Hp.
Qed.

Lemma io_bind_assoc {W A B C} (m : io W A) (k : A -> io W B) (q : B -> io W C) w :
  io_bind (io_bind m k) q w = io_bind m (fun a => io_bind (k a) q) w.
Proof. unfold io_bind. destruct (m w) as [w' [| | |]]; reflexivity. Qed.

(** * Numeric *)
Lemma numeric_tuple_3 ds bs a b c : at_bits ds bs -> (10 <= length bs)%nat ->
  let t := value_of (firstn 10 bs) in
  exists ds', numeric_tuple [a; b; c] ds 10 3
    = Ok ([ascii_digit (t / 100); ascii_digit (t / 10); ascii_digit t], ds')
    /\ at_bits ds' (skipn 10 bs).
Proof.
  intros Hb Hl t. unfold numeric_tuple. rewrite (bits_remaining_ok _ _ Hb). cbn [bind].
  replace (_ <? _) with false by lia.
  destruct (take_bits_ok ds bs 10 Hb ltac:(lia)) as (ds' & -> & Hb'). exists ds'.
  split; [|exact Hb']. cbn [bind]. change (Z.to_nat 10) with 10%nat. fold t. clearbody t.
  cbv [for_each rev app range seq Nat.sub aset length Nat.ltb Nat.leb upd bind].
  unfold ascii_digit. rewrite !(Z.add_comm 48), Z.div_div by lia. reflexivity.
Qed.

Lemma numeric_tuple_2 ds bs a b c : at_bits ds bs -> (7 <= length bs)%nat ->
  let t := value_of (firstn 7 bs) in
  exists ds', numeric_tuple [a; b; c] ds 7 2
    = Ok ([ascii_digit (t / 10); ascii_digit t; c], ds')
    /\ at_bits ds' (skipn 7 bs).
Proof.
  intros Hb Hl t. unfold numeric_tuple. rewrite (bits_remaining_ok _ _ Hb). cbn [bind].
  replace (_ <? _) with false by lia.
  destruct (take_bits_ok ds bs 7 Hb ltac:(lia)) as (ds' & -> & Hb'). exists ds'.
  split; [|exact Hb']. cbn [bind]. change (Z.to_nat 7) with 7%nat. fold t. clearbody t.
  cbv [for_each rev app range seq Nat.sub aset length Nat.ltb Nat.leb upd bind].
  unfold ascii_digit. rewrite !(Z.add_comm 48). reflexivity.
Qed.

Lemma numeric_tuple_1 ds bs a b c : at_bits ds bs -> (4 <= length bs)%nat ->
  let t := value_of (firstn 4 bs) in
  exists ds', numeric_tuple [a; b; c] ds 4 1 = Ok ([ascii_digit t; b; c], ds')
    /\ at_bits ds' (skipn 4 bs).
Proof.
  intros Hb Hl t. unfold numeric_tuple. rewrite (bits_remaining_ok _ _ Hb). cbn [bind].
  replace (_ <? _) with false by lia.
  destruct (take_bits_ok ds bs 4 Hb ltac:(lia)) as (ds' & -> & Hb'). exists ds'.
  split; [|exact Hb']. cbn [bind]. change (Z.to_nat 4) with 4%nat. fold t. clearbody t.
  cbv [for_each rev app range seq Nat.sub aset length Nat.ltb Nat.leb upd bind].
  unfold ascii_digit. rewrite !(Z.add_comm 48). reflexivity.
Qed.

Lemma numeric_tuple_short ds bs buf n d : at_bits ds bs -> Z.of_nat (length bs) < n ->
  numeric_tuple buf ds n d = Err DataUnderflow.
Proof.
  intros Hb Hl. unfold numeric_tuple. rewrite (bits_remaining_ok _ _ Hb). cbn [bind].
  replace (_ <? _) with true by lia. reflexivity.
Qed.

(** One group: tuple, write, continue. *)
Lemma refines_group {A} (tup : res deqr_error (A * CorrectedDataStream)) (out : A -> list Z) n bs f
  (k : forall W, writer W -> A -> CorrectedDataStream -> io W CorrectedDataStream) kp :
  ((length bs < n)%nat -> tup = Err DataUnderflow) ->
  ((n <= length bs)%nat -> exists x ds', tup = Ok (x, ds') /\ out x = f (value_of (firstn n bs))
     /\ refines (fun W wr => k W wr x ds') (kp (skipn n bs))) ->
  refines (fun W wr => io_bind (io_lift tup)
             (fun '(x, ds') => io_bind (io_write wr (out x)) (fun _ => k W wr x ds')))
          (group n bs f kp).
Proof.
  intros H1 H2. unfold group. destruct (Nat.ltb_spec (length bs) n) as [H|H].
  - rewrite (H1 H). apply (refines_lift_err (Err DataUnderflow)
      (fun W wr '(x, ds') => io_bind (io_write wr (out x)) (fun _ => k W wr x ds'))). reflexivity.
  - destruct (H2 H) as (x & ds' & -> & Ho & Hk).
    apply (refines_lift (Ok (x, ds'))
      (fun W wr '(x, ds') => io_bind (io_write wr (out x)) (fun _ => k W wr x ds')) (x, ds'));
      [reflexivity|].
    cbn beta iota. rewrite <- Ho.
    apply (refines_write (out x) (fun W wr _ => k W wr x ds')). exact Hk.
Qed.

Lemma numeric_loop_refines (K : forall W, writer W -> list Z * CorrectedDataStream -> io W CorrectedDataStream) r :
  (forall buf ds bs, length buf = 3%nat -> at_bits ds bs ->
     refines (fun W wr => K W wr (buf, ds)) (ref_numeric r bs)) ->
  forall n buf ds bs, length buf = 3%nat -> at_bits ds bs ->
  refines (fun W wr => io_bind (numeric_loop wr n buf ds) (K W wr)) (ref_numeric (3 * n + r) bs).
Proof.
  intros HK. induction n as [|n IH]; intros buf ds bs Hbuf Hb.
  - eapply refines_ext; [|apply HK; eauto]. intros. reflexivity.
  - replace (3 * S n + r)%nat with (S (S (S (3 * n + r)))) by lia. cbn [ref_numeric].
    eapply refines_ext with (m' := fun W wr =>
      io_bind (io_lift (numeric_tuple buf ds 10 3))
        (fun '(buf', ds') => io_bind (io_write wr buf')
          (fun _ => io_bind (numeric_loop wr n buf' ds') (K W wr)))).
    { intros W wr w. cbn [numeric_loop]. rewrite io_bind_assoc.
      unfold io_lift. unfold io_bind at 1 3. destruct (numeric_tuple buf ds 10 3) as [[b' d']| | |]; auto.
      apply io_bind_assoc. }
    apply (refines_group _ (fun x => x) 10 bs _ (fun W wr buf' ds' => io_bind (numeric_loop wr n buf' ds') (K W wr))).
    + intros Hl. apply (numeric_tuple_short ds bs); [exact Hb|lia].
    + intros Hl. destruct buf as [|a [|b [|c [|]]]]; try discriminate.
      destruct (numeric_tuple_3 ds bs a b c Hb Hl) as (ds' & E & Hb').
      eexists _, ds'. split; [exact E|]. split; [reflexivity|]. apply IH; [reflexivity|exact Hb'].
Qed.

Lemma count_split n k : 0 <= n -> (0 < k)%nat -> 
  Z.to_nat n = (k * Z.to_nat (n / Z.of_nat k) + Z.to_nat (n mod Z.of_nat k))%nat.
Proof. intros H Hk. apply Nat2Z.inj. rewrite Nat2Z.inj_add, Nat2Z.inj_mul, !Z2Nat.id; [|apply Z.mod_pos_bound; lia|apply Z.div_pos; lia|lia]. apply Z.div_mod. lia. Qed.

Lemma decode_numeric_refines meta ds bs : at_bits ds bs ->
  let w := ref_count 10 12 14 (md_version meta) in
  refines (fun W wr => decode_numeric wr meta ds)
          (ref_numeric (Z.to_nat (value_of (firstn w bs))) (skipn w bs)).
Proof.
  intros Hb w. unfold decode_numeric.
  set (nbits := if md_version meta <=? 9 then 10 else if md_version meta <=? 26 then 12 else 14).
  assert (Ew : w = Z.to_nat nbits).
  { unfold w, nbits, ref_count. destruct (_ <=? 9); [reflexivity|]. destruct (_ <=? 26); reflexivity. }
  assert (Hn : 0 <= nbits <= 64) by (unfold nbits; destruct (_ <=? 9); [lia|]; destruct (_ <=? 26); lia).
  destruct (take_bits_ok ds bs nbits Hb Hn) as (ds1 & E1 & Hb1). rewrite <- Ew in E1, Hb1.
  set (count := value_of (firstn w bs)) in *.
  assert (Hc : 0 <= count) by (apply value_of_range).
  eapply refines_ext with (m' := fun W wr =>
    io_bind (numeric_loop wr (Z.to_nat (count / 3)) [0; 0; 0] ds1)
      (fun '(buf, ds) => io_bind
         (if count mod 3 =? 2 then
            io_bind (io_lift (numeric_tuple buf ds 7 2))
              (fun '(buf, ds) => io_bind (io_write wr (firstn 2 buf))
                 (fun _ => io_ret (buf, ds, count mod 3 - 2)))
          else io_ret (buf, ds, count mod 3))
         (fun '(buf, ds, count) =>
            if count =? 1 then
              io_bind (io_lift (numeric_tuple buf ds 4 1))
                (fun '(buf, ds) => io_bind (io_write wr (firstn 1 buf)) (fun _ => io_ret ds))
            else io_ret ds))).
  { intros W wr w0. rewrite E1. reflexivity. }
  rewrite (count_split count 3) by lia. change (Z.of_nat 3) with 3.
  assert (Hr : 0 <= count mod 3 < 3) by lia. revert Hr. generalize (count mod 3). intros r Hr.
  apply (numeric_loop_refines (fun W wr '(buf, ds) => io_bind
         (if r =? 2 then
            io_bind (io_lift (numeric_tuple buf ds 7 2))
              (fun '(buf, ds) => io_bind (io_write wr (firstn 2 buf))
                 (fun _ => io_ret (buf, ds, r - 2)))
          else io_ret (buf, ds, r))
         (fun '(buf, ds, count) =>
            if count =? 1 then
              io_bind (io_lift (numeric_tuple buf ds 4 1))
                (fun '(buf, ds) => io_bind (io_write wr (firstn 1 buf)) (fun _ => io_ret ds))
            else io_ret ds))); [|reflexivity|exact Hb1].
  intros buf ds2 bs2 Hbuf Hb2.
  assert (r = 0 \/ r = 1 \/ r = 2) as [ -> | [ -> | -> ] ] by lia.
  - eapply refines_ext; [|apply refines_stop; exact Hb2]. intros. reflexivity.
  - change (Z.to_nat 1) with 1%nat. cbn [ref_numeric].
    eapply refines_ext; [|apply (refines_group (numeric_tuple buf ds2 4 1) (firstn 1) 4 bs2 _ (fun W wr _ ds' => io_ret ds'))].
    { intros. reflexivity. }
    + intros Hl. apply (numeric_tuple_short ds2 bs2); [exact Hb2|lia].
    + intros Hl. destruct buf as [|a [|b [|c [|]]]]; try discriminate.
      destruct (numeric_tuple_1 ds2 bs2 a b c Hb2 Hl) as (ds' & E & Hb').
      eexists _, ds'. split; [exact E|]. split; [reflexivity|]. apply refines_stop, Hb'.
  - change (Z.to_nat 2) with 2%nat. cbn [ref_numeric].
    eapply refines_ext; [|apply (refines_group (numeric_tuple buf ds2 7 2) (firstn 2) 7 bs2 _ (fun W wr _ ds' => io_ret ds'))].
    { intros. change (2 =? 2) with true. cbv iota. rewrite io_bind_assoc.
      unfold io_lift. unfold io_bind at 1 3. destruct (numeric_tuple buf ds2 7 2) as [[b' d']| | |]; auto.
      etransitivity; [apply io_bind_assoc|reflexivity]. }
    + intros Hl. apply (numeric_tuple_short ds2 bs2); [exact Hb2|lia].
    + intros Hl. destruct buf as [|a [|b [|c [|]]]]; try discriminate.
      destruct (numeric_tuple_2 ds2 bs2 a b c Hb2 Hl) as (ds' & E & Hb').
      eexists _, ds'. split; [exact E|]. split; [reflexivity|]. apply refines_stop, Hb'.
Qed.

(** * Alphanumeric *)
Lemma alpha_map_char t : 0 <= t ->
  @aget deqr_error Z ALPHA_MAP (Z.to_nat (t mod 45)) = Ok (ref_char t).
Proof.
  intros Ht. unfold ref_char. assert (H : In (t mod 45) (zrange 0 45)) by (apply in_zrange; lia).
  revert H. generalize (t mod 45). 
  assert (G : forallb (fun z => match @aget deqr_error Z ALPHA_MAP (Z.to_nat z) with
    | Ok c => c =? alphanumeric_char z | _ => false end) (zrange 0 45) = true) by (vm_compute; reflexivity).
  rewrite forallb_forall in G. intros z Hz. specialize (G z Hz).
  destruct (aget _ _); try discriminate. apply Z.eqb_eq in G. congruence.
Qed.

Lemma alpha_tuple_2 ds bs a b : at_bits ds bs -> (11 <= length bs)%nat ->
  let t := value_of (firstn 11 bs) in
  exists ds', alpha_tuple [a; b] ds 11 2 = Ok ([ref_char (t / 45); ref_char t], ds')
    /\ at_bits ds' (skipn 11 bs).
Proof.
  intros Hb Hl t. unfold alpha_tuple. rewrite (bits_remaining_ok _ _ Hb). cbn [bind].
  replace (_ <? _) with false by lia.
  destruct (take_bits_ok ds bs 11 Hb ltac:(lia)) as (ds' & -> & Hb'). exists ds'.
  split; [|exact Hb']. cbn [bind]. change (Z.to_nat 11) with 11%nat. fold t.
  assert (Ht : 0 <= t) by apply value_of_range. clearbody t.
  change (rev (range 0 2)) with [1; 0]%nat. cbn [for_each].
  rewrite alpha_map_char by lia. cbn [bind aset length Nat.ltb Nat.leb upd].
  rewrite alpha_map_char by lia. reflexivity.
Qed.

Lemma alpha_tuple_1 ds bs a b : at_bits ds bs -> (6 <= length bs)%nat ->
  let t := value_of (firstn 6 bs) in
  exists ds', alpha_tuple [a; b] ds 6 1 = Ok ([ref_char t; b], ds')
    /\ at_bits ds' (skipn 6 bs).
Proof.
  intros Hb Hl t. unfold alpha_tuple. rewrite (bits_remaining_ok _ _ Hb). cbn [bind].
  replace (_ <? _) with false by lia.
  destruct (take_bits_ok ds bs 6 Hb ltac:(lia)) as (ds' & -> & Hb'). exists ds'.
  split; [|exact Hb']. cbn [bind]. change (Z.to_nat 6) with 6%nat. fold t.
  assert (Ht : 0 <= t) by apply value_of_range. clearbody t.
  change (rev (range 0 1)) with [0]%nat. cbn [for_each].
  rewrite alpha_map_char by lia. reflexivity.
Qed.

Lemma alpha_tuple_short ds bs buf n d : at_bits ds bs -> Z.of_nat (length bs) < n ->
  alpha_tuple buf ds n d = Err DataUnderflow.
Proof.
  intros Hb Hl. unfold alpha_tuple. rewrite (bits_remaining_ok _ _ Hb). cbn [bind].
  replace (_ <? _) with true by lia. reflexivity.
Qed.

Lemma alpha_loop_refines (K : forall W, writer W -> list Z * CorrectedDataStream -> io W CorrectedDataStream) r :
  (forall buf ds bs, length buf = 2%nat -> at_bits ds bs ->
     refines (fun W wr => K W wr (buf, ds)) (ref_alphanumeric r bs)) ->
  forall n buf ds bs, length buf = 2%nat -> at_bits ds bs ->
  refines (fun W wr => io_bind (alpha_loop wr n buf ds) (K W wr)) (ref_alphanumeric (2 * n + r) bs).
Proof.
  intros HK. induction n as [|n IH]; intros buf ds bs Hbuf Hb.
  - eapply refines_ext; [|apply HK; eauto]. intros. reflexivity.
  - replace (2 * S n + r)%nat with (S (S (2 * n + r))) by lia. cbn [ref_alphanumeric].
    eapply refines_ext with (m' := fun W wr =>
      io_bind (io_lift (alpha_tuple buf ds 11 2))
        (fun '(buf', ds') => io_bind (io_write wr buf')
          (fun _ => io_bind (alpha_loop wr n buf' ds') (K W wr)))).
    { intros W wr w. cbn [alpha_loop]. rewrite io_bind_assoc.
      unfold io_lift. unfold io_bind at 1 3. destruct (alpha_tuple buf ds 11 2) as [[b' d']| | |]; auto.
      apply io_bind_assoc. }
    apply (refines_group _ (fun x => x) 11 bs _ (fun W wr buf' ds' => io_bind (alpha_loop wr n buf' ds') (K W wr))).
    + intros Hl. apply (alpha_tuple_short ds bs); [exact Hb|lia].
    + intros Hl. destruct buf as [|a [|b [|]]]; try discriminate.
      destruct (alpha_tuple_2 ds bs a b Hb Hl) as (ds' & E & Hb').
      eexists _, ds'. split; [exact E|]. split; [reflexivity|]. apply IH; [reflexivity|exact Hb'].
Qed.

Lemma decode_alpha_refines meta ds bs : at_bits ds bs ->
  let w := ref_count 9 11 13 (md_version meta) in
  refines (fun W wr => decode_alpha wr meta ds)
          (ref_alphanumeric (Z.to_nat (value_of (firstn w bs))) (skipn w bs)).
Proof.
  intros Hb w. unfold decode_alpha.
  set (nbits := if md_version meta <=? 9 then 9 else if md_version meta <=? 26 then 11 else 13).
  assert (Ew : w = Z.to_nat nbits).
  { unfold w, nbits, ref_count. destruct (_ <=? 9); [reflexivity|]. destruct (_ <=? 26); reflexivity. }
  assert (Hn : 0 <= nbits <= 64) by (unfold nbits; destruct (_ <=? 9); [lia|]; destruct (_ <=? 26); lia).
  destruct (take_bits_ok ds bs nbits Hb Hn) as (ds1 & E1 & Hb1). rewrite <- Ew in E1, Hb1.
  set (count := value_of (firstn w bs)) in *.
  assert (Hc : 0 <= count) by (apply value_of_range).
  eapply refines_ext with (m' := fun W wr =>
    io_bind (alpha_loop wr (Z.to_nat (count / 2)) [0; 0] ds1)
      (fun '(buf, ds) =>
            if count mod 2 =? 1 then
              io_bind (io_lift (alpha_tuple buf ds 6 1))
                (fun '(buf, ds) => io_bind (io_write wr (firstn 1 buf)) (fun _ => io_ret ds))
            else io_ret ds)).
  { intros W wr w0. rewrite E1. reflexivity. }
  rewrite (count_split count 2) by lia. change (Z.of_nat 2) with 2.
  assert (Hr : 0 <= count mod 2 < 2) by lia. revert Hr. generalize (count mod 2). intros r Hr.
  apply (alpha_loop_refines (fun W wr '(buf, ds) =>
            if r =? 1 then
              io_bind (io_lift (alpha_tuple buf ds 6 1))
                (fun '(buf, ds) => io_bind (io_write wr (firstn 1 buf)) (fun _ => io_ret ds))
            else io_ret ds)); [|reflexivity|exact Hb1].
  intros buf ds2 bs2 Hbuf Hb2.
  assert (r = 0 \/ r = 1) as [ -> | -> ] by lia.
  - eapply refines_ext; [|apply refines_stop; exact Hb2]. intros. reflexivity.
  - change (Z.to_nat 1) with 1%nat. cbn [ref_alphanumeric].
    eapply refines_ext; [|apply (refines_group (alpha_tuple buf ds2 6 1) (firstn 1) 6 bs2 _ (fun W wr _ ds' => io_ret ds'))].
    { intros. reflexivity. }
    + intros Hl. apply (alpha_tuple_short ds2 bs2); [exact Hb2|lia].
    + intros Hl. destruct buf as [|a [|b [|]]]; try discriminate.
      destruct (alpha_tuple_1 ds2 bs2 a b Hb2 Hl) as (ds' & E & Hb').
      eexists _, ds'. split; [exact E|]. split; [reflexivity|]. apply refines_stop, Hb'.
Qed.

(** * Bytes and kanji *)
Lemma take_full ds bs n : at_bits ds bs -> (n <= 64)%nat -> 
  exists ds', take_bits ds (Z.of_nat n) = Ok (value_of (firstn n bs), ds') /\ at_bits ds' (skipn n bs).
Proof.
  intros Hb Hn. destruct (take_bits_ok ds bs (Z.of_nat n) Hb ltac:(lia)) as (ds' & E & H).
  rewrite Nat2Z.id in *. eauto.
Qed.

Lemma kanji_sjis d : 0 <= d < 8192 -> kanji_bytes d = ref_sjis d.
Proof.
  intros Hd. unfold kanji_bytes, ref_sjis. cbn zeta.
  assert (El : Z.lor (Z.shiftl (d / 192) 8) (d mod 192) = d / 192 * 256 + d mod 192).
  { rewrite Z.shiftl_mul_pow2 by lia. change (2 ^ 8) with 256.
    rewrite Z.add_nocarry_lxor, Z.lxor_lor; [reflexivity| |].
    all: apply Z.bits_inj'; intros k Hk; rewrite Z.land_spec, Z.bits_0;
      destruct (Z.ltb_spec k 8);
      [change 256 with (2 ^ 8); rewrite Z.mul_pow2_bits_low by lia; reflexivity
      |rewrite andb_comm; destruct (Z.eq_dec (d mod 192) 0) as [->|];
        [rewrite Z.bits_0; reflexivity|];
       rewrite Z.bits_above_log2; [reflexivity|lia|apply Z.log2_lt_pow2; [lia|]];
       assert (2 ^ 8 <= 2 ^ k) by (apply Z.pow_le_mono_r; lia); lia]. }
  rewrite El. set (a := d / 192 * 256 + d mod 192).
  assert (Ha : 0 <= a <= 42 * 256 + 191) by (unfold a; lia). clearbody a.
  destruct (Z.leb_spec (a + 33088) 40956).
  - rewrite (Z.mod_small _ 65536) by lia. rewrite Z.shiftr_div_pow2 by lia. change (2 ^ 8) with 256.
    change 255 with (Z.ones 8). rewrite Z.land_ones by lia. change (2 ^ 8) with 256.
    rewrite (Z.mod_small (_ / _)) by lia. reflexivity.
  - replace (a + 33088 + 16384) with (a + 49472) by lia.
    rewrite (Z.mod_small _ 65536) by lia. rewrite Z.shiftr_div_pow2 by lia. change (2 ^ 8) with 256.
    change 255 with (Z.ones 8). rewrite Z.land_ones by lia. change (2 ^ 8) with 256.
    rewrite (Z.mod_small (_ / _)) by lia. reflexivity.
Qed.

Lemma byte_loop_refines n : forall ds bs, at_bits ds bs -> 
  refines (fun W wr => byte_loop wr n ds) (ref_chars 8 (fun b => [b]) n bs).
Proof.
  induction n as [|n IH]; intros ds bs Hb; cbn [byte_loop ref_chars].
  - apply refines_stop, Hb.
  - destruct (take_full ds bs 8 Hb ltac:(lia)) as (ds' & E & Hb'). change (Z.of_nat 8) with 8 in E.
    eapply refines_ext with (m' := fun W wr =>
      io_bind (io_write wr [value_of (firstn 8 bs) mod 256]) (fun _ => byte_loop wr n ds')).
    { intros W wr w. rewrite E. reflexivity. }
    assert (Hr : 0 <= value_of (firstn 8 bs) < 256).
    { pose proof (value_of_range (firstn 8 bs)). rewrite firstn_length in H.
      assert (2 ^ Z.of_nat (Nat.min 8 (length bs)) <= 2 ^ 8) by (apply Z.pow_le_mono_r; lia). lia. }
    rewrite Z.mod_small by exact Hr.
    apply (refines_write _ (fun W wr _ => byte_loop wr n ds')). apply IH, Hb'.
Qed.

Lemma kanji_loop_refines n : forall ds bs, at_bits ds bs -> 
  refines (fun W wr => kanji_loop wr n ds) (ref_chars 13 ref_sjis n bs).
Proof.
  induction n as [|n IH]; intros ds bs Hb; cbn [kanji_loop ref_chars].
  - apply refines_stop, Hb.
  - destruct (take_full ds bs 13 Hb ltac:(lia)) as (ds' & E & Hb'). change (Z.of_nat 13) with 13 in E.
    eapply refines_ext with (m' := fun W wr =>
      io_bind (io_write wr (kanji_bytes (value_of (firstn 13 bs)))) (fun _ => kanji_loop wr n ds')).
    { intros W wr w. rewrite E. reflexivity. }
    assert (Hr : 0 <= value_of (firstn 13 bs) < 8192).
    { pose proof (value_of_range (firstn 13 bs)). rewrite firstn_length in H.
      assert (2 ^ Z.of_nat (Nat.min 13 (length bs)) <= 2 ^ 13) by (apply Z.pow_le_mono_r; lia). lia. }
    rewrite kanji_sjis by exact Hr.
    apply (refines_write _ (fun W wr _ => kanji_loop wr n ds')). apply IH, Hb'.
Qed.

Lemma decode_byte_refines meta ds bs : at_bits ds bs ->
  let w := ref_count 8 16 16 (md_version meta) in
  refines (fun W wr => decode_byte wr meta ds)
          (ref_fixed 8 (fun b => [b]) (value_of (firstn w bs)) (skipn w bs)).
Proof.
  intros Hb w. unfold decode_byte.
  set (nbits := if md_version meta <=? 9 then 8 else 16).
  assert (Ew : w = Z.to_nat nbits).
  { unfold w, nbits, ref_count. destruct (_ <=? 9); [reflexivity|]. destruct (_ <=? 26); reflexivity. }
  assert (Hn : 0 <= nbits <= 64) by (unfold nbits; destruct (_ <=? 9); lia).
  destruct (take_bits_ok ds bs nbits Hb Hn) as (ds1 & E1 & Hb1). rewrite <- Ew in E1, Hb1.
  set (count := value_of (firstn w bs)) in *.
  eapply refines_ext with (m' := fun W wr =>
    if Z.of_nat (length (skipn w bs)) <? count * 8 then io_lift (Err DataUnderflow)
    else byte_loop wr (Z.to_nat count) ds1).
  { intros W wr w0. rewrite E1. cbn. rewrite (bits_remaining_ok _ _ Hb1). reflexivity. }
  unfold ref_fixed. change (Z.of_nat 8) with 8.
  destruct (_ <? _); [apply refines_underflow|apply byte_loop_refines, Hb1].
Qed.

Lemma decode_kanji_refines meta ds bs : at_bits ds bs ->
  let w := ref_count 8 10 12 (md_version meta) in
  refines (fun W wr => decode_kanji wr meta ds)
          (ref_fixed 13 ref_sjis (value_of (firstn w bs)) (skipn w bs)).
Proof.
  intros Hb w. unfold decode_kanji.
  set (nbits := if md_version meta <=? 9 then 8 else if md_version meta <=? 26 then 10 else 12).
  assert (Ew : w = Z.to_nat nbits).
  { unfold w, nbits, ref_count. destruct (_ <=? 9); [reflexivity|]. destruct (_ <=? 26); reflexivity. }
  assert (Hn : 0 <= nbits <= 64) by (unfold nbits; destruct (_ <=? 9); [lia|]; destruct (_ <=? 26); lia).
  destruct (take_bits_ok ds bs nbits Hb Hn) as (ds1 & E1 & Hb1). rewrite <- Ew in E1, Hb1.
  set (count := value_of (firstn w bs)) in *.
  eapply refines_ext with (m' := fun W wr =>
    if Z.of_nat (length (skipn w bs)) <? count * 13 then io_lift (Err DataUnderflow)
    else kanji_loop wr (Z.to_nat count) ds1).
  { intros W wr w0. rewrite E1. cbn. rewrite (bits_remaining_ok _ _ Hb1). reflexivity. }
  unfold ref_fixed. change (Z.of_nat 13) with 13.
  destruct (_ <? _); [apply refines_underflow|apply kanji_loop_refines, Hb1].
Qed.

(** * ECI *)
Lemma eci_flags bs : (8 <= length bs)%nat ->
  let e := value_of (firstn 8 bs) in
  (Z.land e 192 =? 128) = (match bs with true :: false :: _ => true | _ => false end) /\
  (Z.land e 224 =? 192) = (match bs with true :: true :: false :: _ => true | _ => false end).
Proof.
  intros H. do 8 (destruct bs as [|? bs]; [cbn in H; lia|]). cbn [firstn].
  destruct b, b0, b1; destruct b2, b3, b4, b5, b6; split; reflexivity.
Qed.

Lemma decode_eci_refines ds bs : at_bits ds bs ->
  refines (fun W wr => decode_eci ds) (ref_eci bs).
Proof.
  intros Hb. unfold decode_eci, ref_eci. 
  destruct (Nat.ltb_spec (length bs) 8) as [Hl|Hl].
  { eapply refines_ext; [|apply refines_underflow]. intros W wr w.
    rewrite (bits_remaining_ok _ _ Hb). cbn. replace (_ <? 8) with true by lia. reflexivity. }
  destruct (take_full ds bs 8 Hb ltac:(lia)) as (ds1 & E & Hb1). change (Z.of_nat 8) with 8 in E.
  destruct (eci_flags bs Hl) as [F1 F2].
  set (e := value_of (firstn 8 bs)) in *.
  assert (Hs : length (skipn 8 bs) = (length bs - 8)%nat) by apply skipn_length.
  eapply refines_ext with (m' := fun W wr =>
      if Z.land e 192 =? 128 then
        io_bind (io_lift (bits_remaining ds1)) (fun r => 
        if r <? 8 then io_lift (Err DataUnderflow)
        else io_bind (io_lift (take_bits ds1 8)) (fun '(_, ds) => io_ret ds))
      else if Z.land e 224 =? 192 then
        io_bind (io_lift (bits_remaining ds1)) (fun r => 
        if r <? 16 then io_lift (Err DataUnderflow)
        else io_bind (io_lift (take_bits ds1 16)) (fun '(_, ds) => io_ret ds))
      else io_ret ds1).
  { intros W wr w. rewrite (bits_remaining_ok _ _ Hb). cbn [io_bind io_lift].
    replace (_ <? 8) with false by lia. rewrite E. reflexivity. }
  rewrite F1, F2.
  assert (Hextra : forall n, (n <= 64)%nat ->
     refines (fun W wr => 
        io_bind (io_lift (bits_remaining ds1)) (fun r => 
        if r <? Z.of_nat n then io_lift (Err DataUnderflow)
        else io_bind (io_lift (take_bits ds1 (Z.of_nat n))) (fun '(_, ds) => io_ret ds)))
     (if (length bs <? 8 + n)%nat then ([], None) else ([], Some (skipn (8 + n) bs)))).
  { intros n Hn. destruct (Nat.ltb_spec (length bs) (8 + n)) as [H|H].
    - eapply refines_ext; [|apply refines_underflow]. intros W wr w.
      rewrite (bits_remaining_ok _ _ Hb1). cbn [io_bind io_lift].
      replace (_ <? Z.of_nat n) with true by lia. reflexivity.
    - destruct (take_full ds1 _ n Hb1 Hn) as (ds2 & E2 & Hb2).
      eapply refines_ext; [|apply (refines_stop ds2 (skipn (8 + n) bs))].
      + intros W wr w. rewrite (bits_remaining_ok _ _ Hb1). cbn [io_bind io_lift].
        replace (_ <? Z.of_nat n) with false by lia. rewrite E2. reflexivity.
      + rewrite skipn_skipn' in Hb2. exact Hb2. }
  assert (H0 : refines (fun W _ => io_ret ds1)
     (if (length bs <? 8 + 0)%nat then ([], None) else ([], Some (skipn (8 + 0) bs)))).
  { replace (length bs <? 8 + 0)%nat with false by lia. apply refines_stop, Hb1. }
  destruct bs as [|[] [|[] [|[] bs]]]; cbv iota; try exact H0;
    try exact (Hextra 8%nat ltac:(lia)); try exact (Hextra 16%nat ltac:(lia)).
Qed.

(** * The whole payload *)
Definition ending_res (e : ending) : res deqr_error unit :=
  match e with Complete => Ok tt | Underflow => Err DataUnderflow | UnknownMode => Err UnknownDataType end.

Lemma ref_segment_shorter v mode bs out rest :
  ref_segment v mode bs = Some (out, Some rest) -> (length rest <= length bs)%nat.
Proof.
  assert (G : forall n bs f k r, (forall b r, snd (k b) = Some r -> (length r <= length b)%nat) ->
     snd (group n bs f k) = Some r -> (length r <= length bs)%nat).
  { intros n b f k r Hk. unfold group. destruct (_ <? n)%nat; cbn [snd]; [discriminate|].
    unfold prepend. cbn [snd]. intros H. apply Hk in H. rewrite skipn_length in H. lia. }
  assert (G0 : forall b r, snd (stop b) = Some r -> (length r <= length b)%nat).
  { intros b r [= <-]. lia. }
  assert (Gn : forall n b r, snd (ref_numeric n b) = Some r -> (length r <= length b)%nat).
  { intros n. induction n as [n IH] using lt_wf_ind. destruct n as [|[|[|n]]]; intros b r; cbn [ref_numeric];
      [apply G0|apply G, G0|apply G, G0|apply G; apply (IH n); lia]. }
  assert (Ga : forall n b r, snd (ref_alphanumeric n b) = Some r -> (length r <= length b)%nat).
  { intros n. induction n as [n IH] using lt_wf_ind. destruct n as [|[|n]]; intros b r; cbn [ref_alphanumeric];
      [apply G0|apply G, G0|apply G; apply (IH n); lia]. }
  assert (Gc : forall w f n b r, snd (ref_chars w f n b) = Some r -> (length r <= length b)%nat).
  { intros w f. induction n as [|n IH]; intros b r; cbn [ref_chars]; auto.
    cbn [prepend snd]. intros H. apply IH in H. rewrite skipn_length in H. lia. }
  assert (Gf : forall w f n b r, snd (ref_fixed w f n b) = Some r -> (length r <= length b)%nat).
  { intros w f n b r. unfold ref_fixed. destruct (_ <? _); [discriminate|apply Gc]. }
  assert (Gk : forall n, (length (skipn n bs) <= length bs)%nat) by (intros; rewrite skipn_length; lia).
  unfold ref_segment.
  destruct (mode =? 1); [|destruct (mode =? 2); [|destruct (mode =? 4); [|destruct (mode =? 8);
    [|destruct (mode =? 7); [|discriminate]]]]]; intros [= H].
  - apply (f_equal snd) in H. apply Gn in H. etransitivity; [exact H|apply Gk].
  - apply (f_equal snd) in H. apply Ga in H. etransitivity; [exact H|apply Gk].
  - apply (f_equal snd) in H. apply Gf in H. etransitivity; [exact H|apply Gk].
  - apply (f_equal snd) in H. apply Gf in H. etransitivity; [exact H|apply Gk].
  - unfold ref_eci in H. destruct (_ <? _)%nat; [discriminate|].
    destruct (_ <? _)%nat; [discriminate|]. 
    match type of H with (_, Some ?x) = _ => assert (Er : rest = x) by congruence end.
    rewrite Er, skipn_length. lia.
Qed.

Definition segment_decoder (ty : Z) (meta : MetaData) (ds : CorrectedDataStream)
  : forall W, writer W -> io W CorrectedDataStream :=
  fun W wr =>
    if ty =? 1 then decode_numeric wr meta ds
    else if ty =? 2 then decode_alpha wr meta ds
    else if ty =? 4 then decode_byte wr meta ds
    else if ty =? 8 then decode_kanji wr meta ds
    else if ty =? 7 then decode_eci ds
    else io_lift (Err UnknownDataType).

Lemma segment_decoder_refines ty meta ds bs : at_bits ds bs ->
  match ref_segment (md_version meta) ty bs with
  | Some p => refines (segment_decoder ty meta ds) p
  | None => traced (segment_decoder ty meta ds) [] (Err UnknownDataType)
  end.
Proof.
  intros Hb. unfold ref_segment, segment_decoder. cbn zeta.
  destruct (ty =? 1); [apply decode_numeric_refines, Hb|].
  destruct (ty =? 2); [apply decode_alpha_refines, Hb|].
  destruct (ty =? 4); [apply decode_byte_refines, Hb|].
  destruct (ty =? 8); [apply decode_kanji_refines, Hb|].
  destruct (ty =? 7); [apply decode_eci_refines, Hb|].
  apply traced_lift.
Qed.

Lemma decode_payload_loop_refines meta n : forall fuel ds bs,
  at_bits ds bs -> (length bs < n)%nat -> (length bs < fuel)%nat ->
  exists chunks, concat chunks = fst (ref_payload n (md_version meta) bs) /\
    traced (fun W wr => decode_payload_loop wr fuel meta ds) chunks
           (ending_res (snd (ref_payload n (md_version meta) bs))).
Proof.
  induction n as [|n IH]; intros fuel ds bs Hb Hn Hf; [lia|].
  destruct fuel as [|fuel]; [lia|].
  cbn [ref_payload]. destruct (Nat.ltb_spec (length bs) 4) as [H4|H4].
  { exists []. split; [reflexivity|]. intros W wr w. cbn [decode_payload_loop].
    rewrite (bits_remaining_ok _ _ Hb). cbn [io_bind io_lift].
    replace (4 <=? _) with false by lia. reflexivity. }
  destruct (take_full ds bs 4 Hb ltac:(lia)) as (ds1 & E & Hb1). change (Z.of_nat 4) with 4 in E.
  set (ty := value_of (firstn 4 bs)) in *.
  assert (Estep : forall W (wr : writer W) w, decode_payload_loop wr (S fuel) meta ds w
    = (if ty =? 0 then io_ret tt
       else io_bind (segment_decoder ty meta ds1 W wr) (fun ds => decode_payload_loop wr fuel meta ds)) w).
  { intros W wr w. cbn [decode_payload_loop]. rewrite (bits_remaining_ok _ _ Hb). cbn [io_bind io_lift].
    replace (4 <=? _) with true by lia. rewrite E. reflexivity. }
  destruct (ty =? 0) eqn:E0.
  { exists []. split; [reflexivity|]. intros W wr w. rewrite Estep. reflexivity. }
  pose proof (segment_decoder_refines ty meta ds1 _ Hb1) as Hseg.
  destruct (ref_segment (md_version meta) ty (skipn 4 bs)) as [[out [rest|]]|] eqn:Eseg.
  - destruct Hseg as (cs & Hcs & ds2 & Hb2 & Ht). cbn [fst] in Hcs.
    apply ref_segment_shorter in Eseg. rewrite skipn_length in Eseg.
    destruct (IH fuel ds2 rest Hb2 ltac:(lia) ltac:(lia)) as (cs' & Hcs' & Ht').
    destruct (ref_payload n (md_version meta) rest) as [out' e']. cbn [fst snd] in *.
    exists (cs ++ cs'). split; [rewrite concat_app; congruence|].
    eapply traced_ext; [exact Estep|].
    apply (traced_bind_ok (segment_decoder ty meta ds1)
             (fun W wr ds => decode_payload_loop wr fuel meta ds) cs ds2 cs' _ Ht Ht').
  - destruct Hseg as (cs & Hcs & Ht). exists cs. split; [exact Hcs|].
    eapply traced_ext; [exact Estep|].
    apply (traced_bind_err (segment_decoder ty meta ds1)
             (fun W wr ds => decode_payload_loop wr fuel meta ds)), Ht.
  - exists []. split; [reflexivity|]. eapply traced_ext; [exact Estep|].
    apply (traced_bind_err (segment_decoder ty meta ds1)
             (fun W wr ds => decode_payload_loop wr fuel meta ds)), Hseg.
Qed.

(** On every well-formed stream, with every writer, decoding performs writes whose concatenation is
    the reference output, and ends as the reference says. *)
Theorem decode_payload_reference meta ds bs : at_bits ds bs ->
  exists chunks, concat chunks = fst (ref_decode (md_version meta) bs) /\
    forall W (wr : W -> list Z -> W * bool) w,
      decode_payload wr meta ds w
      = feed wr chunks (ending_res (snd (ref_decode (md_version meta) bs))) w.
Proof.
  intros Hb. pose proof (length_remaining ds (proj1 Hb)) as Hl. rewrite (proj2 Hb) in Hl.
  unfold ref_decode, decode_payload. apply decode_payload_loop_refines; [exact Hb|lia|lia].
Qed.
