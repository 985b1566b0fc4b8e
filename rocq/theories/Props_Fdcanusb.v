(** C24, C25, C26: the text spoken with the fdcanusb. *)
From Coq Require Import Ascii String ZArith List Bool Lia ZifyBool ZifyNat.
From Verif Require Import PyBase PyBytes Zbits Mux_Model Protocol_Spec Ctrl_Model Async Async_Proofs
  Serial Async_Inv Fdcanusb_Model.
Import ListNotations.
Open Scope Z_scope.
Ltac Zify.zify_post_hook ::= Z.div_mod_to_equations.

(** ** Specification of the text

    A hexadecimal digit, either case, and numbers written with them. *)
Definition hex_digit_of (c v : Z) : Prop :=
  (48 <= c <= 57 /\ v = c - 48) \/ (65 <= c <= 70 /\ v = c - 65 + 10) \/
  (97 <= c <= 102 /\ v = c - 97 + 10).

(** [hex_number w v]: the word [w], of one or more digits, denotes [v]. *)
Inductive hex_number : list Z -> Z -> Prop :=
| hn_one c v : hex_digit_of c v -> hex_number [c] v
| hn_more w v c d : hex_number w v -> hex_digit_of c d -> hex_number (w ++ [c]) (16 * v + d).

(** [hex_bytes w d]: two digits for each byte. *)
Inductive hex_bytes : list Z -> list Z -> Prop :=
| hb_nil : hex_bytes [] []
| hb_cons a b x y w d : hex_digit_of a x -> hex_digit_of b y -> hex_bytes w d ->
    hex_bytes (a :: b :: w) (16 * x + y :: d).

(** ** C24 *)
Lemma hex_digit_value c v : hex_digit_of c v <-> digit_value c = Some v.
Proof.
  unfold hex_digit_of, digit_value.
  destruct ((48 <=? c) && (c <=? 57)) eqn:E1; [|destruct ((65 <=? c) && (c <=? 70)) eqn:E2;
    [|destruct ((97 <=? c) && (c <=? 102)) eqn:E3]]; split; intros H;
    try (injection H as <-); try discriminate; try (f_equal; lia); lia.
Qed.

Lemma hex_char_digit u d : 0 <= d < 16 -> hex_digit_of (hex_char u d) d.
Proof. unfold hex_digit_of, hex_char. intros H. destruct u, (d <? 10) eqn:E; lia. Qed.

Lemma hex_digits_number u n : forall z, 0 <= z -> z < 16 ^ Z.of_nat (S n) ->
  hex_number (hex_digits u (S n) z) z.
Proof.
  induction n as [|n IH]; intros z H0 H.
  - cbn in *. rewrite Z.mod_small by lia. constructor. apply hex_char_digit. lia.
  - change (hex_digits u (S (S n)) z)
      with (hex_digits u (S n) (z / 16) ++ [hex_char u (z mod 16)]).
    rewrite (Z.div_mod z 16) at 3 by lia. constructor.
    + apply IH; [lia|]. rewrite (Nat2Z.inj_succ (S n)), Z.pow_succ_r in H by lia. lia.
    + apply hex_char_digit. lia.
Qed.

Lemma hex_number_zeros n w v : hex_number w v -> hex_number (repeat 48 n ++ w) v.
Proof.
  induction n as [|n IH]; intros H; auto. specialize (IH H). cbn. clear H.
  revert IH. generalize (repeat 48 n ++ w) as l. intros l H.
  induction H as [c v H|w' v c d H IH Hd].
  - change [48; c] with ([48] ++ [c]). replace v with (16 * 0 + v) by lia. constructor; auto.
    constructor. left. lia.
  - rewrite app_comm_cons. constructor; auto.
Qed.

Lemma format_hex_number u width z : 0 <= z -> hex_number (format_hex u width z) z.
Proof.
  intros H. unfold format_hex. replace (z <? 0) with false by lia.
  rewrite Z.abs_eq by lia. apply hex_number_zeros. apply hex_digits_number; auto.
  destruct (Z.eq_dec z 0) as [->|N].
  - apply Z.pow_pos_nonneg; lia.
  - change 16 with (2 ^ 4). rewrite <- Z.pow_mul_r by lia.
    apply Z.lt_le_trans with (2 ^ Z.succ (Z.log2 z)).
    + apply Z.log2_spec. lia.
    + apply Z.pow_le_mono_r; [lia|]. pose proof (Z.log2_nonneg z). lia.
Qed.

Lemma format_byte b : 0 <= b < 256 ->
  format_hex true 2 b = [hex_char true (b / 16); hex_char true (b mod 16)].
Proof.
  intros H. unfold format_hex. replace (b <? 0) with false by lia. rewrite Z.abs_eq by lia.
  destruct (Z.lt_ge_cases b 16).
  - replace (Z.log2 b / 4) with 0.
    + change (Z.to_nat 0) with 0%nat. cbn [hex_digits repeat Nat.sub app].
      rewrite (Z.mod_small b), (Z.div_small b) by lia. reflexivity.
    + symmetry. apply Z.div_small. split; [apply Z.log2_nonneg|].
      destruct (Z.eq_dec b 0) as [->|]; [reflexivity|]. apply Z.log2_lt_pow2; lia.
  - replace (Z.log2 b / 4) with 1.
    + change (Z.to_nat 1) with 1%nat. cbn [hex_digits repeat Nat.sub app].
      rewrite (Z.mod_small (b / 16)) by lia. reflexivity.
    + assert (4 <= Z.log2 b) by (apply Z.log2_le_pow2; lia).
      assert (Z.log2 b < 8) by (apply Z.log2_lt_pow2; lia). lia.
Qed.

Lemma hex_bytes_app w d w' d' : hex_bytes w d -> hex_bytes w' d' ->
  hex_bytes (w ++ w') (d ++ d').
Proof. induction 1; cbn; auto. constructor; auto. Qed.

Lemma hexify_bytes data : bytes_ok data -> hex_bytes (hexify data) data.
Proof.
  unfold hexify. induction 1 as [|b l H L IH]; [constructor|].
  change (hex_bytes (format_hex true 2 b ++ concat (map (fun x => format_hex true 2 x) l)) (b :: l)).
  rewrite format_byte by exact H. cbn [app]. rewrite (Z.div_mod b 16) at 3 by lia.
  unfold byte_ok in H. constructor; auto; apply hex_char_digit; lia.
Qed.

(** The lengths a CAN-FD frame can have, and the NOPs that fill a frame up to
    the next of them; a frame longer than all of them is left as it is. *)
Definition fd_lengths : list Z := [0; 1; 2; 3; 4; 5; 6; 7; 8; 12; 16; 20; 24; 32; 48; 64].
Definition padding (n : Z) : list Z :=
  match find (fun m => n <=? m) fd_lengths with
  | Some m => repeat 0x50 (Z.to_nat (m - n))
  | None => []
  end.

Lemma padding_dlc n : 0 <= n -> padding n = repeat 0x50 (Z.to_nat (round_up_dlc n - n)).
Proof.
  intro H. unfold padding, fd_lengths, round_up_dlc. cbn [find].
  repeat match goal with |- context [n <=? ?m] => destruct (Z.leb_spec n m) end;
    try lia; try (f_equal; lia).
  replace (n - n) with 0 by lia. reflexivity.
Qed.

(** The line sent is "can send <id> <data>", where <id> is the bus id and
    <data> the bytes of the command followed by padding, then the flag that
    disables bit rate switching if asked for, then a newline. *)
Theorem C24_line : forall brs c, bytes_ok (cmd_data c) -> 0 <= bus_id c ->
  exists id data,
    send_line brs c = lit "can send " ++ id ++ lit " " ++ data ++
                      (if brs then lit " b" else []) ++ [LF] /\
    hex_number id (bus_id c) /\ (4 <= List.length id)%nat /\
    hex_bytes data (cmd_data c ++ padding (Z.of_nat (List.length (cmd_data c)))).
Proof.
  intros brs c D I. unfold send_line. eexists _, _. split; [reflexivity|].
  split; [now apply format_hex_number|]. split.
  - unfold format_hex. replace (bus_id c <? 0) with false by lia.
    rewrite app_length, repeat_length.
    assert (forall u n z, List.length (hex_digits u n z) = n) as L.
    { induction n as [|n IH]; intros z; cbn; auto. rewrite app_length, IH. cbn. lia. }
    rewrite L. lia.
  - apply hex_bytes_app; [now apply hexify_bytes|]. rewrite padding_dlc by lia.
    induction (Z.to_nat _) as [|n IH]; [constructor|]. cbn.
    apply (hb_cons 53 48 5 0); auto; unfold hex_digit_of; lia.
Qed.

(** The bus id of a command: the protocol puts the destination in bits 0-7,
    the source in bits 8-14, the reply request in bit 15 and the prefix in
    bits 16 and up (docs/reference.md:437-446); the source sent is 0. *)
Theorem C24_bus_id : forall c, cmd_raw c = false -> 0 <= cmd_destination c < 256 ->
  0 <= cmd_can_prefix c ->
  let id := bus_id c in
  0 <= id /\ id mod 256 = cmd_destination c /\ (id / 256) mod 128 = 0 /\
  ((id / 32768) mod 2 = if cmd_reply_required c then 1 else 0) /\
  id / 65536 = cmd_can_prefix c.
Proof.
  intros c R D P. unfold bus_id. rewrite R.
  assert (E : Z.lor (cmd_destination c) (if cmd_reply_required c then 0x8000 else 0) =
          cmd_destination c + (if cmd_reply_required c then 0x8000 else 0)).
  { destruct (cmd_reply_required c); [|rewrite Z.lor_0_r; lia].
    change 0x8000 with (Z.shiftl 1 15) at 1. rewrite lor_shiftl_add by lia. lia. }
  rewrite E. rewrite lor_shiftl_add by (destruct (cmd_reply_required c); lia).
  destruct (cmd_reply_required c); cbv zeta; lia.
Qed.

(** The source of a command is not sent: two commands that differ in it
    give the same line. *)
Theorem C24_source_refuted : exists c c' : command, cmd_source c <> cmd_source c' /\
  forall brs, send_line brs c = send_line brs c'.
Proof.
  pose (mk src := {| cmd_destination := 1; cmd_source := src; cmd_reply_required := true;
                     cmd_data := [1; 2]; cmd_can_prefix := 0; cmd_expected_reply_size := 0;
                     cmd_raw := false; cmd_arbitration_id := 0 |}).
  exists (mk 0), (mk 5). split; [discriminate|]. reflexivity.
Qed.

(** A raw command is sent with its own id. *)
Theorem C24_raw_id : forall c, cmd_raw c = true -> bus_id c = cmd_arbitration_id c.
Proof. intros c H. unfold bus_id. now rewrite H. Qed.

Lemma hex_number_value w v : hex_number w v -> forall acc l,
  int_digits false acc (w ++ l) = int_digits false (acc * 16 ^ Z.of_nat (List.length w) + v) l.
Proof.
  induction 1 as [c v H|w v c d H IH Hd]; intros acc l.
  - apply hex_digit_value in H. cbn. rewrite H. f_equal; lia.
  - rewrite <- app_assoc, IH. apply hex_digit_value in Hd. cbn [app int_digits]. rewrite Hd.
    rewrite app_length, Nat.add_1_r, Nat2Z.inj_succ, Z.pow_succ_r by lia. f_equal; lia.
Qed.

Lemma digit_not_space c v : digit_value c = Some v -> is_space c = false.
Proof.
  intros H. apply hex_digit_value in H. unfold hex_digit_of, is_space in *.
  destruct ((9 <=? c) && (c <=? 13)) eqn:E1, (c =? 32) eqn:E2; auto; lia.
Qed.

Lemma hex_number_hd w v : hex_number w v -> exists c d w', w = c :: w' /\ digit_value c = Some d.
Proof.
  induction 1 as [c v H|w v c d H (c' & d' & w' & -> & Hc) Hd].
  - apply hex_digit_value in H. eauto.
  - exists c', d', (w' ++ [c]). auto.
Qed.

Lemma hex_number_digits w v : hex_number w v -> Forall (fun c => exists d, digit_value c = Some d) w.
Proof.
  induction 1 as [c v H|w v c d H IH Hd].
  - apply hex_digit_value in H. eauto.
  - apply Forall_app. split; auto. apply hex_digit_value in Hd. eauto.
Qed.

(** int(s, 16) reads the number. *)
Lemma int16_number w v : hex_number w v -> int16 w = Ok v.
Proof.
  intros H. pose proof (hex_number_digits w v H) as D.
  destruct (hex_number_hd w v H) as (c & d & w' & -> & Hc).
  unfold int16. cbn [drop_space]. rewrite (digit_not_space _ _ Hc).
  assert ((c =? 43) = false /\ (c =? 45) = false) as [-> ->].
  { apply hex_digit_value in Hc. unfold hex_digit_of in Hc. lia. }
  assert ((match c :: w' with
    | z :: x :: s' =>
        if (z =? 48) && ((x =? 120) || (x =? 88)) then
          match s' with u :: s'' => if u =? 95 then s'' else s' | [] => s' end
        else c :: w'
    | _ => c :: w'
    end) = c :: w') as ->.
  { inversion D as [|? ? _ D']; subst. destruct w' as [|x s']; auto.
    inversion D' as [|? ? (e & He) _]; subst. apply hex_digit_value in He.
    unfold hex_digit_of in He.
    replace ((x =? 120) || (x =? 88)) with false by lia. now rewrite andb_false_r. }
  rewrite Hc.
  pose proof (hex_number_value _ _ H 0 []) as E. rewrite app_nil_r in E. rewrite E.
  cbn. reflexivity.
Qed.

Lemma hex_pair a b x y : hex_digit_of a x -> hex_digit_of b y -> hex_number [a; b] (16 * x + y).
Proof. intros Ha Hb. change [a; b] with ([a] ++ [b]). constructor; auto. now constructor. Qed.

Lemma hex_digit_range c v : hex_digit_of c v -> 0 <= v < 16.
Proof. unfold hex_digit_of. lia. Qed.

Lemma dehexify_bytes w d : hex_bytes w d -> dehexify w = Ok d.
Proof.
  induction 1 as [|a b x y w d Ha Hb H IH]; [reflexivity|].
  cbn [dehexify]. rewrite (int16_number _ _ (hex_pair _ _ _ _ Ha Hb)). cbn [bind].
  unfold one_byte, byte_okb. apply hex_digit_range in Ha, Hb.
  replace (_ && _) with true by lia. cbn [bind]. now rewrite IH.
Qed.

(** What is written reads back. *)
Theorem C24_round_trip : forall data, bytes_ok data -> dehexify (hexify data) = Ok data.
Proof. intros data H. now apply dehexify_bytes, hexify_bytes. Qed.

Lemma split_on_word sep w l : ~ In sep w ->
  split_on sep (w ++ sep :: l) = w :: split_on sep l.
Proof.
  intros H. induction w as [|c w IH]; cbn.
  - now rewrite Z.eqb_refl.
  - cbn in H. replace (c =? sep) with false by lia. rewrite IH by tauto. reflexivity.
Qed.

Lemma digit_not_32 c v : hex_digit_of c v -> c <> 32.
Proof. unfold hex_digit_of. lia. Qed.

Lemma hex_number_no_space w v : hex_number w v -> ~ In 32 w.
Proof.
  induction 1 as [c v H|w v c d H IH Hd]; intros Hi.
  - destruct Hi as [->|[]]. now apply digit_not_32 in H.
  - apply in_app_or in Hi. destruct Hi as [Hi|[->|[]]]; auto. now apply digit_not_32 in Hd.
Qed.

Lemma hex_bytes_no_space w d : hex_bytes w d -> ~ In 32 w.
Proof.
  induction 1 as [|a b x y w d Ha Hb H IH]; cbn; auto.
  apply digit_not_32 in Ha, Hb. intuition.
Qed.

(** A line "rcv <id> <data> <flags>" is read as the message with that id and
    data, whatever the case and the width of the id, whatever follows. *)
Theorem C24_receive : forall id n w data rest,
  hex_number id n -> hex_bytes w data ->
  parse_rcv (lit "rcv " ++ id ++ [32] ++ w ++ [32] ++ rest)
    = Ok {| m_arbitration_id := n; m_data := data |}.
Proof.
  intros id n w data rest Hi Hw. unfold parse_rcv.
  change (lit "rcv ") with (lit "rcv" ++ [32]). rewrite <- !app_assoc. cbn [app].
  rewrite split_on_word by (cbn; lia).
  rewrite split_on_word by (eapply hex_number_no_space; eauto).
  rewrite split_on_word by (eapply hex_bytes_no_space; eauto).
  cbn [nth_error]. rewrite (dehexify_bytes _ _ Hw). cbn [bind].
  rewrite (int16_number _ _ Hi). reflexivity.
Qed.

(** Without a space after the data the newline is taken for a digit: such a
    line is refused. *)
Theorem C24_receive_bare_refuted : exists id n w data,
  hex_number id n /\ hex_bytes w data /\
  parse_rcv (lit "rcv " ++ id ++ [32] ++ w ++ [LF]) = Raise ValueError.
Proof.
  exists (lit "100"), 256, (lit "0A"), [10]. split; [|split].
  - change (lit "100") with (([49] ++ [48]) ++ [48]).
    replace 256 with (16 * (16 * 1 + 0) + 0) by lia.
    repeat constructor; unfold hex_digit_of; lia.
  - apply (hb_cons 48 65 0 10); [| |constructor]; unfold hex_digit_of; lia.
  - reflexivity.
Qed.

(** ** C25 *)

(** The lengths a CAN-FD frame can have. *)
Definition can_fd_length (n : Z) : Prop :=
  0 <= n <= 8 \/ In n [12; 16; 20; 24; 32; 48; 64].

(** A frame of at most 64 bytes is padded to the least possible length. *)
Theorem C25_least_length : forall n, 0 <= n <= 64 ->
  can_fd_length (round_up_dlc n) /\ n <= round_up_dlc n /\
  forall m, can_fd_length m -> n <= m -> round_up_dlc n <= m.
Proof.
  intros n H. unfold can_fd_length, round_up_dlc.
  repeat match goal with
         | |- context [if ?b then _ else _] => destruct b eqn:?
         end;
    (split; [cbn; lia|]); (split; [lia|]); intros m Hm; cbn in Hm; lia.
Qed.

(** The padded length of the frame sent. *)
Theorem C25_padded : forall d : list Z, (List.length d <= 64)%nat ->
  Z.of_nat (List.length (d ++ padding (Z.of_nat (List.length d)))) =
  round_up_dlc (Z.of_nat (List.length d)).
Proof.
  intros d H. rewrite padding_dlc by lia. rewrite app_length, repeat_length.
  pose proof (C25_least_length (Z.of_nat (List.length d)) ltac:(lia)). lia.
Qed.

(** A frame that is longer than any CAN-FD frame is sent as it is. *)
Theorem C25_oversize : forall n, 64 < n -> round_up_dlc n = n /\ padding n = [].
Proof.
  intros n H. rewrite padding_dlc by lia. unfold round_up_dlc.
  destruct (n <=? 8) eqn:E8; [lia|]. destruct (n <=? 12) eqn:E12; [lia|].
  destruct (n <=? 16) eqn:E16; [lia|]. destruct (n <=? 20) eqn:E20; [lia|].
  destruct (n <=? 24) eqn:E24; [lia|]. destruct (n <=? 32) eqn:E32; [lia|].
  destruct (n <=? 48) eqn:E48; [lia|]. destruct (n <=? 64) eqn:E64; [lia|].
  now rewrite Z.sub_diag.
Qed.

Lemma spec_varuint_app n : forall l v rest x, spec_varuint_n n l = Some (v, rest) ->
  spec_varuint_n n (l ++ x) = Some (v, rest ++ x).
Proof.
  induction n as [|n IH]; intros [|b l] v rest x H; try discriminate. cbn in *.
  destruct (b <? 128); [now injection H as <- <-|].
  destruct (spec_varuint_n n l) as [[v' l']|] eqn:E; [|discriminate].
  injection H as <- <-. now rewrite (IH _ _ _ x E).
Qed.

Lemma spec_values_app k r n : forall reg l acc rest x,
  spec_values k r n reg l = Some (acc, rest) ->
  spec_values k r n reg (l ++ x) = Some (acc, rest ++ x).
Proof.
  induction n as [|n IH]; intros reg l acc rest x H; cbn [spec_values] in *.
  - now injection H as <- <-.
  - set (w := match k with KRead => 0%nat | _ => spec_width r end) in *.
    destruct (List.length l <? w)%nat eqn:E; [discriminate|].
    rewrite app_length. replace (List.length l + List.length x <? w)%nat with false by lia.
    rewrite firstn_app, skipn_app. replace (w - List.length l)%nat with 0%nat by lia.
    cbn [firstn skipn]. rewrite app_nil_r.
    destruct (spec_values k r n (reg + 1) (skipn w l)) as [[acc' l']|] eqn:E2; [|discriminate].
    rewrite (IH _ _ _ _ x E2). now injection H as <- <-.
Qed.

Lemma spec_decode_nops m : forall fuel, (m <= fuel)%nat ->
  spec_decode_n fuel (repeat 0x50 m) = Some [].
Proof.
  induction m as [|m IH]; intros [|fuel] H; try lia; auto. cbn. apply IH. lia.
Qed.

Lemma spec_decode_pad fuel : forall l acc m fuel', spec_decode_n fuel l = Some acc ->
  (fuel + m <= fuel')%nat -> spec_decode_n fuel' (l ++ repeat 0x50 m) = Some acc.
Proof.
  induction fuel as [|fuel IH]; intros l acc m fuel' H L.
  - destruct l; [|discriminate]. injection H as <-. apply spec_decode_nops. lia.
  - destruct l as [|c l].
    + injection H as <-. apply spec_decode_nops. lia.
    + destruct fuel' as [|fuel']; [lia|]. cbn [spec_decode_n app] in *.
      destruct (c =? 80); [apply (IH _ _ m fuel' H); lia|].
      destruct ((0 <=? c) && (c <? 48)); [|discriminate].
      destruct (if c mod 4 =? 0 then spec_varuint l else Some (c mod 4, l))
        as [[count l1]|] eqn:E1; [|discriminate].
      assert ((if c mod 4 =? 0 then spec_varuint (l ++ repeat 80 m)
               else Some (c mod 4, l ++ repeat 80 m)) = Some (count, l1 ++ repeat 80 m)) as ->.
      { destruct (c mod 4 =? 0); [now apply spec_varuint_app|congruence]. }
      destruct (spec_varuint l1) as [[reg l2]|] eqn:E2; [|discriminate].
      assert (spec_varuint (l1 ++ repeat 80 m) = Some (reg, l2 ++ repeat 80 m)) as ->
        by (now apply spec_varuint_app).
      destruct (spec_values _ _ _ reg l2) as [[acc1 l3]|] eqn:E3; [|discriminate].
      rewrite (spec_values_app _ _ _ _ _ _ _ (repeat 80 m) E3).
      destruct (spec_decode_n fuel l3) as [acc2|] eqn:E4; [|discriminate].
      rewrite (IH _ _ m fuel' E4) by lia. exact H.
Qed.

(** The padding does not change what the frame asks for. *)
Theorem C25_same_meaning : forall d acc, spec_decode d = Some acc ->
  spec_decode (d ++ padding (Z.of_nat (List.length d))) = Some acc.
Proof.
  intros d acc H. rewrite padding_dlc by lia. unfold spec_decode in *.
  apply (spec_decode_pad _ _ _ _ _ H). rewrite app_length, repeat_length. lia.
Qed.

(** ** C26 *)

(** Reading as a function of the byte stream alone: the result and the bytes
    left over; [None] when more bytes are needed. *)
Definition reading (A : Type) := list Z -> option (res A * list Z).

(** [reads_as p f]: whatever [buf] is already buffered and whatever the
    chunks the port then delivers are, [p] does what [f] says of the stream,
    leaving the rest of the stream for the next reader. *)
Definition reads_as {A} (p : F A) (f : reading A) : Prop :=
  forall (buf : list Z) (chunks : list (list Z)),
  match f (buf ++ concat chunks) with
  | Some (r, rest) =>
      exists chunks' buf' n,
        runs p buf (map Ok chunks) (finish r buf' (map Ok chunks')) (repeat SerialRead n) /\
        buf' ++ concat chunks' = rest
  | None =>
      exists buf',
      runs p buf (map Ok chunks) (Waiting buf' SerialRead)
        (repeat SerialRead (S (List.length chunks)))
  end.

Definition newline (b : Z) : bool := (b =? CR) || (b =? LF).

(** The next line that is not empty, with its end; [acc] is the part of the
    line already seen. *)
Fixpoint next_line (acc l : list Z) : option (list Z * list Z) :=
  match l with
  | [] => None
  | b :: l =>
      if newline b then
        match acc with
        | [] => next_line [] l
        | _ => Some (acc ++ [b], l)
        end
      else next_line (acc ++ [b]) l
  end.

Lemma find_newline_cons b l : find_newline (b :: l) =
  if newline b then Some 0%nat else option_map S (find_newline l).
Proof.
  unfold find_newline, newline. cbn.
  destruct (b =? CR) eqn:E1, (b =? LF) eqn:E2; cbn;
    try destruct (bytes_find CR l); try destruct (bytes_find LF l); cbn; try reflexivity.
Qed.

Lemma find_newline_app a b i : find_newline a = Some i -> find_newline (a ++ b) = Some i.
Proof.
  revert i. induction a as [|x a IH]; intros i; [discriminate|].
  cbn [app]. rewrite !find_newline_cons. destruct (newline x); auto.
  destruct (find_newline a); [|discriminate]. intros E. now rewrite (IH _ eq_refl).
Qed.

Lemma find_newline_lt a i : find_newline a = Some i -> (i < List.length a)%nat.
Proof.
  revert i. induction a as [|x a IH]; intros i; [discriminate|].
  rewrite find_newline_cons. destruct (newline x); cbn.
  - intros [= <-]. lia.
  - destruct (find_newline a); [|discriminate]. intros [= <-].
    specialize (IH _ eq_refl). lia.
Qed.

Lemma next_line_step l : forall acc, next_line acc l =
  match find_newline l with
  | None => None
  | Some i =>
      match acc ++ firstn i l with
      | [] => next_line [] (skipn (i + 1) l)
      | line => Some (line ++ firstn 1 (skipn i l), skipn (i + 1) l)
      end
  end.
Proof.
  induction l as [|b l IH]; intros acc; [reflexivity|].
  cbn [next_line]. rewrite find_newline_cons.
  destruct (newline b).
  - cbn. rewrite app_nil_r. destruct acc; reflexivity.
  - rewrite IH. destruct (find_newline l) as [i|]; [|reflexivity].
    cbn. rewrite <- app_assoc. reflexivity.
Qed.

Lemma first_then_rest i : forall l : list Z,
  firstn i l ++ firstn 1 (skipn i l) = firstn (i + 1) l.
Proof.
  induction i as [|i IH]; intros [|b l]; auto.
  change (firstn (S i) (b :: l)) with (b :: firstn i l).
  change (skipn (S i) (b :: l)) with (skipn i l).
  change (firstn (S i + 1) (b :: l)) with (b :: firstn (i + 1) l).
  rewrite <- IH. reflexivity.
Qed.

Lemma next_line_find l : next_line [] l =
  match find_newline l with
  | None => None
  | Some i => if (0 <? i)%nat then Some (firstn (i + 1) l, skipn (i + 1) l)
              else next_line [] (skipn (i + 1) l)
  end.
Proof.
  rewrite next_line_step. destruct (find_newline l) as [i|] eqn:E; [|reflexivity].
  apply find_newline_lt in E. destruct i as [|i]; [reflexivity|].
  cbn [app]. rewrite <- (first_then_rest (S i) l).
  destruct l as [|b l]; [cbn in E; lia|]. reflexivity.
Qed.

Lemma next_line_app l : forall acc x r m, next_line acc l = Some (x, r) ->
  next_line acc (l ++ m) = Some (x, r ++ m).
Proof.
  induction l as [|b l IH]; intros acc x r m H; [discriminate|]. cbn in *.
  destruct (newline b); [|auto]. destruct acc; [auto|]. now injection H as <- <-.
Qed.

(** _readline returns the next line of the stream that is not empty, however
    the stream is cut into chunks, and leaves exactly what follows it. *)
Theorem C26_readline : reads_as can_readline
  (fun l => match next_line [] l with Some (x, r) => Some (Ok x, r) | None => None end).
Proof.
  intros buf chunks.
  remember (List.length (buf ++ concat chunks) + List.length chunks)%nat as m eqn:Em.
  revert buf chunks Em. induction m as [m IH] using lt_wf_ind. intros buf chunks Em.
  rewrite next_line_find.
  destruct (find_newline buf) as [i|] eqn:E.
  - rewrite (find_newline_app _ _ _ E).
    pose proof (find_newline_lt _ _ E) as L.
    rewrite firstn_app, skipn_app. replace (i + 1 - List.length buf)%nat with 0%nat by lia.
    cbn [firstn skipn]. rewrite app_nil_r.
    destruct (0 <? i)%nat eqn:Ei.
    + exists chunks, (skipn (i + 1) buf), 0%nat. split; [|reflexivity].
      apply runs_loop. unfold unroll. cbn [pbind]. apply runs_get. rewrite E.
      cbn [pbind]. apply runs_put. rewrite Ei. cbn [pbind]. apply runs_ret.
    + specialize (IH (List.length (skipn (i + 1) buf ++ concat chunks) + List.length chunks)%nat
        ltac:(rewrite !app_length, skipn_length in *; lia) (skipn (i + 1) buf) chunks eq_refl).
      assert (forall o qs, runs can_readline (skipn (i + 1) buf) (map Ok chunks) o qs ->
        runs can_readline buf (map Ok chunks) o qs) as T.
      { intros o qs R. apply runs_loop. unfold unroll. cbn [pbind]. apply runs_get. rewrite E.
        cbn [pbind]. apply runs_put. rewrite Ei. cbn [pbind]. exact R. }
      destruct (next_line [] _) as [[x r]|].
      * destruct IH as (c' & b' & n & R & Er). exists c', b', n. split; auto.
      * destruct IH as (b' & R). exists b'. auto.
  - destruct chunks as [|c chunks].
    + cbn [concat]. rewrite app_nil_r, E. exists buf.
      apply runs_loop. unfold unroll. cbn [pbind]. apply runs_get. rewrite E.
      cbn [pbind await]. apply runs_wait.
    + specialize (IH (List.length ((buf ++ c) ++ concat chunks) + List.length chunks)%nat
        ltac:(cbn [concat List.length] in *; rewrite !app_length in *; lia) (buf ++ c) chunks eq_refl).
      cbn [concat]. rewrite app_assoc, <- next_line_find.
      assert (forall o qs, runs can_readline (buf ++ c) (map Ok chunks) o qs ->
        runs can_readline buf (map Ok (c :: chunks)) o (SerialRead :: qs)) as T.
      { intros o qs R. apply runs_loop. unfold unroll. cbn [pbind]. apply runs_get. rewrite E.
        cbn [pbind await map]. apply runs_await. cbn [lift pbind]. apply runs_put. exact R. }
      destruct (next_line [] _) as [[x r]|].
      * destruct IH as (c' & b' & n & R & Er). exists c', b', (S n). split; auto. cbn. auto.
      * destruct IH as (b' & R). exists b'. cbn. auto.
Qed.

(** All the lines of a stream that are not empty, with their ends; an
    unfinished last line is not one. *)
Fixpoint lines (acc l : list Z) : list (list Z) :=
  match l with
  | [] => []
  | b :: l =>
      if newline b then
        match acc with
        | [] => lines [] l
        | _ => (acc ++ [b]) :: lines [] l
        end
      else lines (acc ++ [b]) l
  end.
(** The unfinished last line. *)
Fixpoint unfinished (acc l : list Z) : list Z :=
  match l with
  | [] => acc
  | b :: l => if newline b then unfinished [] l else unfinished (acc ++ [b]) l
  end.

(** [n] reads one after the other. *)
Fixpoint read_lines (n : nat) : F (list (list Z)) :=
  match n with
  | O => Ret []
  | S n => do l <- can_readline; do ls <- read_lines n; Ret (l :: ls)
  end.

Lemma lines_next l : forall acc, lines acc l =
  match next_line acc l with Some (x, r) => x :: lines [] r | None => [] end.
Proof.
  induction l as [|b l IH]; intros acc; [reflexivity|]. cbn.
  destruct (newline b); auto. destruct acc; auto.
Qed.

Lemma reads_bind A B (p : F A) (k : A -> F B) f g :
  reads_as p f -> (forall a, reads_as (k a) (g a)) ->
  reads_as (pbind p k)
    (fun l => match f l with
              | Some (Ok a, rest) => g a rest
              | Some (Raise e, rest) => Some (Raise e, rest)
              | None => None
              end).
Proof.
  intros Hp Hk buf chunks. specialize (Hp buf chunks).
  destruct (f _) as [[[a|e] rest]|].
  - destruct Hp as (c' & b' & n & R & E). specialize (Hk a b' c'). rewrite E in Hk.
    destruct (runs_used _ _ _ _ (Ok a) _ _ _ R) as (used & Eu & Lu & _).
    rewrite repeat_length in Lu.
    destruct (g a rest) as [[r rest']|].
    + destruct Hk as (c2 & b2 & n2 & R2 & E2). exists c2, b2, (n + n2)%nat. split; auto.
      rewrite repeat_app. eapply runs_bind; eauto.
    + destruct Hk as (b2 & R2). exists b2.
      replace (S (List.length chunks)) with (n + S (List.length c'))%nat.
      2: { apply (f_equal (@List.length _)) in Eu. rewrite app_length, !map_length in Eu. lia. }
      rewrite repeat_app. eapply runs_bind; eauto.
  - destruct Hp as (c' & b' & n & R & E). exists c', b', n. split; auto.
    now apply runs_bind_raise.
  - destruct Hp as (b' & R). exists b'. now apply runs_bind_wait.
Qed.

Lemma reads_ret A (a : A) : reads_as (Ret a) (fun l => Some (Ok a, l)).
Proof. intros buf chunks. exists chunks, buf, 0%nat. split; auto. apply runs_ret. Qed.

Lemma reads_throw A e : reads_as (@Throw _ _ _ A e) (fun l => Some (Raise e, l)).
Proof. intros buf chunks. exists chunks, buf, 0%nat. split; auto. apply runs_throw. Qed.

Lemma reads_lift A (r : res A) : reads_as (lift r) (fun l => Some (r, l)).
Proof. destruct r; [apply reads_ret|apply reads_throw]. Qed.

Lemma reads_ext A (p : F A) f g : (forall l, f l = g l) -> reads_as p f -> reads_as p g.
Proof. intros E H buf chunks. specialize (H buf chunks). now rewrite E in H. Qed.

Lemma read_lines_reads n : exists f, reads_as (read_lines n) f /\
  forall l, if (n <=? List.length (lines [] l))%nat
            then exists r, f l = Some (Ok (firstn n (lines [] l)), r) /\
                   lines [] r = skipn n (lines [] l)
            else f l = None.
Proof.
  induction n as [|n (f & R & H)].
  - exists (fun l => Some (Ok [], l)). split; [apply reads_ret|]. intros l. cbn. eauto.
  - eexists. split.
    + cbn [read_lines]. apply reads_bind; [apply C26_readline|]. intros x.
      apply reads_bind; [exact R|]. intros ls. apply reads_ret.
    + intros l. cbn beta. rewrite (lines_next l []).
      destruct (next_line [] l) as [[x r]|]; [|reflexivity].
      specialize (H r). cbn [List.length firstn skipn]. change (S n <=? S ?m)%nat with (n <=? m)%nat.
      destruct (n <=? List.length (lines [] r))%nat.
      * destruct H as (r2 & -> & E). eauto.
      * rewrite H. reflexivity.
Qed.

(** [n] calls of _readline return the first [n] lines of the stream that are
    not empty, in order, for every buffered part and every cut into chunks;
    what is left still holds the other lines.  If there are fewer, the calls
    have read everything and wait for more. *)
Theorem C26_lines : forall n buf chunks,
  let stream := buf ++ concat chunks in
  if (n <=? List.length (lines [] stream))%nat
  then exists chunks' buf' k,
    runs (read_lines n) buf (map Ok chunks)
      (Returned (firstn n (lines [] stream)) buf' (map Ok chunks')) (repeat SerialRead k) /\
    lines [] (buf' ++ concat chunks') = skipn n (lines [] stream)
  else exists buf',
    runs (read_lines n) buf (map Ok chunks) (Waiting buf' SerialRead)
      (repeat SerialRead (S (List.length chunks))).
Proof.
  intros n buf chunks stream. destruct (read_lines_reads n) as (f & R & H).
  specialize (R buf chunks). specialize (H stream). fold stream in R.
  destruct (n <=? _)%nat.
  - destruct H as (r & E & El). rewrite E in R. destruct R as (c' & b' & k & R & Er).
    exists c', b', k. split; [exact R|]. now rewrite Er.
  - rewrite H in R. exact R.
Qed.

(** Nothing of the stream is lost or added: its bytes other than line ends
    are those of the lines, in order, then those of the unfinished one; and
    a line has one line end, at its end, and something before it. *)
Theorem C26_nothing_lost : forall l,
  filter (fun b => negb (newline b)) l =
  filter (fun b => negb (newline b)) (concat (lines [] l)) ++ unfinished [] l.
Proof.
  assert (forall l acc, forallb (fun b => negb (newline b)) acc = true ->
    acc ++ filter (fun b => negb (newline b)) l =
    filter (fun b => negb (newline b)) (concat (lines acc l)) ++ unfinished acc l) as H.
  { induction l as [|b l IH]; intros acc Ha; cbn.
    - apply app_nil_r.
    - destruct (newline b) eqn:E; cbn [negb].
      + destruct acc as [|a acc]; [apply (IH []); reflexivity|]. cbn [concat].
        rewrite !filter_app. cbn [filter]. rewrite E. cbn [negb]. rewrite app_nil_r.
        rewrite <- app_assoc, <- (IH [] eq_refl).
        assert (forall m, forallb (fun b => negb (newline b)) m = true ->
          filter (fun b => negb (newline b)) m = m) as X.
        { induction m as [|y m IHm]; cbn; auto. intros Hm. apply andb_true_iff in Hm.
          destruct Hm as [-> Hm]. f_equal. auto. }
        change (match _ with true => _ | false => _ end)
          with (filter (fun b => negb (newline b)) (a :: acc)). rewrite (X _ Ha). reflexivity.
      + rewrite <- IH, <- app_assoc; [reflexivity|].
        rewrite forallb_app, Ha. cbn. now rewrite E. }
  intros l. apply (H l []). reflexivity.
Qed.

Theorem C26_lines_wellformed : forall l line, In line (lines [] l) ->
  exists text b, line = text ++ [b] /\ text <> [] /\ newline b = true /\
    Forall (fun c => newline c = false) text.
Proof.
  assert (forall l acc line, Forall (fun c => newline c = false) acc -> In line (lines acc l) ->
    exists text b, line = text ++ [b] /\ text <> [] /\ newline b = true /\
      Forall (fun c => newline c = false) text) as H.
  { induction l as [|b l IH]; intros acc line Ha Hi; [destruct Hi|]. cbn in Hi.
    destruct (newline b) eqn:E.
    - destruct acc as [|a acc]; [eapply (IH []); eauto|].
      destruct Hi as [<-|Hi]; [|eapply (IH []); eauto].
      exists (a :: acc), b. repeat split; auto. discriminate.
    - eapply IH; [|exact Hi]. apply Forall_app. auto. }
  intros l line. apply H. constructor.
Qed.

(** The next received message of the stream: the first line that begins with
    "rcv", with its end, and what follows it. *)
Fixpoint next_rcv (acc l : list Z) : option (list Z * list Z) :=
  match l with
  | [] => None
  | b :: l =>
      if newline b then
        if startswith (lit "rcv") acc then Some (acc ++ [b], l) else next_rcv [] l
      else next_rcv (acc ++ [b]) l
  end.

Lemma startswith_line p : Forall (fun c => newline c = false) p -> forall acc b,
  newline b = true -> startswith p (acc ++ [b]) = startswith p acc.
Proof.
  induction 1 as [|c p Hc Hp IH]; intros [|a acc] b Hb; cbn; auto.
  - destruct (c =? b) eqn:E; [|reflexivity]. apply Z.eqb_eq in E. congruence.
  - rewrite IH by auto. reflexivity.
Qed.

Lemma next_rcv_line l : forall acc, next_rcv acc l =
  match next_line acc l with
  | None => None
  | Some (x, r) => if startswith (lit "rcv") x then Some (x, r) else next_rcv [] r
  end.
Proof.
  induction l as [|b l IH]; intros acc; [reflexivity|]. cbn [next_rcv next_line].
  destruct (newline b) eqn:E; [|apply IH].
  destruct acc as [|a acc]; [apply (IH [])|].
  rewrite startswith_line; auto. repeat constructor.
Qed.

Lemma next_line_shorter l : forall acc x r, next_line acc l = Some (x, r) ->
  (List.length r < List.length l)%nat.
Proof.
  induction l as [|b l IH]; intros acc x r H; [discriminate|]. cbn in *.
  destruct (newline b); [|specialize (IH _ _ _ H); lia].
  destruct acc; [specialize (IH _ _ _ H); lia|]. injection H as <- <-. lia.
Qed.

Lemma reads_loop X A (body : X -> F (X + A)) (g : X -> reading (X + A)) (G : X -> reading A) :
  (forall x, reads_as (body x) (g x)) ->
  (forall x l x' r, g x l = Some (Ok (inl x'), r) -> (List.length r < List.length l)%nat) ->
  (forall x l, G x l = match g x l with
                       | None => None
                       | Some (Raise e, r) => Some (Raise e, r)
                       | Some (Ok (inl x'), r) => G x' r
                       | Some (Ok (inr a), r) => Some (Ok a, r)
                       end) ->
  forall x, reads_as (Loop body x Ret) (G x).
Proof.
  intros Hb Hl HF x buf chunks.
  remember (List.length (buf ++ concat chunks)) as n eqn:En.
  revert x buf chunks En. induction n as [n IH] using lt_wf_ind. intros x buf chunks En.
  rewrite HF. pose proof (Hb x buf chunks) as H.
  destruct (g x (buf ++ concat chunks)) as [[[[x'|a]|e] rest]|] eqn:Eg.
  - destruct H as (c' & b' & m & R & E).
    pose proof (Hl _ _ _ _ Eg) as Lt.
    specialize (IH (List.length rest) ltac:(lia) x' b' c').
    rewrite E in IH. specialize (IH eq_refl).
    destruct (runs_used _ _ _ _ (Ok _) _ _ _ R) as (used & Eu & Lu & _).
    rewrite repeat_length in Lu.
    apply (f_equal (@List.length _)) in Eu. rewrite app_length, !map_length in Eu.
    destruct (G x' rest) as [[r rest']|].
    + destruct IH as (c2 & b2 & m2 & R2 & E2).
      exists c2, b2, (m + m2)%nat. split; [|exact E2]. rewrite repeat_app.
      apply runs_loop. eapply runs_bind; [exact R|exact R2].
    + destruct IH as (b2 & R2). exists b2.
      replace (S (List.length chunks)) with (m + S (List.length c'))%nat by lia.
      rewrite repeat_app. apply runs_loop. eapply runs_bind; [exact R|exact R2].
  - destruct H as (c' & b' & m & R & E).
    exists c', b', m. split; [|exact E]. rewrite <- (app_nil_r (repeat _ _)).
    apply runs_loop. eapply runs_bind; [exact R|]. apply runs_ret.
  - destruct H as (c' & b' & m & R & E). exists c', b', m. split; [|exact E].
    apply runs_loop. now apply runs_bind_raise.
  - destruct H as (b' & R). exists b'. apply runs_loop. now apply runs_bind_wait.
Qed.

(** read returns the message of the next line that begins with "rcv", skipping
    every other line, however the stream is cut. *)
Theorem C26_read : reads_as can_read
  (fun l => match next_rcv [] l with Some (x, r) => Some (parse_rcv x, r) | None => None end).
Proof.
  unfold can_read.
  apply (reads_loop unit message _
    (fun _ l => match next_line [] l with
                | Some (x, r) => if startswith (lit "rcv") x
                                 then match parse_rcv x with
                                      | Ok m => Some (Ok (inr m), r)
                                      | Raise e => Some (Raise e, r)
                                      end
                                 else Some (Ok (inl tt), r)
                | None => None
                end)
    (fun _ l => match next_rcv [] l with Some (x, r) => Some (parse_rcv x, r) | None => None end)).
  - intros _. eapply reads_ext; [|apply reads_bind with (f := fun l =>
      match next_line [] l with Some (x, r) => Some (Ok x, r) | None => None end)
      (g := fun x l => if startswith (lit "rcv") x
                       then match parse_rcv x with
                            | Ok m => Some (Ok (inr m), l)
                            | Raise e => Some (Raise e, l)
                            end
                       else Some (Ok (inl tt), l))].
    + intros l. cbn beta. destruct (next_line [] l) as [[x r]|]; reflexivity.
    + apply C26_readline.
    + intros x. destruct (startswith (lit "rcv") x); cbn [negb].
      * destruct (parse_rcv x); cbn [lift pbind]; [apply reads_ret|apply reads_throw].
      * apply reads_ret.
  - intros _ l x' r H. destruct (next_line [] l) as [[x r0]|] eqn:E; [|discriminate].
    apply next_line_shorter in E. destruct (startswith _ x); [|now injection H as <- <-].
    destruct (parse_rcv x); discriminate.
  - intros _ l. rewrite next_rcv_line. destruct (next_line [] l) as [[x r]|]; [|reflexivity].
    destruct (startswith _ x); [|reflexivity]. destruct (parse_rcv x); reflexivity.
Qed.

(** Examples *)
Example C24_ex_line :
  send_line false {| cmd_destination := 3; cmd_source := 0; cmd_reply_required := true;
    cmd_data := [1; 0; 10; 0x11; 0; 0xab; 0xff; 7; 9]; cmd_can_prefix := 2;
    cmd_expected_reply_size := 0; cmd_raw := false; cmd_arbitration_id := 0 |}
  = lit "can send 28003 01000A1100ABFF0709505050" ++ [LF].
Proof. reflexivity. Qed.
Example C24_ex_receive : parse_rcv (lit "rcv 100 2400AbfF E B F" ++ [CR])
  = Ok {| m_arbitration_id := 256; m_data := [0x24; 0; 0xab; 0xff] |}.
Proof. reflexivity. Qed.
Example C25_ex : spec_decode [1; 0; 10; 0x0d; 0x20; 0; 0; 0; 0x40] =
  Some [AWrite 0 INT8 (PInt 10); AWrite 32 F32 (spec_value F32 [0; 0; 0; 0x40])] /\
  padding 9 = [0x50; 0x50; 0x50].
Proof. split; vm_compute; reflexivity. Qed.
Example C26_ex :
  lines [] (lit "OK" ++ [CR; LF] ++ lit "rcv 1" ++ [LF; LF] ++ lit "O") =
    [lit "OK" ++ [CR]; lit "rcv 1" ++ [LF]] /\
  run 100 (read_lines 2) (lit "O") (map Ok [lit "K" ++ [CR]; [LF] ++ lit "r"; []; lit "cv 1" ++ [LF]])
    = Some (Returned [lit "OK" ++ [CR]; lit "rcv 1" ++ [LF]] [] [], repeat SerialRead 4).
Proof. split; vm_compute; reflexivity. Qed.

Example C26_ex_read :
  run 100 can_read (lit "O") (map Ok [lit "K" ++ [CR]; [LF] ++ lit "r"; []; lit "cv 1 0a E" ++ [LF; 7]])
    = Some (Returned {| m_arbitration_id := 1; m_data := [10] |} [7] [], repeat SerialRead 4).
Proof. vm_compute; reflexivity. Qed.

Print Assumptions C24_line.
Print Assumptions C24_bus_id.
Print Assumptions C24_source_refuted.
Print Assumptions C24_raw_id.
Print Assumptions C24_round_trip.
Print Assumptions C24_receive.
Print Assumptions C24_receive_bare_refuted.
Print Assumptions C25_least_length.
Print Assumptions C25_padded.
Print Assumptions C25_oversize.
Print Assumptions C25_same_meaning.
Print Assumptions C26_readline.
Print Assumptions C26_lines.
Print Assumptions C26_read.
Print Assumptions C26_nothing_lost.
Print Assumptions C26_lines_wellformed.
