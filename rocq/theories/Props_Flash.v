(** C31, C32: flashing an image. *)
From Coq Require Import Ascii String ZArith List Bool Lia ZifyBool ZifyNat.
From Verif Require Import PyBase PyBytes Async Async_Proofs Fdcanusb_Model Props_Fdcanusb
  Zbits Flash_Model Flash_Proofs Boot_Proofs.
Import ListNotations.
Open Scope Z_scope.
Ltac Zify.zify_post_hook ::= Z.div_mod_to_equations.

(** ** C31 *)

(** The blocks are never empty, have at most 32 bytes, and are the bytes of the
    image, each at its address, in order and once; and the iteration ends. *)
Theorem C31_blocks : forall elf, image_ok 0 elf -> elf <> [] ->
  exists bs, iterates elf (-1) bs /\
    Forall (fun b => 0 < len (snd b) <= 32) bs /\
    image_bytes bs = image_bytes elf.
Proof.
  intros elf O N. destruct (iterate_all elf O N) as (bs & I & G & E).
  exists bs. split; auto. split; auto. eapply Forall_impl; [|exact G]. now intros b [H _].
Qed.

(** There is only one iteration. *)
Theorem C31_deterministic : forall elf cur bs bs',
  iterates elf cur bs -> iterates elf cur bs' -> bs = bs'.
Proof. intros elf cur bs bs' H H'. eapply iterates_det; eauto. Qed.

Definition ex_image : list block :=
  [(0x08000000, map Z.of_nat (seq 1 40)); (0x08010000, [1; 2; 3; 4; 5; 6; 7; 8; 9; 10])].

Example ex_image_ok : image_ok 0 ex_image.
Proof.
  cbn. unfold len. cbn. repeat split; try discriminate; try lia;
    repeat constructor; unfold byte_ok; lia.
Qed.

Example C31_example : iterates ex_image (-1)
  [(0x08000000, map Z.of_nat (seq 1 32)); (0x08000020, map Z.of_nat (seq 33 8));
   (0x08010000, [1; 2; 3; 4; 5; 6; 7; 8; 9; 10])].
Proof.
  change (0x08000000, map Z.of_nat (seq 1 32)) with (get_next_block ex_image (-1)).
  eapply it_more; [reflexivity|].
  change (0x08000020, map Z.of_nat (seq 33 8)) with (get_next_block ex_image 0x08000020).
  eapply it_more; [reflexivity|].
  change (0x08010000, [1; 2; 3; 4; 5; 6; 7; 8; 9; 10]) with (get_next_block ex_image 0x08000028).
  eapply it_last. reflexivity.
Qed.

(** Without the order of the sections, some are silently left out. *)
Theorem C31_unsorted_refuted : exists elf bs a v,
  iterates elf (-1) bs /\ In (a, v) (image_bytes elf) /\ ~ In (a, v) (image_bytes bs).
Proof.
  exists [(0x08010000, [7]); (0x08000000, [9])], [(0x08010000, [7])], 0x08000000, 9.
  split; [|split].
  - change (0x08010000, [7]) with (get_next_block [(0x08010000, [7]); (0x08000000, [9])] (-1)) at 2.
    eapply it_last. reflexivity.
  - cbn. auto.
  - cbn. intros [H|[]]. discriminate.
Qed.

(** ** C32 *)

(** A command "w <address> <data>", a command "r <address> <size>". *)
Definition writes (q : creq) (b : block) : Prop :=
  exists h x, q = (lit "w " ++ h ++ lit " " ++ x, false) /\
    hex_number h (fst b) /\ hex_bytes x (snd b).
Definition reads (q : creq) (b : block) : Prop :=
  exists h n, q = (lit "r " ++ h ++ lit " " ++ n, true) /\
    hex_number h (fst b) /\ hex_number n (len (snd b)).

(** A reply "<address> <data>"; white space around the data does not count. *)
Definition says (reply : list Z) (b : block) : Prop :=
  exists h l x r, reply = h ++ lit " " ++ l ++ x ++ r /\ str_int16 h = Ok (fst b) /\
    Forall (fun c => str_space c = true) (l ++ r) /\ hex_bytes x (snd b).

Lemma w_req_writes b : 0 <= fst b -> bytes_ok (snd b) -> writes (w_req b) b.
Proof.
  intros H By. exists (hexa (fst b)), (bytes_hex (snd b)). split; [reflexivity|].
  split; [now apply format_hex_number|now apply bytes_hex_bytes].
Qed.
Lemma r_req_reads b : 0 <= fst b -> reads (r_req b) b.
Proof.
  intros H. exists (hexa (fst b)), (hexa (len (snd b))). split; [reflexivity|].
  split; apply format_hex_number; auto. unfold len. lia.
Qed.

Lemma split_two w : forall f0 f1, split_on 32 w = [f0; f1] -> w = f0 ++ [32] ++ f1.
Proof.
  assert (One : forall w f, split_on 32 w = [f] -> w = f).
  { induction w0 as [|c w0 IH]; intros f H; cbn in H; [congruence|].
    destruct (c =? 32).
    - destruct (split_on 32 w0) eqn:E; [|discriminate]. destruct w0; cbn in E; try discriminate.
      destruct (z =? 32); [discriminate|]. destruct (split_on 32 w0); discriminate.
    - destruct (split_on 32 w0) as [|f' [|]] eqn:E; try discriminate.
      + destruct w0; cbn in E; try discriminate.
        destruct (z =? 32); [discriminate|]. destruct (split_on 32 w0); discriminate.
      + injection H as <-. f_equal. now apply IH. }
  induction w as [|c w IH]; intros f0 f1 H; cbn in H; [discriminate|].
  destruct (c =? 32) eqn:C.
  - injection H as <- H. apply One in H. apply Z.eqb_eq in C. now subst.
  - destruct (split_on 32 w) as [|f' fs] eqn:E; [discriminate|]. injection H as <- ->.
    cbn. f_equal. now apply IH.
Qed.

Lemma str_drop_spec l : exists s, l = s ++ str_drop l /\ Forall (fun c => str_space c = true) s.
Proof.
  induction l as [|c l (s & E & F)]; [exists []; auto|]. cbn. destruct (str_space c) eqn:C.
  - exists (c :: s). split; [cbn; now f_equal|now constructor].
  - exists []. auto.
Qed.

Lemma str_strip_spec l : exists a b, l = a ++ str_strip l ++ b /\
  Forall (fun c => str_space c = true) (a ++ b).
Proof.
  unfold str_strip. destruct (str_drop_spec l) as (a & E & F).
  destruct (str_drop_spec (rev (str_drop l))) as (b & E' & F').
  exists a, (rev b). split.
  - rewrite E at 1. f_equal. rewrite <- (rev_involutive (str_drop l)) at 1. rewrite E' at 1.
    now rewrite rev_app_distr.
  - apply Forall_app. split; auto. now apply Forall_rev.
Qed.

Lemma verify_says b r : bytes_ok (snd b) -> verify_blocks b r = Ok tt -> says r b.
Proof.
  intros By H. unfold verify_blocks in H.
  destruct (split_on 32 r) as [|f0 [|f1 [|]]] eqn:E; try discriminate.
  destruct (str_int16 f0) as [v|] eqn:Ei; [|discriminate]. cbn [bind] in H.
  destruct (v =? fst b) eqn:Ev; [|discriminate]. cbn [negb] in H.
  destruct (bytes_eqb _ _) eqn:Eb; [|discriminate]. apply bytes_eqb_eq in Eb.
  destruct (str_strip_spec f1) as (l & t & Ef & F).
  exists f0, l, (str_strip f1), t. split; [|split; [|split]].
  - apply split_two in E. rewrite E. cbn. do 2 f_equal. exact Ef.
  - apply Z.eqb_eq in Ev. now rewrite <- Ev.
  - exact F.
  - apply hex_bytes_low. change (map low (str_strip f1)) with (str_lower (str_strip f1)).
    rewrite <- Eb. now apply bytes_hex_bytes.
Qed.

Lemma placed_ge a d x v : In (x, v) (placed a d) -> a <= x < a + len d.
Proof.
  revert a. induction d as [|w d IH]; intros a H; cbn in H; [tauto|]. unfold len. cbn [List.length].
  destruct H as [H|H]; [injection H as <- <-; lia|]. apply IH in H. unfold len in H. lia.
Qed.

Lemma image_in l x v : In (x, v) (image_bytes l) -> exists b, In b l /\ In (x, v) (placed (fst b) (snd b)).
Proof.
  unfold image_bytes. intros H. apply in_concat in H as (y & Hy & Hx).
  apply in_map_iff in Hy as (b & <- & Hb). eauto.
Qed.

Lemma in_image l x v b : In b l -> In (x, v) (placed (fst b) (snd b)) -> In (x, v) (image_bytes l).
Proof.
  intros Hb Hx. unfold image_bytes. apply in_concat. eexists. split; [|exact Hx].
  now apply (in_map (fun s => placed (fst s) (snd s))).
Qed.

Lemma block_hd b : good_block b -> exists v, In (fst b, v) (placed (fst b) (snd b)).
Proof.
  intros [H _]. destruct b as [a [|v d]]; cbn in *; [unfold len in H; cbn in H; lia|]. eauto.
Qed.

Lemma image_lo lo elf x v : image_ok lo elf -> In (x, v) (image_bytes elf) -> lo <= x.
Proof.
  revert lo. induction elf as [|[a d] elf IH]; intros lo O H; [cbn in H; tauto|].
  cbn in O. destruct O as (O1 & O2 & O3 & O4). unfold image_bytes in H. cbn [map concat fst snd] in H.
  apply in_app_or in H as [H|H].
  - apply placed_ge in H. lia.
  - apply IH with (1 := O4) in H. unfold len in H. lia.
Qed.

(** Whatever the device answers: if write_flash returns, it asked for the writes of
    all blocks, one more of padding, and to read all blocks; the replies to the
    latter say that each byte of the image is there. *)
Theorem C32_sound : forall elf rs rest qs, image_ok 0 elf -> elf <> [] ->
  runs (write_flash elf) tt rs (Returned tt tt rest) qs ->
  exists bs wq pq rq ws p replies,
    image_bytes bs = image_bytes elf /\
    qs = wq ++ pq :: rq /\ Forall2 writes wq bs /\ Forall2 reads rq bs /\
    writes pq (image_end elf, repeat 0xff (Z.to_nat (8 - image_end elf mod 8))) /\
    rs = map Ok ws ++ Ok p :: map Ok replies ++ rest /\
    Forall2 says replies bs /\
    forall a v, In (a, v) (image_bytes elf) -> exists b reply,
      In reply replies /\ says reply b /\ In (a, v) (placed (fst b) (snd b)).
Proof.
  intros elf rs rest qs O N R. destruct (iterate_all elf O N) as (bs & I & G & E).
  destruct (write_flash_inv elf bs tt rs tt rest qs I R) as (ws & p & rds & Er & L & Eq & F).
  pose proof (same_end bs elf 0 O N G (iterates_ne _ _ _ I) E) as End.
  assert (Pos : forall b, In b bs -> 0 <= fst b).
  { intros b Hb. rewrite Forall_forall in G. destruct (block_hd b (G b Hb)) as (v & Hv).
    eapply image_lo; [exact O|]. rewrite <- E. eapply in_image; eauto. }
  assert (End0 : 0 <= image_end elf).
  { rewrite <- End. unfold image_end.
    assert (In (last bs (0, [])) bs).
    { destruct (exists_last (iterates_ne _ _ _ I)) as (l & x & ->). rewrite last_last.
      apply in_or_app. right. now left. }
    specialize (Pos _ H). unfold block_end, len. lia. }
  assert (Sy : Forall2 says rds bs).
  { clear - F G. induction F as [|b r bs rds V F IH]; constructor; inversion G; subst; auto.
    apply verify_says; auto. now destruct H1. }
  exists bs, (map w_req bs), (w_req (pad_block (image_end bs))), (map r_req bs), ws, p, rds.
  split; auto. split; auto. split; [|split; [|split; [|split; [|split]]]]; auto.
  - clear - G Pos. induction G as [|b bs [_ By] G IH]; constructor.
    + apply w_req_writes; auto. apply Pos. now left.
    + apply IH. intros; apply Pos; now right.
  - clear - Pos. induction bs as [|b bs IH]; constructor.
    + apply r_req_reads. apply Pos. now left.
    + apply IH. intros; apply Pos; now right.
  - rewrite End. apply w_req_writes; auto. apply Forall_forall. intros x Hx.
    apply repeat_spec in Hx. subst. unfold byte_ok. lia.
  - intros a v Hi. rewrite <- E in Hi. apply image_in in Hi as (b & Hb & Hi).
    clear - Sy Hb Hi. induction Sy as [|r b' rds bs S1 Sy IH]; [destruct Hb|].
    destruct Hb as [->|Hb].
    + exists b, r. split; [now left|auto].
    + destruct (IH Hb) as (b2 & r2 & H1 & H2). exists b2, r2. split; [now right|auto].
Qed.

(** The image fits: its bytes are where the bootloader writes, and so is the
    padding after it. *)
Definition fits (elf : list block) : Prop :=
  (forall a v, In (a, v) (image_bytes elf) -> writable a) /\
  (forall x, image_end elf <= x < image_end elf + (8 - image_end elf mod 8) -> writable x).

(** The last double word is filled from its start. *)
Definition tail_filled (elf : list block) : Prop :=
  forall x, 8 * (image_end elf / 8) <= x < image_end elf ->
  exists v, In (x, v) (image_bytes elf).

Lemma power_inv m : inv m (bt_unlock (power_up m)) 0 [].
Proof.
  constructor; cbn; try congruence; try tauto; try discriminate.
Qed.

Lemma in_repeat_placed n : forall a x, a <= x < a + Z.of_nat n ->
  In (x, 0xff) (placed a (repeat 0xff n)).
Proof.
  induction n as [|n IH]; intros a x H; [lia|]. cbn [repeat placed].
  destruct (Z.eq_dec x a) as [->|]; [now left|]. right. apply IH. lia.
Qed.

Section Boot.
Variable elapsed : boot -> Z.

(** All the writes: what the bootloader answers and holds afterwards. *)
Lemma all_writes m elf bs : image_ok 0 elf -> elf <> [] -> fits elf ->
  iterates elf (-1) bs -> Forall good_block bs -> image_bytes bs = image_bytes elf ->
  exists b p', boot_run elapsed (bt_unlock (power_up m)) (map w_req bs ++ [w_req (pad_block (image_end elf))])
      = (b, map Ok (repeat [] (List.length bs) ++ [[]])) /\
    inv m b p' (image_bytes elf ++ placed (image_end elf) (snd (pad_block (image_end elf)))) /\
    not_full b /\ p' = image_end elf + (8 - image_end elf mod 8).
Proof.
  intros O N [Wr Wp] I G E. pose proof (iterates_ne _ _ _ I) as Nb.
  pose proof (same_end bs elf 0 O N G Nb E) as End.
  destruct (boot_writes elapsed m bs _ 0 [] (power_inv m)) as (b & p & R & Iv & NF & Q & _); auto.
  { intros H. now cbn in H. }
  { rewrite E. now apply image_sorted. }
  { intros a v. rewrite E. apply Wr. }
  rewrite (Q Nb), End in *. rewrite E in Iv. cbn [app] in Iv.
  set (e := image_end elf) in *. set (d := snd (pad_block e)).
  assert (Ld : len d = 8 - e mod 8) by (unfold d, pad_block, len; cbn [snd]; rewrite repeat_length; lia).
  assert (We : writable e) by (apply Wp; lia).
  destruct (write_bytes_inv m d e b e _ Iv NF (Z.le_refl _)) as (b' & p' & Ew & Iv' & NF' & _ & Q').
  { intros x Hx. apply Wp. rewrite <- Ld. exact Hx. }
  exists b', p'. split; [|split; [|split]]; auto.
  - rewrite boot_run_app, R. cbn [boot_run]. unfold w_req.
    rewrite run_write.
    + change (fst (pad_block e)) with e. fold d. rewrite Ew. rewrite map_app. reflexivity.
    + change (fst (pad_block e)) with e. unfold writable in We. lia.
    + fold d. apply Forall_forall. intros x Hx. apply repeat_spec in Hx. subst. unfold byte_ok. lia.
    + fold d. intros Ed. rewrite Ed in Ld. unfold len in Ld. cbn [List.length Z.of_nat] in Ld. lia.
  - rewrite Q'; [lia|]. intros Ed. rewrite Ed in Ld. unfold len in Ld. cbn [List.length Z.of_nat] in Ld. lia.
Qed.

(** Against the bootloader, whatever the flash held: the commands succeed, the
    verification passes, and afterwards the flash is locked and holds the image;
    the sectors with no byte of the image or the padding are as before. *)
Theorem C32_bootloader : forall m elf, image_ok 0 elf -> elf <> [] -> fits elf -> tail_filled elf ->
  exists qs rs b,
    runs (flash_image elf) tt rs (Returned tt tt []) qs /\
    boot_run elapsed (power_up m) qs = (b, rs) /\
    bt_locked b = true /\
    (forall a v, In (a, v) (image_bytes elf) -> bt_mem b a = v) /\
    (forall x, (forall a v, In (a, v) (image_bytes elf) -> sector a <> sector x) ->
       (forall a, image_end elf <= a < image_end elf + (8 - image_end elf mod 8) ->
          sector a <> sector x) ->
       bt_mem b x = m x).
Proof.
  intros m elf O N Fi Ta. destruct (iterate_all elf O N) as (bs & I & G & E).
  pose proof (iterates_ne _ _ _ I) as Nb. pose proof (same_end bs elf 0 O N G Nb E) as End.
  destruct (all_writes m elf bs O N Fi I G E) as (b & p & R & Iv & NF & Ep).
  set (e := image_end elf) in *. set (d := snd (pad_block e)) in *.
  assert (Dd : d = repeat 0xff (Z.to_nat (8 - e mod 8))) by reflexivity.
  (* nothing is pending any more *)
  assert (Z0 : bt_start b = 0).
  { destruct (Z.eq_dec (bt_start b) 0) as [|Nz]; auto. exfalso.
    destruct (i_start _ _ _ _ Iv Nz) as [M P]. specialize (NF Nz).
    assert (S0 : bt_start b = p - 8) by lia.
    rewrite nth_forallb in NF; [discriminate|]. rewrite (i_nbits _ _ _ _ Iv). intros i Hi.
    assert (exists v, In (bt_start b + Z.of_nat i, v) (image_bytes elf ++ placed e d)) as (v & Hv).
    { destruct (Z.lt_ge_cases (bt_start b + Z.of_nat i) e) as [Hl|Hg].
      - destruct (Ta (bt_start b + Z.of_nat i)) as (v & Hv); [fold e; lia|].
        exists v. apply in_or_app. now left.
      - exists 0xff. apply in_or_app. right. rewrite Dd. apply in_repeat_placed. lia. }
    pose proof (i_bits_set _ _ _ _ Iv _ _ Hv) as Hb.
    replace (Z.to_nat (bt_start b + Z.of_nat i - bt_start b)) with i in Hb by lia.
    apply Hb. split; auto. lia. }
  assert (Mem : forall a v, In (a, v) (image_bytes elf) -> bt_mem b a = v).
  { intros a v Hi. apply (i_done _ _ _ _ Iv a v); [apply in_or_app; now left|].
    unfold pending. tauto. }
  destruct (boot_reads elapsed b bs G) as (rds & Rr & F).
  { intros blk Hb. rewrite Forall_forall in G. destruct (block_hd blk (G blk Hb)) as (v & Hv).
    destruct Fi as [Wr _]. assert (writable (fst blk)) by
      (apply (Wr _ v); rewrite <- E; eapply in_image; eauto). unfold writable in *. lia. }
  { rewrite E. exact Mem. }
  set (b' := {| bt_locked := true; bt_start := bt_start b; bt_shadow := bt_shadow b;
                bt_bits := bt_bits b; bt_erased := bt_erased b; bt_mem := bt_mem b |}).
  assert (Lk : run_command elapsed (lit "lock" ++ [LF]) b = (b', lit "OK")).
  { change (run_command elapsed (lit "lock" ++ [LF]) b) with
      (let '(c, ok) := bt_lock b in (c, if ok then lit "OK" else lit "ERR error locking")).
    unfold bt_lock. rewrite (i_unlocked _ _ _ _ Iv).
    destruct (i_zero _ _ _ _ Iv Z0) as [_ Hz]. rewrite Hz at 1. cbn [existsb repeat orb]. reflexivity. }
  exists ((lit "unlock", false) :: (map w_req bs ++ w_req (pad_block e) :: map r_req bs) ++
          [(lit "lock", false)]).
  exists (Ok [] :: map Ok (repeat [] (List.length bs)) ++ Ok [] :: map Ok rds ++ [Ok []]), b'.
  split; [|split; [|split; [|split]]]; auto.
  - unfold flash_image. cbn [pbind]. apply runs_await. cbn [lift pbind].
    eapply runs_bind.
    + rewrite <- End. apply write_flash_runs; auto. apply repeat_length.
    + apply runs_await. cbn [lift pbind]. apply runs_ret.
  - cbn [boot_run].
    change (run_command elapsed (lit "unlock" ++ [LF]) (power_up m)) with
      (bt_unlock (power_up m), lit "OK").
    replace (map w_req bs ++ w_req (pad_block e) :: map r_req bs)
      with ((map w_req bs ++ [w_req (pad_block e)]) ++ map r_req bs) by (now rewrite <- app_assoc).
    rewrite (boot_run_app elapsed (_ ++ map r_req bs) [_]).
    rewrite (boot_run_app elapsed _ (map r_req bs)), R, Rr. cbn [boot_run]. rewrite Lk.
    rewrite map_app. cbn [map]. rewrite <- !app_assoc. reflexivity.
  - intros x H1 H2. cbn [bt_mem b']. apply (i_other _ _ _ _ Iv).
    destruct (bt_erased b (sector x)) eqn:Ee; auto. exfalso.
    destruct (i_touched _ _ _ _ Iv _ Ee) as (a & v & Hi & Hs).
    apply in_app_or in Hi as [Hi|Hi].
    + now apply (H1 a v).
    + apply (H2 a); auto. apply placed_ge in Hi. rewrite Dd in Hi. unfold len in Hi.
      rewrite repeat_length in Hi. lia.
Qed.

(** An image that ends at a place where the bootloader no longer writes is never
    accepted, although all its bytes could be written: the padding cannot. *)
Theorem C32_boundary_refuted : forall m elf, image_ok 0 elf -> elf <> [] ->
  (forall a v, In (a, v) (image_bytes elf) -> writable a) ->
  image_end elf = 0x0800c000 \/ image_end elf = 0x08080000 ->
  exists qs rs b, boot_run elapsed (power_up m) qs = (b, rs) /\
    runs (flash_image elf) tt rs (Raised CommandError tt []) qs.
Proof.
  intros m elf O N Wr End0. destruct (iterate_all elf O N) as (bs & I & G & E).
  pose proof (iterates_ne _ _ _ I) as Nb. pose proof (same_end bs elf 0 O N G Nb E) as End.
  destruct (boot_writes elapsed m bs _ 0 [] (power_inv m)) as (b & p & R & Iv & NF & Q & _); auto.
  { intros H. now cbn in H. }
  { rewrite E. now apply image_sorted. }
  { intros a v. rewrite E. apply Wr. }
  set (e := image_end elf) in *.
  assert (Pw : run_command elapsed (w_cmd (pad_block e) ++ [LF]) b = (b, lit "ERR")).
  { rewrite run_write.
    - destruct End0 as [-> | ->]; cbn [fst snd pad_block];
        change (Z.to_nat (8 - _ mod 8)) with 8%nat; cbn [repeat write_bytes];
        unfold write_byte; rewrite (i_unlocked _ _ _ _ Iv); reflexivity.
    - cbn [fst pad_block]. lia.
    - apply Forall_forall. intros x Hx. apply repeat_spec in Hx. subst. unfold byte_ok. lia.
    - cbn [snd pad_block]. intros H. apply (f_equal (@List.length Z)) in H.
      rewrite repeat_length in H. cbn [List.length] in H. lia. }
  exists ((lit "unlock", false) :: map w_req bs ++ [w_req (pad_block e)]).
  exists (Ok [] :: map Ok (repeat [] (List.length bs)) ++ [Raise CommandError]), b. split.
  - cbn [boot_run].
    change (run_command elapsed (lit "unlock" ++ [LF]) (power_up m)) with
      (bt_unlock (power_up m), lit "OK").
    cbv iota beta. rewrite boot_run_app, R. cbn [boot_run]. unfold w_req. rewrite Pw. reflexivity.
  - unfold flash_image. cbn [pbind]. apply runs_await. cbn [lift pbind].
    apply runs_bind_raise. unfold write_flash. eapply runs_bind.
    + apply (w_loop_runs elf _ bs I tt (repeat [] (List.length bs))). apply repeat_length.
    + cbv zeta. rewrite pad_if. cbn [pbind].
      change (fst (last bs (0, [])) + Z.of_nat _) with (image_end bs).
      fold (pad_req (image_end bs)). rewrite pad_req_eq, End. apply runs_await. apply runs_throw.
Qed.
End Boot.

(** The example meets the conditions. *)
Example C32_example : exists qs rs b,
  runs (flash_image ex_image) tt rs (Returned tt tt []) qs /\
  boot_run (fun _ => 5) (power_up (fun _ => 0x3c)) qs = (b, rs) /\
  bt_mem b 0x08000027 = 40 /\ bt_mem b 0x08010009 = 10 /\ bt_mem b 0x08001000 = 0x3c.
Proof.
  destruct (C32_bootloader (fun _ => 5) (fun _ => 0x3c) ex_image) as (qs & rs & b & H1 & H2 & _ & H3 & H4).
  - apply ex_image_ok.
  - discriminate.
  - split.
    + intros a v H. apply image_in in H as (blk & [<-|[<-|[]]] & H); apply placed_ge in H;
        unfold len, writable in *; cbn in *; lia.
    + unfold image_end, block_end, len, writable. cbn. lia.
  - intros x Hx. unfold image_end, block_end, len in Hx. cbn in Hx.
    exists (x - 0x08010000 + 1). apply in_image with (b := (0x08010000, [1; 2; 3; 4; 5; 6; 7; 8; 9; 10])).
    + cbn. auto.
    + assert (x = 0x08010008 \/ x = 0x08010009) as [-> | ->] by lia; cbn; tauto.
  - exists qs, rs, b. split; auto. split; auto. split; [|split].
    + apply H3. unfold image_bytes. cbn. tauto.
    + apply H3. unfold image_bytes. cbn. tauto.
    + rewrite H4; auto.
      * intros a v H. apply image_in in H as (blk & [<-|[<-|[]]] & H); apply placed_ge in H;
          unfold len, sector in *; cbn [fst snd map seq List.length] in *.
        -- cbn in H. replace (a <? 134479872) with true by lia. cbn. lia.
        -- cbn in H. replace (a <? 134479872) with true by lia. cbn. lia.
      * unfold image_end, block_end, len, sector. cbn [fst snd last ex_image List.length].
        intros a H. cbn in H. replace (a <? 134479872) with true by lia. cbn. lia.
Qed.

(** An image ending at the end of the writable area. *)
Example C32_boundary_example : exists qs rs b,
  boot_run (fun _ => 5) (power_up (fun _ => 0)) qs = (b, rs) /\
  runs (flash_image [(0x0800bff8, [1; 2; 3; 4; 5; 6; 7; 8])]) tt rs (Raised CommandError tt []) qs.
Proof.
  apply C32_boundary_refuted.
  - cbn. repeat split; try discriminate; try lia; repeat constructor; unfold byte_ok; lia.
  - discriminate.
  - intros a v H. apply image_in in H as (blk & [<-|[]] & H). apply placed_ge in H.
    unfold len, writable in *. cbn in *. lia.
  - left. reflexivity.
Qed.

(** If the last double word is not filled from its start it is not flushed before
    it is read back, and flashing fails. *)
Theorem C32_tail_refuted : exists elf qs rs b, image_ok 0 elf /\ fits elf /\
  boot_run (fun _ => 5) (power_up (fun _ => 0xff)) qs = (b, rs) /\
  runs (flash_image elf) tt rs (Raised RuntimeError tt []) qs.
Proof.
  pose (elf := [(0x08010002, [1; 2])]).
  pose (qs := [(lit "unlock", false); w_req (0x08010002, [1; 2]);
               w_req (pad_block 0x08010004); r_req (0x08010002, [1; 2])]).
  exists elf, qs, (snd (boot_run (fun _ => 5) (power_up (fun _ => 0xff)) qs)),
    (fst (boot_run (fun _ => 5) (power_up (fun _ => 0xff)) qs)).
  split; [|split; [|split]].
  - cbn. repeat split; try discriminate; try lia; repeat constructor; unfold byte_ok; lia.
  - split.
    + intros a v H. apply image_in in H as (blk & [<-|[]] & H). apply placed_ge in H.
      unfold len, writable in *. cbn in *. lia.
    + unfold image_end, block_end, len, writable. cbn. lia.
  - apply surjective_pairing.
  - exists 20%nat. vm_compute. reflexivity.
Qed.

(** An image that ends with a sector costs the contents of the next sector, in
    which it has no byte. *)
Theorem C32_next_sector_refuted : exists elf qs rs b x, image_ok 0 elf /\
  runs (flash_image elf) tt rs (Returned tt tt []) qs /\
  boot_run (fun _ => 5) (power_up (fun _ => 0x3c)) qs = (b, rs) /\
  (forall a v, In (a, v) (image_bytes elf) -> sector a <> sector x) /\ bt_mem b x <> 0x3c.
Proof.
  pose (blk := (0x080107f8, [1; 2; 3; 4; 5; 6; 7; 8]) : block).
  pose (qs := [(lit "unlock", false); w_req blk; w_req (pad_block 0x08010800); r_req blk;
               (lit "lock", false)]).
  exists [blk], qs, (snd (boot_run (fun _ => 5) (power_up (fun _ => 0x3c)) qs)),
    (fst (boot_run (fun _ => 5) (power_up (fun _ => 0x3c)) qs)), 0x08010900.
  split; [|split; [|split; [|split]]].
  - cbn. repeat split; try discriminate; try lia; repeat constructor; unfold byte_ok; lia.
  - exists 20%nat. vm_compute. reflexivity.
  - apply surjective_pairing.
  - intros a v H. apply image_in in H as (b & [<-|[]] & H). apply placed_ge in H.
    unfold len, sector in *. cbn [fst snd blk List.length] in *. cbn in H.
    replace (a <? 134479872) with true by lia. cbn. lia.
  - vm_compute. discriminate.
Qed.

(** A section with no bytes makes flashing fail. *)
Theorem C32_empty_section_refuted : exists elf qs rs b,
  sorted_from 0 (image_bytes elf) /\ image_bytes elf <> [] /\
  boot_run (fun _ => 5) (power_up (fun _ => 0xff)) qs = (b, rs) /\
  runs (flash_image elf) tt rs (Raised CommandError tt []) qs.
Proof.
  pose (qs := [(lit "unlock", false); w_req (0x08010000, [])]).
  exists [(0x08010000, []); (0x08010010, [1; 2; 3; 4; 5; 6; 7; 8])], qs,
    (snd (boot_run (fun _ => 5) (power_up (fun _ => 0xff)) qs)),
    (fst (boot_run (fun _ => 5) (power_up (fun _ => 0xff)) qs)).
  split; [|split; [|split]].
  - unfold image_bytes. cbn. lia.
  - discriminate.
  - apply surjective_pairing.
  - exists 20%nat. vm_compute. reflexivity.
Qed.

Print Assumptions C31_blocks.
Print Assumptions C32_sound.
Print Assumptions C32_bootloader.
Print Assumptions C32_boundary_refuted.
