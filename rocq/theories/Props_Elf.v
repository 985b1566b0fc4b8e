(** C62: which bytes of an ELF file are flashed, where, and as which version. *)
From Coq Require Import Ascii String ZArith List Bool Lia ZifyBool ZifyNat Sorted.
From Verif Require Import PyBase PyBytes PyFloat Mux_Model Flash_Model Elf_Model Elf_Spec.
From Verif Require Async Flash_Proofs Boot_Proofs Props_Flash Proc Device_Model Device_Spec Props_Upgrade.
Import ListNotations.
Open Scope Z_scope.

(** ** The mapping *)
Lemma lies_spec m s a : logical_to_physical m (s_addr s) (s_size s) = Ok a <-> lies_at m s a.
Proof.
  induction m as [|g m IH]; cbn [logical_to_physical].
  - split; [discriminate|]. intros (b & g & af & E & _). now destruct b.
  - destruct ((s_addr s >=? g_vaddr g) && (s_addr s + s_size s <=? g_vaddr g + g_memsz g)) eqn:C.
    + split.
      * intros [= <-]. exists [], g, m. split; [reflexivity|]. split; [unfold covers; lia|].
        split; [intros ? []|lia].
      * intros (b & g' & af & E & C' & N & ->). destruct b as [|g0 b]; injection E as -> ->.
        -- f_equal. lia.
        -- exfalso. apply (N g0); [now left|unfold covers; lia].
    + rewrite IH. split.
      * intros (b & g' & af & -> & C' & N & ->). exists (g :: b), g', af. split; [reflexivity|].
        split; [exact C'|]. split; [|reflexivity]. intros g0 [<-|I]; [unfold covers; lia|now apply N].
      * intros (b & g' & af & E & C' & N & ->). destruct b as [|g0 b]; injection E as -> ->.
        -- exfalso. unfold covers in C'. lia.
        -- exists b, g', af. split; [reflexivity|]. split; [exact C'|]. split; [|reflexivity].
           intros g1 I. apply N. now right.
Qed.

Lemma lies_fun m s a a' : lies_at m s a -> lies_at m s a' -> a = a'.
Proof. intros H H'. apply lies_spec in H, H'. congruence. Qed.

(** ** The sections *)
Definition without (x : list Z) (names : list (list Z)) : list (list Z) :=
  filter (fun n => negb (bytes_eqb x n)) names.

Lemma eqb_spec a b : bytes_eqb a b = true <-> a = b.
Proof.
  revert b. induction a as [|x a IH]; intros [|y b]; cbn; split; try discriminate; try reflexivity; intros H.
  - apply andb_true_iff in H. destruct H as [H1 H2]. apply Z.eqb_eq in H1. apply IH in H2. congruence.
  - injection H as -> ->. rewrite Z.eqb_refl. now apply IH.
Qed.

Lemma in_names x names : existsb (bytes_eqb x) names = true <-> In x names.
Proof.
  rewrite existsb_exists. split.
  - intros (y & I & E). apply eqb_spec in E. now subst.
  - intros I. exists x. split; [exact I|now apply eqb_spec].
Qed.

Lemma in_without y x names : In y (without x names) <-> In y names /\ y <> x.
Proof.
  unfold without. rewrite filter_In. split; intros [I H]; (split; [exact I|]).
  - intros ->. rewrite (proj2 (eqb_spec x x) eq_refl) in H. discriminate.
  - destruct (bytes_eqb x y) eqn:E; [|reflexivity]. apply eqb_spec in E. congruence.
Qed.

Lemma asked_cons names x l s : asked names (x :: l) s <->
  (s = x /\ In (s_name x) names) \/
  asked (if existsb (bytes_eqb (s_name x)) names then without (s_name x) names else names) l s.
Proof.
  split.
  - intros (b & af & E & I & N). destruct b as [|y b]; injection E as <- ->.
    + left. auto.
    + right. exists b, af. split; [reflexivity|]. split; [|intros s' H; apply N; now right].
      destruct (existsb _ names); [|exact I]. apply in_without. split; [exact I|].
      intros E. apply (N x); [now left|congruence].
  - intros [[-> I]|(b & af & -> & I & N)].
    + exists [], l. split; [reflexivity|]. split; [exact I|]. intros ? [].
    + exists (x :: b), af. split; [reflexivity|].
      destruct (existsb (bytes_eqb (s_name x)) names) eqn:X.
      * apply in_without in I. destruct I as [I D]. split; [exact I|].
        intros s' [<-|H]; [congruence|now apply N].
      * split; [exact I|]. intros s' [<-|H]; [|now apply N].
        intros E. rewrite <- E in I. apply in_names in I. congruence.
Qed.

Lemma asked_nil names s : ~ asked names [] s.
Proof. intros (b & af & E & _). now destruct b. Qed.

Lemma in_put d k v a w : In (a, w) (put_section d k v) -> (a = k /\ w = v) \/ In (a, w) d.
Proof.
  induction d as [|[k' v'] d IH]; cbn; [intros [[= -> ->]|[]]; auto|].
  destruct (k' =? k) eqn:E; cbn.
  - intros [[= -> ->]|H]; [left; split; [lia|reflexivity]|auto].
  - intros [[= -> ->]|H]; [auto|]. destruct (IH H); auto.
Qed.

Lemma key_put d k v a : In a (map fst (put_section d k v)) <-> a = k \/ In a (map fst d).
Proof.
  induction d as [|[k' v'] d IH]; cbn; [intuition|].
  destruct (k' =? k) eqn:E; cbn.
  - split; [intros [<-|H]; auto|intros [->|[<-|H]]; auto; left; lia].
  - rewrite IH. intuition.
Qed.

Lemma nodup_put d k v : NoDup (map fst d) -> NoDup (map fst (put_section d k v)).
Proof.
  induction d as [|[k' v'] d IH]; cbn; intros N; [repeat constructor; intros []|].
  inversion N as [|? ? N1 N2]; subst. destruct (k' =? k) eqn:E; cbn; constructor; auto.
  rewrite key_put. intros [->|H]; [lia|contradiction].
Qed.

Lemma find_sound m l : forall names d d', find_sections m l names d = Ok d' ->
  (forall a v, In (a, v) d' -> In (a, v) d \/ exists s, asked names l s /\ lies_at m s a /\ v = s_data s) /\
  (forall a, In a (map fst d') <-> In a (map fst d) \/ exists s, asked names l s /\ lies_at m s a) /\
  (NoDup (map fst d) -> NoDup (map fst d')) /\
  (forall s, asked names l s -> exists a, lies_at m s a).
Proof.
  induction l as [|x l IH]; intros names d d' H; cbn [find_sections] in H.
  - injection H as <-. split; [auto|]. split.
    { intros a. split; [auto|]. intros [H|(s & A & _)]; [exact H|now apply asked_nil in A]. }
    split; [auto|]. intros s A. now apply asked_nil in A.
  - destruct (existsb (bytes_eqb (s_name x)) names) eqn:X; cbn [negb] in H.
    + destruct (logical_to_physical m (s_addr x) (s_size x)) as [p|] eqn:P; [|discriminate].
      cbn [bind] in H. apply lies_spec in P. fold (without (s_name x) names) in H.
      destruct (IH _ _ _ H) as (S & K & N & T). split; [|split; [|split]].
      * intros a v I. destruct (S a v I) as [J|(s & A & L & E)].
        -- apply in_put in J. destruct J as [[-> ->]|J]; [|auto]. right. exists x.
           split; [|auto]. apply asked_cons. left. split; [reflexivity|now apply in_names].
        -- right. exists s. split; [|auto]. apply asked_cons. right. now rewrite X.
      * intros a. rewrite K, key_put. split.
        -- intros [[->|J]|(s & A & L)]; [|auto|].
           ++ right. exists x. split; [|exact P]. apply asked_cons. left. split; [reflexivity|now apply in_names].
           ++ right. exists s. split; [|exact L]. apply asked_cons. right. now rewrite X.
        -- intros [J|(s & A & L)]; [auto|]. apply asked_cons in A. rewrite X in A.
           destruct A as [[-> _]|A]; [left; left; exact (lies_fun _ _ _ _ L P)|]. right. eauto.
      * intros D. apply N. now apply nodup_put.
      * intros s A. apply asked_cons in A. rewrite X in A. destruct A as [[-> _]|A]; eauto.
    + destruct (IH _ _ _ H) as (S & K & N & T).
      assert (Q : forall s, asked names (x :: l) s <-> asked names l s).
      { intros s. rewrite asked_cons, X. split; [|auto]. intros [[-> I]|A]; [|exact A].
        apply in_names in I. congruence. }
      split; [|split; [|split]].
      * intros a v I. destruct (S a v I) as [J|(s & A & L)]; [auto|]. right. exists s. now rewrite Q.
      * intros a. rewrite K. split; (intros [J|(s & A & L)]; [auto|right; exists s; split; [now apply Q|exact L]]).
      * exact N.
      * intros s A. apply T. now apply Q.
Qed.

Lemma find_total m l : forall names d, (forall s, asked names l s -> exists a, lies_at m s a) ->
  exists d', find_sections m l names d = Ok d'.
Proof.
  induction l as [|x l IH]; intros names d H; cbn [find_sections]; [eauto|].
  destruct (existsb (bytes_eqb (s_name x)) names) eqn:X; cbn [negb].
  - destruct (H x) as (a & L).
    { apply asked_cons. left. split; [reflexivity|now apply in_names]. }
    apply lies_spec in L. rewrite L. cbn [bind]. apply IH. intros s A. apply H.
    apply asked_cons. right. now rewrite X.
  - apply IH. intros s A. apply H. apply asked_cons. right. now rewrite X.
Qed.

(** ** Sorting *)
Lemma in_insert b l x : In x (insert_block b l) <-> x = b \/ In x l.
Proof.
  induction l as [|c l IH]; cbn; [intuition|]. destruct (fst b <=? fst c); cbn; [intuition|].
  rewrite IH. intuition.
Qed.

Lemma in_sort l x : In x (sort_blocks l) <-> In x l.
Proof. induction l as [|b l IH]; cbn; [tauto|]. rewrite in_insert, IH. intuition. Qed.

Definition before (b c : block) : Prop := fst b < fst c.

Lemma insert_sorted b l : Forall (fun c => fst c <> fst b) l ->
  StronglySorted before l -> StronglySorted before (insert_block b l).
Proof.
  induction l as [|c l IH]; intros F S; cbn; [repeat constructor|].
  inversion F as [|? ? F1 F2]; subst. inversion S as [|? ? S1 S2]; subst.
  destruct (fst b <=? fst c) eqn:E.
  - constructor; [exact S|]. constructor; [unfold before; lia|].
    eapply Forall_impl; [|exact S2]. unfold before. intros; lia.
  - constructor; [now apply IH|]. apply Forall_forall. intros x I. apply in_insert in I.
    destruct I as [->|I]; [unfold before; lia|]. exact (proj1 (Forall_forall _ _) S2 x I).
Qed.

Lemma sort_sorted l : NoDup (map fst l) -> StronglySorted before (sort_blocks l).
Proof.
  induction l as [|b l IH]; cbn; intros N; [constructor|]. inversion N as [|? ? N1 N2]; subst.
  apply insert_sorted; [|now apply IH]. apply Forall_forall. intros c I. fold (sort_blocks l) in I. apply (proj1 (in_sort l c)) in I.
  intros E. apply N1. rewrite <- E. exact (in_map fst l c I).
Qed.

(** ** The version *)
Lemma nth_skip (l : list Z) : forall n x, nth_error l n = Some x -> skipn n l = x :: skipn (S n) l.
Proof.
  induction l as [|y l IH]; intros [|n] x; try discriminate; cbn [nth_error skipn].
  - now intros [= ->].
  - intros H. rewrite (IH _ _ H). reflexivity.
Qed.

Lemma version_ok e v : version_of e v -> firmware_version e = Ok v.
Proof.
  intros V. unfold firmware_version. fold version_name.
  assert (F : forall y, bytes_eqb (y_name y) version_name = true <-> y_name y = version_name)
    by (intros; apply eqb_spec).
  destruct V as [(y & (symbols & b & af & -> & -> & E & N) & S & i & sec & off & b0 & b1 & b2 & b3 & I & Se & Ad &
    E0 & E1 & E2 & E3 & B0 & B1 & B2 & B3 & R & k & Ev)|[N ->]].
  - rewrite filter_app. cbn [filter]. rewrite (proj2 (F y) E).
    replace (filter (fun y => bytes_eqb (y_name y) version_name) b) with (@nil symbol).
    2:{ symmetry. clear - N F. induction b as [|z b IH]; [reflexivity|]. cbn [filter].
        destruct (bytes_eqb (y_name z) version_name) eqn:X.
        - apply F in X. exfalso. apply (N z); [now left|exact X].
        - apply IH. intros y' I. apply N. now right. }
    cbn [app]. rewrite S. cbn [Z.eqb Pos.eqb negb]. rewrite I, Se.
    assert (Sl : slice4 (s_data sec) (y_value y - s_addr sec) = [b0; b1; b2; b3]).
    { unfold slice4, slice. replace (y_value y - s_addr sec) with (Z.of_nat off) by lia.
      replace (Z.of_nat off <? 0) with false by lia. replace (Z.of_nat off + 4 <? 0) with false by lia.
      replace (Z.to_nat (Z.of_nat off + 4) - Z.to_nat (Z.of_nat off))%nat with 4%nat by lia. rewrite Nat2Z.id.
      rewrite (nth_skip _ _ _ E0). rewrite Nat.add_1_r in E1. rewrite (nth_skip _ _ _ E1).
      replace (off + 2)%nat with (Datatypes.S (Datatypes.S off)) in E2 by lia. rewrite (nth_skip _ _ _ E2).
      replace (off + 3)%nat with (Datatypes.S (Datatypes.S (Datatypes.S off))) in E3 by lia. rewrite (nth_skip _ _ _ E3).
      reflexivity. }
    rewrite Sl. cbn [List.length Nat.eqb]. f_equal. unfold unpack_int. cbn [le_value].
    unfold byte_ok in *. change (8 * Z.of_nat 4) with 32. change (32 - 1) with 31.
    change (2 ^ 31) with 2147483648 in *. change (2 ^ 32) with 4294967296 in *.
    change (2 ^ 8) with 256 in *. change (2 ^ 16) with 65536 in *. change (2 ^ 24) with 16777216 in *.
    destruct (_ <? 2147483648) eqn:L; lia.
  - destruct (e_symtab e) as [l|] eqn:Y; [|reflexivity].
    replace (filter (fun y => bytes_eqb (y_name y) version_name) l) with (@nil symbol); [reflexivity|].
    symmetry. specialize (N l). rewrite Y in N. assert (N' : forall y, In y l -> y_name y <> version_name) by (intros y; now apply N).
    clear - N' F. induction l as [|z b IH]; [reflexivity|]. cbn [filter].
    destruct (bytes_eqb (y_name z) version_name) eqn:X.
    + apply F in X. exfalso. apply (N' z); [now left|exact X].
    + apply IH. intros y' I. apply N'. now right.
Qed.

(** ** C62 *)

(** Reading the file succeeds if every section of the image lies in a segment
    and there is a version. *)
Theorem C62_succeeds : forall e names v,
  (forall s, asked names (e_sections e) s -> exists a, lies_at (e_segments e) s a) -> version_of e v ->
  exists sections, read_elf e names = Ok (sections, v).
Proof.
  intros e names v T V. apply version_ok in V. unfold read_elf.
  destruct (find_total _ _ _ [] T) as (d & ->). cbn [bind]. rewrite V. cbn [bind]. eauto.
Qed.

(** It is refused if a section of the image lies in no segment. *)
Theorem C62_unmapped : forall e names s,
  asked names (e_sections e) s -> (forall a, ~ lies_at (e_segments e) s a) ->
  exists x, read_elf e names = Raise x.
Proof.
  intros e names s A N. unfold read_elf. destruct (find_sections _ _ _ _) as [d|x] eqn:F; [|cbn; eauto].
  destruct (find_sound _ _ _ _ _ F) as (_ & _ & _ & T). destruct (T s A) as (a & L). now apply N in L.
Qed.

(** The version it gives. *)
Theorem C62_version : forall e names sections v w, read_elf e names = Ok (sections, v) ->
  version_of e w -> v = w.
Proof.
  intros e names sections v w H V. apply version_ok in V. unfold read_elf in H.
  destruct (find_sections _ _ _ _) as [d|]; [|discriminate]. cbn [bind] in H. rewrite V in H. cbn [bind] in H. congruence.
Qed.

(** What it gives is sorted by address, at distinct addresses; every block of
    it is a section of the image at its physical address, and every section of
    the image has a block at its address. *)
Theorem C62_sections : forall e names sections v, read_elf e names = Ok (sections, v) ->
  StronglySorted (fun b c => fst b < fst c) sections /\
  (forall a d, In (a, d) sections -> exists s, part_of e names s a /\ d = s_data s) /\
  (forall s a, part_of e names s a -> exists d, In (a, d) sections).
Proof.
  intros e names sections v H. unfold read_elf in H.
  destruct (find_sections _ _ _ _) as [d|] eqn:F; [|discriminate]. cbn [bind] in H.
  destruct (firmware_version e) as [w|]; [|discriminate]. injection H as <- <-.
  destruct (find_sound _ _ _ _ _ F) as (S & K & N & _). split; [|split].
  - apply sort_sorted. apply N. constructor.
  - intros a x I. apply (proj1 (in_sort d (a, x))) in I. destruct (S _ _ I) as [[]|(s & A & L & ->)].
    exists s. split; [split; assumption|reflexivity].
  - intros s a [A L]. assert (I : In a (map fst d)) by (apply K; right; eauto).
    apply in_map_iff in I. destruct I as ([a' x] & E & I). cbn in E. subst a'. exists x. now apply in_sort.
Qed.

Lemma part_fun e names s a a' : part_of e names s a -> part_of e names s a' -> a = a'.
Proof. intros [_ H] [_ H']. eapply lies_fun; eauto. Qed.

(** If no two sections of the image have the same address, each is there with
    its data. *)
Theorem C62_complete : forall e names sections v, read_elf e names = Ok (sections, v) ->
  (forall s s' a, part_of e names s a -> part_of e names s' a -> s = s') ->
  forall a d, In (a, d) sections <-> exists s, part_of e names s a /\ d = s_data s.
Proof.
  intros e names sections v H U a d. destruct (C62_sections _ _ _ _ H) as (_ & S & C). split; [apply S|].
  intros (s & P & ->). destruct (C s a P) as (d & I). destruct (S _ _ I) as (s' & P' & ->).
  now rewrite (U _ _ _ P P').
Qed.

Lemma usable_unique e names : usable e names ->
  forall s s' a, part_of e names s a -> part_of e names s' a -> s_data s = s_data s'.
Proof.
  intros [_ B D] s s' a P P'.
  destruct (B _ _ P) as (_ & N1 & _), (B _ _ P') as (_ & N2 & _).
  assert (Q : ~ s <> s').
  { intros N. pose proof (D _ _ _ _ P P' N) as X.
    destruct (s_data s); [congruence|]. destruct (s_data s'); [congruence|]. cbn in X. lia. }
  destruct (list_eq_dec Z.eq_dec (s_data s) (s_data s')) as [E|E]; [exact E|].
  exfalso. apply Q. congruence.
Qed.

(** An usable image comes out in the form in which it can be flashed (C31, C32). *)
Theorem C62_usable : forall e names sections v, read_elf e names = Ok (sections, v) -> usable e names ->
  Flash_Proofs.image_ok 0 sections /\ sections <> [] /\
  (forall a x, In (a, x) (Flash_Proofs.image_bytes sections) <->
     exists s b i, part_of e names s b /\ nth_error (s_data s) i = Some x /\ a = b + Z.of_nat i).
Proof.
  intros e names sections v H U. destruct (C62_sections _ _ _ _ H) as (S & M & C). pose proof U as [So By Ap].
  assert (Co : forall a d, In (a, d) sections <-> exists s, part_of e names s a /\ d = s_data s).
  { intros a d. split; [apply M|]. intros (s & P & ->). destruct (C s a P) as (d & I). destruct (M _ _ I) as (s' & P' & ->).
    now rewrite (usable_unique _ _ U _ _ _ P P'). }
  assert (O : forall lo, Forall (fun b => lo <= fst b) sections -> Flash_Proofs.image_ok lo sections).
  { assert (D : forall a d a' d', In (a, d) sections -> In (a', d') sections -> a < a' -> a + Z.of_nat (length d) <= a').
    { intros a d a' d' I I' L. apply Co in I, I'. destruct I as (s & P & ->), I' as (s' & P' & ->).
      destruct (Ap _ _ _ _ P P') as [K|K]; [|exact K|lia].
      intros ->. pose proof (part_fun _ _ _ _ _ P P'). lia. }
    assert (B : forall a d, In (a, d) sections -> d <> [] /\ bytes_ok d).
    { intros a d I. apply Co in I. destruct I as (s & P & ->). now apply By in P. }
    clear - S D B. induction S as [|[a d] l S IH F]; intros lo L; cbn [Flash_Proofs.image_ok]; [exact I|].
    inversion L as [|? ? L1 L2]; subst. cbn [fst] in L1. split; [exact L1|].
    destruct (B a d (or_introl eq_refl)) as [B1 B2]. split; [exact B1|]. split; [exact B2|].
    apply IH.
    - intros a1 d1 a2 d2 I1 I2. apply (D a1 d1 a2 d2); now right.
    - intros a1 d1 I1. apply (B a1). now right.
    - apply Forall_forall. intros [a' d'] I. rewrite Forall_forall in F. specialize (F _ I).
      unfold Flash_Proofs.len. cbn [fst] in *. apply (D a d a' d'); [now left|now right|exact F]. }
  split; [|split].
  - apply O. apply Forall_forall. intros [a d] I. apply Co in I. destruct I as (s & P & ->). now apply By in P.
  - destruct So as (s & a & P). destruct (C _ _ P) as (d & I). intros ->. destruct I.
  - intros a x. unfold Flash_Proofs.image_bytes. rewrite in_concat. split.
    + intros (l & I & J). apply in_map_iff in I. destruct I as ([b d] & <- & I). cbn [fst snd] in J.
      apply Co in I. destruct I as (s & P & ->). exists s, b. revert J. generalize (s_data s) as d. clear - P.
      assert (K : forall d c, In (a, x) (Flash_Proofs.placed c d) -> exists i, nth_error d i = Some x /\ a = c + Z.of_nat i).
      { induction d as [|y d IH]; intros c; cbn; [intros []|]. intros [[= -> ->]|J].
        - exists 0%nat. cbn. split; [reflexivity|lia].
        - destruct (IH _ J) as (i & E & ->). exists (S i). split; [exact E|lia]. }
      intros d J. destruct (K _ _ J) as (i & E & ->). eauto.
    + intros (s & b & i & P & E & ->). exists (Flash_Proofs.placed b (s_data s)). split.
      { apply in_map_iff. exists (b, s_data s). split; [reflexivity|]. apply Co. eauto. }
      revert b E P. generalize (s_data s) as d. clear. intros d b E _. revert b i E.
      induction d as [|y d IH]; intros b [|i] E; try discriminate; cbn.
      * injection E as ->. left. f_equal. lia.
      * right. replace (b + Z.pos (Pos.of_succ_nat i)) with (b + 1 + Z.of_nat i) by lia. now apply IH.
Qed.

(** ** To the device *)
Ltac ob H x t1 t2 H1 := apply Proc.traces_ok_bind in H; destruct H as (x & t1 & t2 & -> & H1 & H).

(** Flashed into the bootloader, every byte of every section of the image is
    afterwards at its physical address. *)
Theorem C62_flashed : forall elapsed m e names sections v,
  read_elf e names = Ok (sections, v) -> usable e names ->
  Props_Flash.fits sections -> Props_Flash.tail_filled sections ->
  exists qs rs b,
    Async.runs (flash_image sections) tt rs (Async.Returned tt tt []) qs /\
    boot_run elapsed (power_up m) qs = (b, rs) /\ bt_locked b = true /\
    forall s a i x, part_of e names s a -> nth_error (s_data s) i = Some x ->
      bt_mem b (a + Z.of_nat i) = x.
Proof.
  intros elapsed m e names sections v H U F T. destruct (C62_usable _ _ _ _ H U) as (O & N & B).
  destruct (Props_Flash.C32_bootloader elapsed m sections O N F T) as (qs & rs & b & R & Q & L & M & _).
  exists qs, rs, b. split; [exact R|]. split; [exact Q|]. split; [exact L|].
  intros s a i x P E. apply M. apply B. eauto 6.
Qed.

(** Whatever the device answers: if flashing the file ends well, every byte of
    every section of the image was in a block that the device said it holds, at
    the physical address of the byte. *)
Theorem C62_read_back : forall parse_float float_str py_sum e names sections v ba nr t,
  read_elf e names = Ok (sections, v) -> usable e names ->
  Proc.traces (Device_Model.do_flash parse_float float_str py_sum v sections ba nr) t (Some (inr tt)) ->
  forall s a i x, part_of e names s a -> nth_error (s_data s) i = Some x ->
  exists ev block, In ev t /\ Props_Upgrade.read_back ev block /\
    In (a + Z.of_nat i, x) (Flash_Proofs.placed (fst block) (snd block)).
Proof.
  intros pf fs ps e names sections v ba nr t H U R s a i x P E.
  destruct (C62_usable _ _ _ _ H U) as (O & N & B).
  unfold Device_Model.do_flash in R.
  ob R x1 t1 r1 R1. ob R x2 t2 r2 R2. ob R x3 t3 r3 R3. ob R x4 t4 r4 R4. ob R x5 t5 r5 R5. ob R x6 t6 r6 R6.
  ob R x7 t7 r7 R7. destruct x7. apply Props_Upgrade.write_flash_flashed in R7; auto.
  destruct R7 as (bs & tw & tp & tr & -> & Eb & _ & _ & Rd).
  assert (I : In (a + Z.of_nat i, x) (Flash_Proofs.image_bytes bs)) by (rewrite Eb; apply B; eauto 6).
  unfold Flash_Proofs.image_bytes in I. apply in_concat in I. destruct I as (l & I & J).
  apply in_map_iff in I. destruct I as (blk & <- & I).
  assert (K : exists ev, In ev tr /\ Props_Upgrade.read_back ev blk).
  { clear - Rd I. induction Rd as [|ev b tr bs R1 Rd IH]; [destruct I|]. destruct I as [->|I].
    - exists ev. split; [now left|exact R1].
    - destruct (IH I) as (ev' & I' & R'). exists ev'. split; [now right|exact R']. }
  destruct K as (ev & I' & R'). exists ev, blk. split; [|split; [exact R'|exact J]].
  rewrite !in_app_iff. cbn [In]. auto 12.
Qed.

(** ** Images that are not what they should be *)
Definition sec (name : string) (addr : Z) (data : list Z) : section :=
  {| s_name := lit name; s_addr := addr; s_size := Z.of_nat (List.length data); s_data := data |}.
Definition seg (vaddr paddr size : Z) : segment := {| g_vaddr := vaddr; g_paddr := paddr; g_memsz := size |}.

(** A section that is asked for but not in the file is left out without a word:
    here the interrupt vectors. *)
Theorem C62_missing_refuted : exists e sections v name,
  In name flash_sections /\ (forall s, In s (e_sections e) -> s_name s <> name) /\
  read_elf e flash_sections = Ok (sections, v) /\ sections <> [].
Proof.
  exists {| e_segments := [seg 0x08010000 0x08010000 8];
            e_sections := [sec ".text" 0x08010000 [1; 2; 3; 4; 5; 6; 7; 8]]; e_symtab := None |},
    [(0x08010000, [1; 2; 3; 4; 5; 6; 7; 8])], 0x0100, (lit ".isr_vector").
  split; [cbn; auto 10|]. split; [|split; [vm_compute; reflexivity|discriminate]].
  intros s [<-|[]]. discriminate.
Qed.

(** Of two sections at one physical address only the later one is flashed, even
    if it is empty: the bytes of the other are lost without a word. *)
Theorem C62_same_address_refuted : exists e sections v s a,
  read_elf e flash_sections = Ok (sections, v) /\ part_of e flash_sections s a /\
  s_data s <> [] /\ Flash_Proofs.image_bytes sections = [].
Proof.
  exists {| e_segments := [seg 0x08010000 0x08010000 8];
            e_sections := [sec ".text" 0x08010000 [1; 2; 3; 4; 5; 6; 7; 8]; sec ".ARM.extab" 0x08010000 []];
            e_symtab := None |},
    [(0x08010000, [])], 0x0100, (sec ".text" 0x08010000 [1; 2; 3; 4; 5; 6; 7; 8]), 0x08010000.
  split; [vm_compute; reflexivity|]. split; [|split; [discriminate|reflexivity]].
  split.
  - exists [], [sec ".ARM.extab" 0x08010000 []]. split; [reflexivity|]. split; [cbn; auto|intros ? []].
  - apply lies_spec. reflexivity.
Qed.

(** A symbol that is not in its section is not refused: the version is then
    what the end of the section happens to hold. *)
Theorem C62_stray_version_refuted : exists e y sec0 sections v,
  first_symbol version_name e y /\ y_shndx y = Some 0%nat /\ e_sections e = [sec0] /\
  y_value y + 4 < s_addr sec0 /\ read_elf e flash_sections = Ok (sections, v) /\ v = 0x04030201.
Proof.
  pose (y := {| y_name := version_name; y_size := 4; y_value := 0x08010000 - 8; y_shndx := Some 0%nat |}).
  exists {| e_segments := [seg 0x08010000 0x08010000 8];
            e_sections := [sec ".text" 0x08010000 [1; 2; 3; 4; 5; 6; 7; 8]]; e_symtab := Some [y] |}, y,
    (sec ".text" 0x08010000 [1; 2; 3; 4; 5; 6; 7; 8]),
    [(0x08010000, [1; 2; 3; 4; 5; 6; 7; 8])], 0x04030201.
  split.
  - exists [y], [], []. split; [reflexivity|]. split; [reflexivity|]. split; [reflexivity|intros ? []].
  - split; [reflexivity|]. split; [reflexivity|]. split; [cbn; lia|]. split; [vm_compute; reflexivity|reflexivity].
Qed.

(** ** A file that is as it should be: vectors, code with the version in it,
    and initial data that is loaded elsewhere than it runs. *)
Definition ex_vectors : section := sec ".isr_vector" 0x08000000 [0; 0; 2; 0x20; 1; 0; 1; 8].
Definition ex_text : section := sec ".text" 0x08010000 [0x0a; 1; 0; 0; 0x70; 0x47; 0; 0xbf; 1; 2; 3; 4; 5; 6; 7; 8].
Definition ex_data : section := sec ".data" 0x20000000 [9; 10; 11; 12; 13; 14; 15; 16].
Definition ex_symbol : symbol :=
  {| y_name := version_name; y_size := 4; y_value := 0x08010000; y_shndx := Some 2%nat |}.
Definition ex_elf : elf := {|
  e_segments := [seg 0x08000000 0x08000000 8; seg 0x08010000 0x08010000 16; seg 0x20000000 0x08010010 64];
  e_sections := [ex_data; ex_vectors; ex_text; sec ".bss" 0x20000008 (repeat 0 56)];
  e_symtab := Some [{| y_name := lit "main"; y_size := 2; y_value := 0x08010004; y_shndx := Some 2%nat |}; ex_symbol] |}.

Lemma ex_parts s a : part_of ex_elf flash_sections s a <->
  (s = ex_vectors /\ a = 0x08000000) \/ (s = ex_text /\ a = 0x08010000) \/ (s = ex_data /\ a = 0x08010010).
Proof.
  unfold part_of. rewrite <- lies_spec. cbn [ex_elf e_sections e_segments]. split.
  - intros [A L]. apply asked_cons in A. destruct A as [[-> _]|A]; [injection L as <-; auto|].
    apply asked_cons in A. destruct A as [[-> _]|A]; [injection L as <-; auto|].
    apply asked_cons in A. destruct A as [[-> _]|A]; [injection L as <-; auto|].
    apply asked_cons in A. destruct A as [[-> A]|A]; [|now apply asked_nil in A].
    exfalso. apply in_names in A. discriminate.
  - intros [[-> ->]|[[-> ->]|[-> ->]]]; (split; [|reflexivity]).
    + exists [ex_data], [ex_text; sec ".bss" 0x20000008 (repeat 0 56)]. split; [reflexivity|].
      split; [cbn; auto 10|]. intros s [<-|[]]. discriminate.
    + exists [ex_data; ex_vectors], [sec ".bss" 0x20000008 (repeat 0 56)]. split; [reflexivity|].
      split; [cbn; auto 10|]. intros s [<-|[<-|[]]]; discriminate.
    + exists [], [ex_vectors; ex_text; sec ".bss" 0x20000008 (repeat 0 56)]. split; [reflexivity|].
      split; [cbn; auto 10|]. intros s [].
Qed.

Example C62_ex_usable : usable ex_elf flash_sections.
Proof.
  constructor.
  - exists ex_text, 0x08010000. apply ex_parts. auto.
  - intros s a P. apply ex_parts in P.
    destruct P as [[-> ->]|[[-> ->]|[-> ->]]]; (split; [lia|]; split; [discriminate|]);
      apply Forall_forall; intros x I; unfold byte_ok; cbn in I;
      repeat (destruct I as [<-|I]; [lia|]); destruct I.
  - intros s a s' a' P P' N. apply ex_parts in P, P'.
    destruct P as [[-> ->]|[[-> ->]|[-> ->]]], P' as [[-> ->]|[[-> ->]|[-> ->]]]; try (now destruct N); cbn; lia.
Qed.

Example C62_ex_version : version_of ex_elf 0x010a.
Proof.
  left. exists ex_symbol. split.
  - eexists _, [_], []. split; [reflexivity|]. split; [reflexivity|]. split; [reflexivity|].
    intros y [<-|[]]. discriminate.
  - split; [reflexivity|]. exists 2%nat, ex_text, 0%nat, 0x0a, 1, 0, 0. unfold byte_ok, int32_of.
    repeat split; try reflexivity; try lia. exists 0. reflexivity.
Qed.

Definition ex_sections : list block :=
  [(0x08000000, s_data ex_vectors); (0x08010000, s_data ex_text); (0x08010010, s_data ex_data)].

Example C62_ex_read : read_elf ex_elf flash_sections = Ok (ex_sections, 0x010a).
Proof. vm_compute. reflexivity. Qed.

Example C62_ex_flashed : Props_Flash.fits ex_sections /\ Props_Flash.tail_filled ex_sections.
Proof.
  split.
  - split.
    + intros a v H. apply Props_Flash.image_in in H as (b & I & H). apply Props_Flash.placed_ge in H.
      unfold Flash_Proofs.len, Boot_Proofs.writable in *.
      destruct I as [<-|[<-|[<-|[]]]]; cbn in *; lia.
    + unfold Flash_Proofs.image_end, Flash_Proofs.block_end, Flash_Proofs.len, Boot_Proofs.writable. cbn. lia.
  - intros x H. exfalso. unfold Flash_Proofs.image_end, Flash_Proofs.block_end, Flash_Proofs.len in H.
    cbn in H. lia.
Qed.

Print Assumptions C62_succeeds.
Print Assumptions C62_unmapped.
Print Assumptions C62_version.
Print Assumptions C62_sections.
Print Assumptions C62_complete.
Print Assumptions C62_usable.
Print Assumptions C62_flashed.
Print Assumptions C62_read_back.
Print Assumptions C62_missing_refuted.
Print Assumptions C62_same_address_refuted.
Print Assumptions C62_stray_version_refuted.
