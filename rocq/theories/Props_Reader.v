(** C30: the telemetry reader decodes what was encoded. *)
From Coq Require Import Ascii String ZArith List Bool Lia Reals Lra.
From Coq Require Import ZifyBool ZifyNat.
From Coq Require Import Floats.SpecFloat.
From Flocq Require Import Core BinarySingleNaN Relative.
From Verif Require Import PyBase PyBytes PyFloat Mux_Proofs Float_Proofs Props_Quant Reader_Model Reader_Spec
  Reader_Proofs.
Import ListNotations.
Open Scope Z_scope.

(** The local functions of [read]. *)
Definition read_fields : list (field_info * ty) -> parser (list (str * value)) :=
  fix go fs := match fs with
    | [] => pret []
    | (i, t) :: fs =>
        let! v := read t in
        let! l := go fs in
        pret ((escape_python3_identifier (fi_name i), v) :: l)
    end.
Definition read_nth : list ty -> nat -> parser value :=
  fix nth ts i := match ts, i with
    | [], _ => pfail IndexError
    | t :: _, O => read t
    | _ :: ts, S i => nth ts i
    end.
Definition read_pair (t : ty) : parser (str * value) :=
  let! k := read_string in let! v := read t in pret (k, v).
Lemma read_object flags fs l : read (TObject flags fs) l = (let! l := read_fields fs in pret (VTuple l)) l.
Proof. reflexivity. Qed.
Lemma read_union ts l :
  read (TUnion ts) l = (let! i := read_varuint in read_nth ts (Z.to_nat i)) l.
Proof. reflexivity. Qed.
Lemma read_map t l : read (TMap t) l =
  (let! n := read_varuint in
   let! l := times (Z.to_nat n) (read_pair t) in pret (VDict (dict_of l))) l.
Proof. reflexivity. Qed.
Lemma read_nth_error ts : forall i t l, nth_error ts i = Some t -> read_nth ts i l = read t l.
Proof.
  induction ts as [|u ts IH]; intros [|i] t l H; try discriminate; cbn in *.
  - now injection H as ->.
  - now apply IH.
Qed.

Scheme enc_ind4 := Minimality for enc Sort Prop
  with enc_fields_ind4 := Minimality for enc_fields Sort Prop
  with enc_list_ind4 := Minimality for enc_list Sort Prop
  with enc_pairs_ind4 := Minimality for enc_pairs Sort Prop.
Combined Scheme enc_mutind from enc_ind4, enc_fields_ind4, enc_list_ind4, enc_pairs_ind4.

Ltac seq H := rewrite (pseq_ok _ _ _ _ _ _ _ H).

Lemma read_enc :
  (forall t v b, enc t v b -> forall rest, read t (b ++ rest) = Ok (v, rest)) /\
  (forall fs vs b, enc_fields fs vs b -> forall rest, read_fields fs (b ++ rest) = Ok (vs, rest)) /\
  (forall t vs b, enc_list t vs b -> forall rest,
     times (List.length vs) (read t) (b ++ rest) = Ok (vs, rest)) /\
  (forall t kvs b, enc_pairs t kvs b -> forall rest,
     times (List.length kvs) (read_pair t) (b ++ rest) = Ok (kvs, rest)).
Proof.
  apply enc_mutind.
  - reflexivity.
  - intros b H rest. cbn [read]. replace [b] with (le_bytes 1 b).
    + seq (read_unsigned_ok 1 b rest ltac:(lia) ltac:(cbn; lia)). reflexivity.
    + cbn. now rewrite Z.mod_small by lia.
  - intros size v b [->|[->|[->| ->]]] R -> rest; cbn [read]; unfold read_sized; cbn [Z.eqb Pos.eqb];
      match goal with |- context [le_bytes ?n _] =>
        let m := eval cbv in n in change n with m;
        seq (read_signed_ok m v rest ltac:(lia) R) end; reflexivity.
  - intros size v b [->|[->|[->| ->]]] R -> rest; cbn [read]; unfold read_sized; cbn [Z.eqb Pos.eqb];
      match goal with |- context [le_bytes ?n _] =>
        let m := eval cbv in n in change n with m;
        seq (read_unsigned_ok m v rest ltac:(lia) R) end; reflexivity.
  - intros v b U rest. cbn [read]. now seq (read_varuint_ok v b rest U).
  - intros y w b P R -> rest. cbn [read]. unfold read_f32.
    seq (read_format_ok _ 4 unpack_f32 (le_bytes 4 w) rest (le_bytes_length 4 w) ltac:(lia)).
    unfold unpack_f32. rewrite le_value_bytes, Z.mod_small by exact R. now rewrite (f32_pattern_ok y w P).
  - intros y w b P R -> rest. cbn [read]. unfold read_f64.
    seq (read_format_ok _ 8 (fun d => f64_of_bits (le_value d)) (le_bytes 8 w) rest (le_bytes_length 8 w) ltac:(lia)).
    rewrite le_value_bytes, Z.mod_small by exact R. now rewrite (f64_pattern_ok y w P).
  - intros d b B rest. cbn [read]. now seq (read_bytes_ok d b rest B).
  - intros s b B rest. cbn [read]. now seq (read_string_ok s b rest B).
  - intros flags fs vs b _ IH rest. rewrite read_object. now seq (IH rest).
  - intros name t items z o b _ IH F rest. cbn [read]. seq (IH rest). now rewrite (first_name_ok _ _ _ F).
  - intros t vs n b U _ IH rest. cbn [read]. rewrite <- app_assoc. seq (read_varuint_ok _ _ (b ++ rest) U).
    rewrite Nat2Z.id. now seq (IH rest).
  - intros size t vs b -> _ IH rest. cbn [read]. rewrite Nat2Z.id. now seq (IH rest).
  - intros t kvs d n b U _ IH D rest. rewrite read_map. rewrite <- app_assoc.
    seq (read_varuint_ok _ _ (b ++ rest) U). rewrite Nat2Z.id. seq (IH rest).
    apply dict_with_ok in D as [-> _]. reflexivity.
  - intros ts i t n v b U E _ IH rest. rewrite read_union, <- app_assoc.
    seq (read_varuint_ok _ _ (b ++ rest) U). rewrite Nat2Z.id, (read_nth_error _ _ _ _ E). apply IH.
  - intros us b R -> rest. cbn [read]. now seq (read_signed_ok 8 us rest ltac:(lia) R).
  - intros us b R -> rest. cbn [read]. now seq (read_signed_ok 8 us rest ltac:(lia) R).
  - reflexivity.
  - intros i t fs v vs b b' N1 N2 _ IH _ IH' rest. cbn [read_fields]. rewrite <- app_assoc.
    seq (IH (b' ++ rest)). fold read_fields. seq (IH' rest). now rewrite attribute_ok.
  - reflexivity.
  - intros t v vs b b' _ IH _ IH' rest. cbn [times List.length]. rewrite <- app_assoc.
    seq (IH (b' ++ rest)). now seq (IH' rest).
  - reflexivity.
  - intros t k v kvs bk b b' T _ IH _ IH' rest. cbn [times List.length]. rewrite <- !app_assoc.
    assert (read_pair t (bk ++ b ++ b' ++ rest) = Ok ((k, v), b' ++ rest)) as E.
    { unfold read_pair. seq (read_string_ok k bk (b ++ b' ++ rest) T). now seq (IH (b' ++ rest)). }
    seq E. now seq (IH' rest).
Qed.

(** Reading the encoding of a value gives the value and consumes exactly the
    encoding, whatever follows. *)
Theorem C30_data : forall t v b rest, enc t v b -> read t (b ++ rest) = Ok (v, rest).
Proof. intros t v b rest H. now apply (proj1 read_enc). Qed.

(** Hence an encoding means one value, and none is the beginning of another. *)
Theorem C30_unambiguous : forall t v v' b b' r r', enc t v b -> enc t v' b' ->
  b ++ r = b' ++ r' -> v = v' /\ b = b' /\ r = r'.
Proof.
  intros t v v' b b' r r' H H' E. pose proof (C30_data t v b r H) as R.
  rewrite E, (C30_data t v' b' r' H') in R. injection R as <- <-.
  split; [reflexivity|]. split; [|reflexivity]. now apply app_inv_tail in E.
Qed.

(** ** Schemas *)
Section Ty_induction.
Variable P : ty -> Prop.
Hypothesis P_leaf : forall t, match t with
  | TObject _ _ | TEnum _ _ _ | TArray _ | TFixedArray _ _ | TMap _ | TUnion _ => False | _ => True end ->
  P t.
Hypothesis P_object : forall flags fs, Forall (fun f => P (snd f)) fs -> P (TObject flags fs).
Hypothesis P_enum : forall n t items, P t -> P (TEnum n t items).
Hypothesis P_array : forall t, P t -> P (TArray t).
Hypothesis P_fixed : forall n t, P t -> P (TFixedArray n t).
Hypothesis P_map : forall t, P t -> P (TMap t).
Hypothesis P_union : forall ts, Forall P ts -> P (TUnion ts).
Fixpoint ty_induction (t : ty) : P t :=
  match t with
  | TObject flags fs => P_object flags fs
      ((fix go fs : Forall (fun f => P (snd f)) fs := match fs with
        | [] => Forall_nil _
        | f :: fs => Forall_cons _ (ty_induction (snd f)) (go fs)
        end) fs)
  | TEnum n t items => P_enum n t items (ty_induction t)
  | TArray t => P_array t (ty_induction t)
  | TFixedArray n t => P_fixed n t (ty_induction t)
  | TMap t => P_map t (ty_induction t)
  | TUnion ts => P_union ts
      ((fix go ts : Forall P ts := match ts with
        | [] => Forall_nil _
        | t :: ts => Forall_cons _ (ty_induction t) (go ts)
        end) ts)
  | t => P_leaf t I
  end.
End Ty_induction.

Lemma pseq_ext A B (p q : parser A) (f g : A -> parser B) l : p l = q l ->
  (forall a l, f a l = g a l) -> pseq p f l = pseq q g l.
Proof. intros E F. unfold pseq. rewrite E. destruct (q l) as [[a l']|e]; auto. Qed.
Lemma times_ext A (p q : parser A) n : (forall l, p l = q l) -> forall l, times n p l = times n q l.
Proof.
  intros E. induction n as [|n IH]; intros l; [reflexivity|]. cbn [times].
  apply pseq_ext; [apply E|]. intros a l'. apply pseq_ext; auto.
Qed.

Lemma read_forget t : forall l, read (forget_flags t) l = read t l.
Proof.
  induction t as [t L|flags fs F|n t items IH|t IH|n t IH|t IH|ts F] using ty_induction.
  - now destruct t.
  - intros l. cbn [forget_flags]. rewrite !read_object. apply pseq_ext; [|reflexivity].
    revert l. induction F as [|[i t] fs H F IH]; intros l; [reflexivity|].
    cbn [map fst snd read_fields]. fold read_fields. apply pseq_ext; [apply H|].
    intros a l'. apply pseq_ext; [apply IH|reflexivity].
  - intros l. cbn [forget_flags read]. now apply pseq_ext.
  - intros l. cbn [forget_flags read]. apply pseq_ext; [reflexivity|]. intros n l'.
    apply pseq_ext; [now apply times_ext|reflexivity].
  - intros l. cbn [forget_flags read]. apply pseq_ext; [now apply times_ext|reflexivity].
  - intros l. cbn [forget_flags]. rewrite !read_map. apply pseq_ext; [reflexivity|]. intros n l'.
    apply pseq_ext; [|reflexivity]. apply times_ext. intros l''. unfold read_pair.
    apply pseq_ext; [reflexivity|]. intros k l3. now apply pseq_ext.
  - intros l. cbn [forget_flags]. rewrite !read_union. apply pseq_ext; [reflexivity|].
    intros i l'. generalize (Z.to_nat i). clear i.
    induction F as [|t ts H F IH]; intros [|i]; try reflexivity; cbn; [apply H|apply IH].
Qed.

Lemma attribute_fine n : plain_name n -> all_ascii (attribute n) = true /\
  ascii_identifier (attribute n) = true /\ str_in (attribute n) keyword_list = false /\
  starts_with_underscore (attribute n) = false.
Proof.
  intros (A & B & C). unfold attribute. destruct (str_in n keyword_list) eqn:E; [|auto].
  repeat split.
  - unfold all_ascii. rewrite forallb_app. apply andb_true_iff. split; [reflexivity|exact A].
  - destruct n as [|c n]; [discriminate|]. cbn [ascii_identifier] in B. apply andb_true_iff in B as [B1 B2].
    change (ident_start 112 && forallb ident_char ([121; 95] ++ c :: n) = true).
    rewrite forallb_app. cbn [forallb]. rewrite B2. unfold ident_char at 3. rewrite B1. reflexivity.
Qed.

Lemma namedtuple_fine names : forall seen,
  Forall (fun a => all_ascii a = true /\ ascii_identifier a = true /\
                   str_in a keyword_list = false /\ starts_with_underscore a = false) names ->
  NoDup names -> (forall n, In n names -> ~ In n seen) -> namedtuple_names seen names = Ok tt.
Proof.
  induction names as [|n names IH]; intros seen F N D; [reflexivity|].
  apply Forall_cons_iff in F as [(A & B & C & E) F]. cbn [namedtuple_names].
  rewrite A, B, C, E. cbn [negb orb].
  assert (str_in n seen = false) as ->.
  { unfold str_in. apply not_true_iff_false. rewrite existsb_exists. intros (k & I & Ek).
    destruct (str_eqb_spec n k); [subst k|discriminate]. apply (D n); [now left|exact I]. }
  apply NoDup_cons_iff in N as [N1 N2]. apply IH; auto.
  intros m I [<-|J]; [contradiction|]. apply (D m); [now right|exact J].
Qed.

Lemma read_texts l b : texts l b -> forall rest, times (List.length l) read_string (b ++ rest) = Ok (l, rest).
Proof.
  induction 1 as [|s l b b' T _ IH]; intros rest; [reflexivity|]. cbn [times List.length].
  rewrite <- app_assoc. seq (read_string_ok s b (b' ++ rest) T). now seq (IH rest).
Qed.

Lemma read_items t items b : enc_items t items b -> forall rest,
  times (List.length items) (enum_item (forget_flags t)) (b ++ rest) = Ok (items, rest).
Proof.
  induction 1 as [|k z l bz bk b E T _ IH]; intros rest; [reflexivity|]. cbn [times List.length].
  rewrite <- !app_assoc.
  assert (enum_item (forget_flags t) (bz ++ bk ++ b ++ rest) = Ok ((k, z), b ++ rest)) as R.
  { unfold enum_item. erewrite pseq_ok; [|rewrite read_forget; apply C30_data; exact E].
    seq (read_string_ok k bk (b ++ rest) T). reflexivity. }
  seq R. now seq (IH rest).
Qed.

Scheme schema_ind3 := Minimality for schema Sort Prop
  with schema_fields_ind3 := Minimality for schema_fields Sort Prop
  with schema_list_ind3 := Minimality for schema_list Sort Prop.
Combined Scheme schema_mutind from schema_ind3, schema_fields_ind3, schema_list_ind3.

Definition forget_fields (fs : list (field_info * ty)) :=
  map (fun f => (fst f, forget_flags (snd f))) fs.

Lemma uint_length v b : uint v b -> (1 <= List.length b)%nat.
Proof. intros [H _]. now apply varuint_length in H. Qed.
Lemma text_length s b : text s b -> (1 <= List.length b)%nat.
Proof. intros (_ & _ & n & U & ->). apply uint_length in U. rewrite app_length. lia. Qed.

Lemma read_u8 b rest : 0 <= b < 256 -> read_unsigned 1 (b :: rest) = Ok (b, rest).
Proof.
  intros H. change (b :: rest) with ([b] ++ rest). replace [b] with (le_bytes 1 b).
  - apply read_unsigned_ok; cbn; lia.
  - cbn. now rewrite Z.mod_small by lia.
Qed.

Lemma is_final_forget t : t <> TFinal -> is_final (forget_flags t) = false.
Proof. now destruct t. Qed.

Lemma existsb_size s : int_size s -> existsb (Z.eqb s) [1; 2; 4; 8] = true.
Proof. now intros [->|[->|[->| ->]]]. Qed.

Ltac simple_code := intros nm c C n rest L; (destruct n as [|n]; [lia|]);
  cbn [from_binary]; now seq (read_varuint_ok _ _ rest C).

Lemma read_default t d b : schema_default t d b -> forall rest,
  exists c l, read_unsigned 1 (b ++ rest) = Ok (c, l) /\
  (if negb (c =? 0) then let! v := read (forget_flags t) in pret (Some v) else pret None) l = Ok (d, rest).
Proof.
  intros [|v c b' Rc E] rest.
  - exists 0, rest. split; [now apply read_u8|reflexivity].
  - exists c, (b' ++ rest). split; [apply read_u8; lia|].
    destruct (Z.eqb_spec c 0); [lia|]. cbn [negb].
    erewrite pseq_ok; [|rewrite read_forget; apply C30_data; exact E]. reflexivity.
Qed.

Lemma from_binary_schema :
  (forall nm t b, schema nm t b -> forall n rest, (List.length b < n)%nat ->
     from_binary n nm (b ++ rest) = Ok (forget_flags t, rest)) /\
  (forall fs b, schema_fields fs b -> forall n m rest, (List.length b < n)%nat -> (List.length fs < m)%nat ->
     object_loop (from_binary n) m (b ++ rest) = Ok ((0, forget_fields fs), rest) /\
     Forall (fun f => plain_name (fi_name (fst f)) /\ fi_name (fst f) <> lit "async" /\
                      fi_name (fst f) <> lit "await") fs /\
     (List.length fs < List.length b)%nat) /\
  (forall ts b, schema_list ts b -> forall n m rest, (List.length b < n)%nat -> (List.length ts < m)%nat ->
     union_loop (from_binary n (lit "_")) m (b ++ rest) = Ok (map forget_flags ts, rest) /\
     (List.length ts < List.length b)%nat).
Proof.
  apply schema_mutind; try simple_code.
  - (* int *) intros nm c size C S n rest L. rewrite app_length in L. destruct n as [|n]; [lia|].
    cbn [from_binary]. rewrite <- app_assoc. seq (read_varuint_ok _ _ ([size] ++ rest) C).
    cbn [app]. seq (read_u8 size rest ltac:(unfold int_size in S; lia)). now rewrite existsb_size.
  - (* uint *) intros nm c size C S n rest L. rewrite app_length in L. destruct n as [|n]; [lia|].
    cbn [from_binary]. rewrite <- app_assoc. seq (read_varuint_ok _ _ ([size] ++ rest) C).
    cbn [app]. seq (read_u8 size rest ltac:(unfold int_size in S; lia)). now rewrite existsb_size.
  - (* object *) intros nm c flags fs bf b C U _ IH ND n rest L. rewrite !app_length in L.
    destruct n as [|n]; [lia|]. cbn [from_binary]. rewrite <- !app_assoc.
    seq (read_varuint_ok _ _ (bf ++ b ++ rest) C). seq (read_varuint_ok _ _ (b ++ rest) U).
    apply uint_length in C.
    assert (List.length fs < S (List.length (b ++ rest)))%nat as Lm.
    { destruct (IH n (S (List.length fs)) rest) as (_ & _ & X); [lia|lia|].
      rewrite app_length. lia. }
    destruct (IH n (S (List.length (b ++ rest))) rest ltac:(lia) Lm) as (R & F & _).
    erewrite pseq_ok; [|exact R]. cbn [fst snd]. unfold object_type.
    rewrite namedtuple_fine; [reflexivity| | |tauto].
    + unfold forget_fields. rewrite map_map. cbn [fst]. apply Forall_map.
      eapply Forall_impl; [|exact F]. intros f (P & N1 & N2). rewrite attribute_ok by assumption.
      now apply attribute_fine.
    + unfold forget_fields. rewrite map_map. cbn [fst]. unfold attribute_names in ND.
      erewrite map_ext_in; [exact ND|]. intros f I. rewrite Forall_forall in F.
      destruct (F f I) as (_ & N1 & N2). now apply attribute_ok.
  - (* enum *) intros nm c t items bt k b C _ IH U E NE ND F NZ n rest L. rewrite !app_length in L.
    destruct n as [|n]; [lia|]. cbn [from_binary]. rewrite <- !app_assoc.
    seq (read_varuint_ok _ _ (bt ++ k ++ b ++ rest) C). apply uint_length in C.
    seq (IH n (k ++ b ++ rest) ltac:(lia)). seq (read_varuint_ok _ _ (b ++ rest) U).
    rewrite Nat2Z.id. seq (read_items _ _ _ E rest). rewrite (dict_of_nodup _ _ ND).
    unfold enum_type. destruct items as [|it items]; [congruence|]. unfold enum_create.
    assert (str_in (lit "mro") (map fst (it :: items)) = false) as ->.
    { unfold str_in. apply not_true_iff_false. rewrite existsb_exists. intros (x & I & Ex).
      destruct (str_eqb_spec (lit "mro") x) as [<-|]; [|discriminate].
      rewrite Forall_forall in F. now destruct (F _ I). }
    assert (existsb (Z.eqb 0) nm = false) as ->.
    { apply not_true_iff_false. rewrite existsb_exists. intros (x & I & Ex). apply Z.eqb_eq in Ex.
      now subst x. }
    cbn [orb].
    match goal with |- context [existsb ?f (it :: items)] =>
      assert (existsb f (it :: items) = false) as -> end.
    { apply not_true_iff_false. rewrite existsb_exists. intros (x & I & Ex).
      rewrite Forall_forall in F. destruct (F (fst x)) as ((_ & A & B) & _); [now apply in_map|].
      destruct (fst x); [discriminate|congruence]. }
    reflexivity.
  - (* array *) intros nm c t b C _ IH n rest L. rewrite app_length in L. destruct n as [|n]; [lia|].
    cbn [from_binary]. rewrite <- app_assoc. seq (read_varuint_ok _ _ (b ++ rest) C).
    apply uint_length in C. now seq (IH n rest ltac:(lia)).
  - (* fixed array *) intros nm c size k t b C U _ IH n rest L. rewrite !app_length in L.
    destruct n as [|n]; [lia|]. cbn [from_binary]. rewrite <- !app_assoc.
    seq (read_varuint_ok _ _ (k ++ b ++ rest) C). seq (read_varuint_ok _ _ (b ++ rest) U).
    apply uint_length in C. now seq (IH n rest ltac:(lia)).
  - (* map *) intros nm c t b C _ IH n rest L. rewrite app_length in L. destruct n as [|n]; [lia|].
    cbn [from_binary]. rewrite <- app_assoc. seq (read_varuint_ok _ _ (b ++ rest) C).
    apply uint_length in C. now seq (IH n rest ltac:(lia)).
  - (* union *) intros nm c ts b C _ IH n rest L. rewrite app_length in L. destruct n as [|n]; [lia|].
    cbn [from_binary]. rewrite <- app_assoc. seq (read_varuint_ok _ _ (b ++ rest) C).
    apply uint_length in C.
    assert (List.length ts < S (List.length (b ++ rest)))%nat as Lm.
    { destruct (IH n (S (List.length ts)) rest) as (_ & X); [lia|lia|]. rewrite app_length. lia. }
    destruct (IH n (S (List.length (b ++ rest))) rest ltac:(lia) Lm) as (R & _).
    erewrite pseq_ok; [|exact R]. reflexivity.
  - (* no field *) intros n m rest L Lm. destruct m as [|m]; [lia|]. destruct n as [|n]; [lia|].
    split; [reflexivity|]. split; [constructor|cbn; lia].
  - (* a field *) intros i t fs bf bn na ba bt bd b P N1 N2 U T A Ta _ IHt NF D _ IHf n m rest L Lm.
    rewrite !app_length in L. apply uint_length in U as LU. cbn [List.length] in *.
    destruct m as [|m]; [lia|]. cbn [object_loop]. rewrite <- !app_assoc.
    destruct (IHf n m rest) as (R & F & X); [lia|lia|].
    split; [|split; [constructor; auto|rewrite !app_length; lia]].
    seq (read_varuint_ok _ _ (bn ++ na ++ ba ++ bt ++ bd ++ b ++ rest) U).
    seq (read_string_ok _ _ (na ++ ba ++ bt ++ bd ++ b ++ rest) T).
    seq (read_varuint_ok _ _ (ba ++ bt ++ bd ++ b ++ rest) A). rewrite Nat2Z.id.
    seq (read_texts _ _ Ta (bt ++ bd ++ b ++ rest)).
    seq (IHt n (bd ++ b ++ rest) ltac:(lia)).
    destruct (read_default _ _ _ D (b ++ rest)) as (c & l & R1 & R2). seq R1. seq R2.
    rewrite is_final_forget by exact NF. seq R. destruct i. reflexivity.
  - intros c C n m rest L Lm. destruct m as [|m]; [lia|]. cbn [union_loop List.length] in *.
    apply uint_length in C as LC. split; [|exact LC]. destruct n as [|n]; [lia|].
    assert (from_binary (S n) (lit "_") (c ++ rest) = Ok (TFinal, rest)) as R.
    { cbn [from_binary]. now seq (read_varuint_ok _ _ rest C). }
    now seq R.
  - intros t ts b b' S IH NF _ IH' n m rest L Lm. rewrite app_length in L. cbn [List.length] in *.
    destruct m as [|m]; [lia|]. cbn [union_loop]. rewrite <- app_assoc.
    destruct (IH' n m rest) as (R & X); [lia|lia|]. split.
    + seq (IH n (b' ++ rest) ltac:(lia)). rewrite is_final_forget by exact NF. now seq R.
    + rewrite app_length. assert (1 <= List.length b)%nat; [|lia].
      destruct S; repeat match goal with C : code _ _ |- _ => apply uint_length in C end;
        rewrite ?app_length; lia.
Qed.

(** Decoding a schema gives the type it describes, but for the flags of objects,
    and consumes exactly the schema. *)
Theorem C30_schema : forall nm t b rest, schema nm t b ->
  type_from_binary nm (b ++ rest) = Ok (forget_flags t, rest).
Proof.
  intros nm t b rest H. unfold type_from_binary.
  apply (proj1 from_binary_schema nm t b H). rewrite app_length. lia.
Qed.

(** So reading with the decoded type gives the encoded value. *)
Theorem C30_end_to_end : forall t v bs bd rs rd, schema (lit "_") t bs -> enc t v bd ->
  exists t', type_from_binary (lit "_") (bs ++ rs) = Ok (t', rs) /\ read t' (bd ++ rd) = Ok (v, rd).
Proof.
  intros t v bs bd rs rd S E. exists (forget_flags t). split; [now apply C30_schema|].
  rewrite read_forget. now apply C30_data.
Qed.

(** ** What the parsers consume, and that they end *)
Definition suffix (l l' : list Z) : Prop := exists b, l = b ++ l'.
Lemma suffix_trans l l' l'' : suffix l l' -> suffix l' l'' -> suffix l l''.
Proof. intros [b ->] [c ->]. exists (b ++ c). now rewrite app_assoc. Qed.
Lemma suffix_length l l' : suffix l l' -> (List.length l' <= List.length l)%nat.
Proof. intros [b ->]. rewrite app_length. lia. Qed.
Lemma suffix_refl l : suffix l l.
Proof. now exists []. Qed.

(** On at most [k] bytes: not out of fuel, and the rest is a rest. *)
Definition safe_on {A} (k : nat) (p : parser A) : Prop := forall l, (List.length l <= k)%nat ->
  match p l with Ok (_, l') => suffix l l' | Raise e => e <> Diverges end.
Definition eats_on {A} (k : nat) (p : parser A) : Prop := forall l a l', (List.length l <= k)%nat ->
  p l = Ok (a, l') -> (List.length l' < List.length l)%nat.

Lemma safe_pret A k (a : A) : safe_on k (pret a).
Proof. intros l _. apply suffix_refl. Qed.
Lemma safe_pfail A k e : e <> Diverges -> safe_on k (pfail (A := A) e).
Proof. intros N l _. exact N. Qed.
Lemma safe_seq A B k (p : parser A) (f : A -> parser B) :
  safe_on k p -> (forall a, safe_on k (f a)) -> safe_on k (pseq p f).
Proof.
  intros P F l L. specialize (P l L). unfold pseq. destruct (p l) as [[a l']|e]; [|exact P].
  pose proof (suffix_length _ _ P). specialize (F a l' ltac:(lia)).
  destruct (f a l') as [[b l'']|e]; [|exact F]. eapply suffix_trans; eauto.
Qed.
Lemma safe_eats A B k (p : parser A) (f : A -> parser B) :
  safe_on k p -> eats_on k p -> (forall a k', (k' < k)%nat -> safe_on k' (f a)) -> safe_on k (pseq p f).
Proof.
  intros P E F l L. specialize (P l L). specialize (E l). unfold pseq.
  destruct (p l) as [[a l']|e]; [|exact P].
  specialize (E a l' L eq_refl). specialize (F a (List.length l') ltac:(lia) l' ltac:(lia)).
  destruct (f a l') as [[b l'']|e]; [|exact F]. eapply suffix_trans; eauto.
Qed.
Lemma eats_seq A B k (p : parser A) (f : A -> parser B) :
  safe_on k p -> eats_on k p -> (forall a k', (k' < k)%nat -> safe_on k' (f a)) -> eats_on k (pseq p f).
Proof.
  intros P E F l b l'' L H. apply pseq_inv in H as (a & l' & H1 & H2).
  specialize (E l a l' L H1). specialize (F a (List.length l') ltac:(lia) l' ltac:(lia)).
  rewrite H2 in F. apply suffix_length in F. lia.
Qed.
Lemma safe_times A k (p : parser A) n : safe_on k p -> safe_on k (times n p).
Proof.
  intros P. induction n as [|n IH]; cbn [times]; [apply safe_pret|].
  apply safe_seq; [exact P|]. intros a. apply safe_seq; [exact IH|]. intros b. apply safe_pret.
Qed.

Lemma varuint_loop_safe l : forall r fk, match varuint_loop r fk l with
  | Ok (_, l') => exists x b, l = (x :: b) ++ l' | Raise e => e <> Diverges end.
Proof.
  induction l as [|x l IH]; intros r fk; [discriminate|]. cbn [varuint_loop].
  destruct (x <? 128); [exists x, []; reflexivity|]. destruct (_ >=? _); [discriminate|].
  specialize (IH (r + fk * Z.land x 127) (fk * 128)).
  destruct (varuint_loop _ _ _) as [[v l']|e]; [|exact IH]. destruct IH as (y & b & ->).
  exists x, (y :: b). reflexivity.
Qed.
Lemma read_varuint_safe k : safe_on k read_varuint.
Proof.
  intros l _. pose proof (varuint_loop_safe l 0 1) as H. unfold read_varuint.
  destruct (varuint_loop 0 1 l) as [[v l']|e]; [|exact H]. destruct H as (x & b & ->). now exists (x :: b).
Qed.
Lemma read_varuint_eats k : eats_on k read_varuint.
Proof.
  intros l a l' _ E. pose proof (varuint_loop_safe l 0 1) as H. unfold read_varuint in E.
  rewrite E in H. destruct H as (x & b & ->). cbn. rewrite app_length. lia.
Qed.
Lemma base_read_safe k n : safe_on k (base_read n).
Proof.
  intros l _. unfold base_read. destruct (_ >=? _); [discriminate|].
  exists (firstn (Z.to_nat n) l). symmetry. apply firstn_skipn.
Qed.
Lemma read_bytes_safe k : safe_on k read_bytes.
Proof. apply safe_seq; [apply read_varuint_safe|]. intros n. apply base_read_safe. Qed.
Lemma utf8_decode_raises n : forall d e, (List.length d <= n)%nat -> utf8_decode d = Raise e -> e <> Diverges.
Proof.
  induction n as [|n IH]; intros d e L H; [destruct d; [discriminate|cbn in L; lia]|].
  destruct d as [|b0 d]; [discriminate|]. cbn [utf8_decode List.length] in *.
  repeat match type of H with
  | (if ?c then _ else _) = _ => destruct c
  | match ?l with [] => _ | _ :: _ => _ end = _ => destruct l; cbn [List.length] in L
  | bind ?r _ = _ => destruct r as [?|e'] eqn:Er; cbn [bind] in H; [discriminate|];
      injection H as <-; now apply IH in Er; [|lia]
  | Raise _ = Raise _ => injection H as <-; discriminate
  end.
Qed.
Lemma read_string_safe k : safe_on k read_string.
Proof.
  apply safe_seq; [apply read_bytes_safe|]. intros d.
  destruct (utf8_decode d) as [s|e] eqn:E; [apply safe_pret|].
  apply safe_pfail. now apply (utf8_decode_raises (List.length d) d).
Qed.
Lemma read_format_safe A k n (u : list Z -> A) : safe_on k (read_format n u).
Proof.
  apply safe_seq; [apply base_read_safe|]. intros d.
  destruct (Nat.eqb _ _); [apply safe_pret|now apply safe_pfail].
Qed.
Lemma read_sized_safe k rd size : (forall n, safe_on k (rd n)) -> safe_on k (read_sized rd size).
Proof.
  intros H. unfold read_sized.
  repeat match goal with |- context [if ?c then _ else _] => destruct c end;
    try (apply safe_seq; [apply H|]; intros; apply safe_pret). now apply safe_pfail.
Qed.

Lemma read_safe t : forall k, safe_on k (read t).
Proof.
  induction t as [t L|flags fs F|n t items IH|t IH|n t IH|t IH|ts F] using ty_induction; intros k.
  - destruct t; try contradiction; cbn [read];
      first [now apply safe_pfail | apply safe_pret
            | apply read_sized_safe; intros; apply read_format_safe
            | apply safe_seq; [|intros; apply safe_pret];
              first [apply read_varuint_safe|apply read_bytes_safe|apply read_string_safe|
                     apply read_format_safe]].
  - assert (safe_on k (read_fields fs)) as H.
    { induction F as [|[i t] fs H F IH]; cbn [read_fields]; [apply safe_pret|]. fold read_fields.
      apply safe_seq; [apply H|]. intros v. apply safe_seq; [exact IH|]. intros. apply safe_pret. }
    intros l L. rewrite read_object. revert l L. apply safe_seq; [exact H|]. intros. apply safe_pret.
  - cbn [read]. apply safe_seq; [apply IH|]. intros []; try apply safe_pret; now apply safe_pfail.
  - cbn [read]. apply safe_seq; [apply read_varuint_safe|]. intros n.
    apply safe_seq; [apply safe_times, IH|]. intros. apply safe_pret.
  - cbn [read]. apply safe_seq; [apply safe_times, IH|]. intros. apply safe_pret.
  - cbn [read]. apply safe_seq; [apply read_varuint_safe|]. intros n.
    apply safe_seq; [apply safe_times|intros; apply safe_pret].
    apply safe_seq; [apply read_string_safe|]. intros s. apply safe_seq; [apply IH|]. intros. apply safe_pret.
  - intros l L. rewrite read_union. revert l L. apply safe_seq; [apply read_varuint_safe|]. intros i.
    generalize (Z.to_nat i). clear i. induction F as [|t ts H F IH]; intros [|i]; cbn;
      try (now apply safe_pfail); [apply H|apply IH].
Qed.

Lemma object_loop_safe k fb : (forall nm, safe_on k (fb nm)) ->
  forall n l, (List.length l <= k)%nat -> (List.length l < n)%nat ->
  match object_loop fb n l with Ok (_, l') => suffix l l' | Raise e => e <> Diverges end.
Proof.
  intros F n. induction n as [|n IH]; intros l L M; [lia|]. cbn [object_loop].
  refine (safe_eats _ _ (List.length l) read_varuint _ (read_varuint_safe _) (read_varuint_eats _) _ l (le_n _)).
  intros flags k' K.
  assert (forall nm, safe_on k' (fb nm)) as F' by (intros nm l' L'; apply F; lia).
  apply safe_seq; [apply read_string_safe|]. intros name.
  apply safe_seq; [apply read_varuint_safe|]. intros na.
  apply safe_seq; [apply safe_times, read_string_safe|]. intros al.
  apply safe_seq; [apply F'|]. intros t.
  apply safe_seq; [apply read_format_safe|]. intros dflt.
  apply safe_seq.
  { destruct (negb _); [|apply safe_pret]. apply safe_seq; [apply read_safe|]. intros. apply safe_pret. }
  intros d. destruct (is_final t); [apply safe_pret|].
  apply safe_seq; [|intros; apply safe_pret]. intros l' L'. apply IH; lia.
Qed.

Lemma union_loop_safe k fb : safe_on k fb -> eats_on k fb ->
  forall n l, (List.length l <= k)%nat -> (List.length l < n)%nat ->
  match union_loop fb n l with Ok (_, l') => suffix l l' | Raise e => e <> Diverges end.
Proof.
  intros F E n. induction n as [|n IH]; intros l L M; [lia|]. cbn [union_loop].
  refine (safe_eats _ _ (List.length l) fb _ _ _ _ l (le_n _)).
  - intros l' L'. apply F. lia.
  - intros l' a l'' L'. apply E. lia.
  - intros t k' K. destruct (is_final t); [apply safe_pret|].
    apply safe_seq; [|intros; apply safe_pret]. intros l' L'. apply IH; lia.
Qed.

Lemma object_type_safe k flags fs : safe_on k (object_type flags fs).
Proof.
  unfold object_type. generalize (map (fun f : field_info * ty => escape_python3_identifier (fi_name (fst f))) fs).
  intros names. destruct (namedtuple_names [] names) as [[]|e] eqn:E; [apply safe_pret|].
  apply safe_pfail. revert E. generalize ([] : list str).
  induction names as [|n names IH]; intros seen E; [discriminate|]. cbn [namedtuple_names] in E.
  destruct (negb (all_ascii n)); [injection E as <-; discriminate|].
  destruct (_ || _); [injection E as <-; discriminate|]. now apply IH in E.
Qed.
Lemma enum_create_raises nm items e : enum_create nm items = Raise e -> e <> Diverges.
Proof.
  unfold enum_create. destruct (_ || _); [intros E; injection E as <-; discriminate|].
  destruct (existsb _ _); [intros E; injection E as <-; discriminate|discriminate].
Qed.
Lemma enum_type_safe k nm t items : safe_on k (enum_type nm t items).
Proof.
  unfold enum_type. destruct items as [|it items];
    match goal with |- context [enum_create nm ?l] => destruct (enum_create nm l) as [u|e] eqn:E end;
    try apply safe_pret; apply safe_pfail; now apply enum_create_raises in E.
Qed.

Lemma from_binary_safe n : forall nm, safe_on n (from_binary (S n) nm) /\ eats_on n (from_binary (S n) nm).
Proof.
  induction n as [|n IH]; intros nm.
  { split; intros l; intros; (destruct l; [discriminate|cbn [List.length] in *; lia]). }
  change (from_binary (S (S n)) nm) with (fun l =>
     (let! type_index := read_varuint in
       match type_index with
       | 0 => pret TFinal
       | 1 => pret TNull
       | 2 => pret TBool
       | 3 => let! s := read_unsigned 1 in
              if existsb (Z.eqb s) [1; 2; 4; 8] then pret (TInt s) else pfail ParseError
       | 4 => let! s := read_unsigned 1 in
              if existsb (Z.eqb s) [1; 2; 4; 8] then pret (TUInt s) else pfail ParseError
       | 5 => pret TVarint
       | 6 => pret TVaruint
       | 7 => pret TF32
       | 8 => pret TF64
       | 9 => pret TBytes
       | 10 => pret TString
       | 11 | 12 | 13 | 14 | 15 => pfail TypeError
       | 16 => let! object_flags := read_varuint in
               let! r := (fun l => object_loop (from_binary (S n)) (S (List.length l)) l) in
               object_type (fst r) (snd r)
       | 17 => let! t := from_binary (S n) (lit "_") in
               let! nvalues := read_varuint in
               let! items := times (Z.to_nat nvalues) (enum_item t) in
               enum_type nm t (dict_of items)
       | 18 => let! t := from_binary (S n) (lit "_") in pret (TArray t)
       | 19 => let! size := read_varuint in
               let! t := from_binary (S n) (lit "_") in pret (TFixedArray size t)
       | 20 => let! t := from_binary (S n) (lit "_") in pret (TMap t)
       | 21 => let! items := (fun l => union_loop (from_binary (S n) (lit "_")) (S (List.length l)) l) in
               pret (TUnion items)
       | 22 => pret TTimestamp
       | 23 => pret TDuration
       | _ => pfail RuntimeError
       end) l).
  match goal with |- safe_on _ (fun l => pseq _ ?f l) /\ _ =>
    assert (forall a k', (k' < S n)%nat -> safe_on k' (f a)) as H end.
  { intros i k K. cbv beta.
    assert (forall nm, safe_on k (from_binary (S n) nm)) as F.
    { intros nm' l L. apply IH. lia. }
    assert (forall nm, eats_on k (from_binary (S n) nm)) as G.
    { intros nm' l a l' L. apply IH. lia. }
    revert F G. generalize (from_binary (S n)). intros fb F G.
    repeat match goal with |- safe_on _ (match ?p with _ => _ end) => is_var p; destruct p end;
      first [now apply safe_pfail | apply safe_pret
        | apply safe_seq; [apply read_format_safe|]; intros s;
          destruct (existsb _ _); [apply safe_pret|now apply safe_pfail]
        | apply safe_seq; [apply F|]; intros; apply safe_pret
        | apply safe_seq; [intros l L; apply (union_loop_safe k); auto|intros; apply safe_pret]
        | apply safe_seq; [apply read_varuint_safe|]; intros;
          apply safe_seq; [apply F|]; intros; apply safe_pret
        | apply safe_seq; [apply read_varuint_safe|]; intros fl;
          apply safe_seq; [|intros; apply object_type_safe];
          intros l L; apply (object_loop_safe k); auto
        | idtac].
    apply safe_seq; [apply F|]. intros t. apply safe_seq; [apply read_varuint_safe|]. intros nv.
    apply safe_seq; [apply safe_times|intros; apply enum_type_safe].
    apply safe_seq; [apply read_safe|]. intros v. apply safe_seq; [apply read_string_safe|]. intros s.
    destruct v; try apply safe_pret; now apply safe_pfail. }
  split.
  - intros l L. refine (safe_eats _ _ (S n) read_varuint _ (read_varuint_safe _) (read_varuint_eats _) H l L).
  - intros l a l' L E.
    refine (eats_seq _ _ (S n) read_varuint _ (read_varuint_safe _) (read_varuint_eats _) H l a l' L E).
Qed.

(** Decoding a schema ends for every input, as does reading: no Diverges.  What is
    not consumed is left untouched. *)
Theorem C30_total : forall nm s l t,
  match type_from_binary nm s with
  | Ok (_, rest) => exists b, s = b ++ rest /\ b <> []
  | Raise e => e <> Diverges
  end /\
  match read t l with
  | Ok (_, rest) => exists b, l = b ++ rest
  | Raise e => e <> Diverges
  end.
Proof.
  intros nm s l t. split; [|exact (read_safe t (List.length l) l (le_n _))].
  unfold type_from_binary. destruct (from_binary_safe (List.length s) nm) as [F E].
  specialize (F s (le_n _)). specialize (E s).
  destruct (from_binary (S (List.length s)) nm s) as [[t' rest]|e]; [|exact F].
  destruct F as [b ->]. exists b. split; [reflexivity|]. intros ->.
  specialize (E t' rest (le_n _) eq_refl). cbn in E. lia.
Qed.

(** ** Only encodings are accepted *)

(** Types a schema can give: a fixed array has a size, and fields that would be
    keywords have been turned down. *)
Fixpoint usable (t : ty) : Prop :=
  match t with
  | TObject _ fs =>
      (fix go (fs : list (field_info * ty)) : Prop :=
         match fs with
         | [] => True
         | (i, t) :: fs => fi_name i <> lit "async" /\ fi_name i <> lit "await" /\ usable t /\ go fs
         end) fs
  | TEnum _ t _ | TArray t | TMap t => usable t
  | TFixedArray n t => 0 <= n /\ usable t
  | TUnion ts =>
      (fix go (ts : list ty) : Prop := match ts with [] => True | t :: ts => usable t /\ go ts end) ts
  | _ => True
  end.
Definition usable_fields : list (field_info * ty) -> Prop :=
  fix go fs := match fs with
    | [] => True
    | (i, t) :: fs => fi_name i <> lit "async" /\ fi_name i <> lit "await" /\ usable t /\ go fs
    end.
Definition usable_list : list ty -> Prop :=
  fix go ts := match ts with [] => True | t :: ts => usable t /\ go ts end.

(** No strings or bytes inside: the length of the data is never read past its end. *)
Fixpoint no_text (t : ty) : Prop :=
  match t with
  | TBytes | TString | TMap _ => False
  | TObject _ fs =>
      (fix go (fs : list (field_info * ty)) : Prop :=
         match fs with [] => True | (_, t) :: fs => no_text t /\ go fs end) fs
  | TEnum _ t _ | TArray t | TFixedArray _ t => no_text t
  | TUnion ts =>
      (fix go (ts : list ty) : Prop := match ts with [] => True | t :: ts => no_text t /\ go ts end) ts
  | _ => True
  end.
Definition no_text_fields : list (field_info * ty) -> Prop :=
  fix go fs := match fs with [] => True | (_, t) :: fs => no_text t /\ go fs end.
Definition no_text_list : list ty -> Prop :=
  fix go ts := match ts with [] => True | t :: ts => no_text t /\ go ts end.

(** [p] accepts only what [R] relates; [D]: down to the last byte. *)
Definition only {A} (p : parser A) (R : A -> list Z -> Prop) (D : Prop) : Prop :=
  forall l a rest, bytes_ok l -> rest <> [] \/ D -> p l = Ok (a, rest) ->
  exists b, l = b ++ rest /\ R a b.

Lemma only_seq A B (p : parser A) (f : A -> parser B) (R : A -> list Z -> Prop) Q D :
  (forall k, safe_on k p) -> (forall a k, safe_on k (f a)) ->
  only p R D -> (forall a b, R a b -> only (f a) (Q a) D) ->
  only (pseq p f) (fun v b => exists a b1 b2, R a b1 /\ b = b1 ++ b2 /\ Q a v b2) D.
Proof.
  intros S S' P F l v rest By N H. apply pseq_inv in H as (a & l' & H1 & H2).
  pose proof (S' a (List.length l') l' (le_n _)) as X. rewrite H2 in X. destruct X as [b2 ->].
  assert (b2 ++ rest <> [] \/ D) as N'.
  { destruct N as [N|d]; [left|now right]. destruct b2; [exact N|discriminate]. }
  destruct (P l a (b2 ++ rest) By N' H1) as (b1 & -> & R1).
  apply bytes_ok_app in By as [B1 B2].
  destruct (F a b1 R1 (b2 ++ rest) v rest B2 N H2) as (b3 & E & Q2).
  exists (b1 ++ b3). rewrite <- app_assoc, <- E. split; [reflexivity|]. eauto 6.
Qed.
Lemma only_pret A (a : A) (R : A -> list Z -> Prop) D : R a [] -> only (pret a) R D.
Proof. intros H l v rest _ _ E. apply pret_inv in E as [-> ->]. exists []. auto. Qed.
Lemma only_impl A (p : parser A) (R Q : A -> list Z -> Prop) D :
  only p R D -> (forall a b, R a b -> Q a b) -> only p Q D.
Proof. intros H I l a rest B N E. destruct (H l a rest B N E) as (b & -> & X). eauto. Qed.
(** A parser followed by a constructor. *)
Lemma only_map A B (p : parser A) (f : A -> B) (R : A -> list Z -> Prop) (Q : B -> list Z -> Prop) D :
  only p R D -> (forall a b, R a b -> Q (f a) b) -> only (let! a := p in pret (f a)) Q D.
Proof.
  intros P I l v rest By N H. apply pseq_inv in H as (a & l' & H1 & H2). apply pret_inv in H2 as [-> <-].
  destruct (P l a rest By N H1) as (b & -> & X). eauto.
Qed.
Lemma only_times A (p : parser A) (R : A -> list Z -> Prop) (L : list A -> list Z -> Prop) D n :
  (forall k, safe_on k p) -> only p R D -> L [] [] ->
  (forall a l b b', R a b -> L l b' -> L (a :: l) (b ++ b')) ->
  only (times n p) (fun l b => L l b /\ List.length l = n) D.
Proof.
  intros S P L0 L1. induction n as [|n IH]; [now apply only_pret|]. cbn [times].
  eapply only_impl.
  - apply only_seq with (R := R)
      (Q := fun a v b => exists l, v = a :: l /\ L l b /\ List.length l = n); auto.
    + intros a k. apply safe_seq; [now apply safe_times|]. intros. apply safe_pret.
    + intros a b _. eapply only_map; [exact IH|]. intros l b' [H1 H2]. eauto.
  - intros v b (a & b1 & b2 & Ra & -> & l & -> & Ll & <-). split; [now apply L1|reflexivity].
Qed.

Lemma read_varuint_only D : only read_varuint uint D.
Proof. intros l v rest B _ H. now apply read_varuint_inv. Qed.
Lemma read_string_only (D : Prop) : (D -> False) -> only read_string text D.
Proof. intros ND l s rest B [N|d] H; [now apply read_string_inv|contradiction]. Qed.
Lemma read_bytes_only (D : Prop) : (D -> False) -> only read_bytes blob D.
Proof. intros ND l s rest B [N|d] H; [now apply read_bytes_inv|contradiction]. Qed.
Lemma read_unsigned_only n D : only (read_unsigned n)
  (fun v b => b = le_bytes n v /\ 0 <= v < 2 ^ (8 * Z.of_nat n)) D.
Proof. intros l v rest B _ H. apply read_unsigned_inv in H as [-> R]; eauto. Qed.
Lemma read_signed_only n D : (0 < n)%nat -> only (read_signed n)
  (fun v b => b = le_bytes n v /\ - 2 ^ (8 * Z.of_nat n - 1) <= v < 2 ^ (8 * Z.of_nat n - 1)) D.
Proof. intros N l v rest B _ H. apply read_signed_inv in H as [-> R]; eauto. Qed.

Lemma read_only t : usable t -> only (read t) (enc t) (no_text t).
Proof.
  induction t as [t L|flags fs F|n t items IH|t IH|n t IH|t IH|ts F] using ty_induction; intros U.
  - destruct t; try contradiction; cbn [read no_text]; try (intros ? ? ? ? ? ?; discriminate).
    + apply only_pret. constructor.
    + eapply only_map; [apply read_unsigned_only|]. cbn. intros v b [-> R].
      rewrite Z.mod_small by lia. constructor. lia.
    + unfold read_sized. repeat match goal with |- only (if ?x =? ?y then _ else _) _ _ =>
        destruct (Z.eqb_spec x y) as [->|] end;
        try (intros ? ? ? ? ? ?; discriminate);
        (eapply only_map; [apply read_signed_only; lia|]; intros v b [-> R];
         constructor; [unfold int_size; lia|exact R|reflexivity]).
    + unfold read_sized. repeat match goal with |- only (if ?x =? ?y then _ else _) _ _ =>
        destruct (Z.eqb_spec x y) as [->|] end;
        try (intros ? ? ? ? ? ?; discriminate);
        (eapply only_map; [apply read_unsigned_only|]; intros v b [-> R];
         constructor; [unfold int_size; lia|exact R|reflexivity]).
    + eapply only_map; [apply read_varuint_only|]. intros v b H. now constructor.
    + intros l v rest B _ H. apply pseq_inv in H as (f & l' & H1 & H2). apply pret_inv in H2 as [-> ->].
      apply read_format_inv in H1 as (d & -> & Ld & ->). apply bytes_ok_app in B as [B _].
      exists d. split; [reflexivity|]. pose proof (le_value_range d B) as R. rewrite Ld in R.
      unfold unpack_f32. eapply e_f32; [apply f32_pattern_of; exact R|exact R|].
      unfold word. rewrite <- Ld. symmetry. now apply le_bytes_value.
    + intros l v rest B _ H. apply pseq_inv in H as (f & l' & H1 & H2). apply pret_inv in H2 as [-> ->].
      apply read_format_inv in H1 as (d & -> & Ld & ->). apply bytes_ok_app in B as [B _].
      exists d. split; [reflexivity|]. pose proof (le_value_range d B) as R. rewrite Ld in R.
      eapply e_f64; [apply f64_pattern_of; exact R|exact R|].
      unfold word. rewrite <- Ld. symmetry. now apply le_bytes_value.
    + eapply only_map; [apply read_bytes_only; tauto|]. intros v b H. now constructor.
    + eapply only_map; [apply read_string_only; tauto|]. intros v b H. now constructor.
    + eapply only_map; [apply read_signed_only; lia|]. intros v b [-> R]. now constructor.
    + eapply only_map; [apply read_signed_only; lia|]. intros v b [-> R]. now constructor.
  - assert (only (read_fields fs) (enc_fields fs) (no_text_fields fs)) as H.
    { change (usable_fields fs) in U. induction F as [|[i t] fs H F IH]; [apply only_pret; constructor|].
      destruct U as (N1 & N2 & Ut & Uf). cbn [read_fields no_text_fields].
      fold read_fields. fold no_text_fields. eapply only_impl.
      - apply only_seq with (R := enc t)
          (Q := fun v w b => exists vs, w = (attribute (fi_name i), v) :: vs /\ enc_fields fs vs b).
        + apply read_safe.
        + intros a k. apply safe_seq; [|intros; apply safe_pret].
          clear. induction fs as [|[i t] fs IH]; cbn [read_fields]; [apply safe_pret|]. fold read_fields.
          apply safe_seq; [apply read_safe|]. intros v. apply safe_seq; [exact IH|]. intros. apply safe_pret.
        + intros l a rest B N E. apply (H Ut l a rest B); [tauto|exact E].
        + intros a b _. rewrite <- attribute_ok by assumption. eapply only_map.
          * intros l v rest B N E. apply (IH Uf l v rest B); [tauto|exact E].
          * cbv beta. intros vs b' E. eauto.
      - intros v b (a & b1 & b2 & E1 & -> & vs & -> & E2). now constructor. }
    intros l v rest B N E. rewrite read_object in E.
    apply (only_map _ _ _ VTuple _ (enc (TObject flags fs)) _ H) with (rest := rest) (l := l); auto.
    intros. now constructor.
  - cbn [read no_text]. intros l v rest B N E. apply pseq_inv in E as (x & l' & E1 & E2).
    destruct x; try discriminate. apply pret_inv in E2 as [-> <-].
    destruct (IH U l (VInt z) rest B N E1) as (b & -> & H). exists b. split; [reflexivity|].
    constructor; [exact H|]. apply enum_member_first.
  - cbn [read no_text]. eapply only_impl.
    + apply only_seq with (R := uint) (Q := fun n v b => exists vs, v = VList vs /\ enc_list t vs b /\
        List.length vs = Z.to_nat n).
      * apply read_varuint_safe.
      * intros a k. apply safe_seq; [apply safe_times, read_safe|intros; apply safe_pret].
      * apply read_varuint_only.
      * intros n b _. eapply only_map.
        -- apply only_times with (L := enc_list t) (R := enc t); [apply read_safe|exact (IH U)|constructor|].
           intros. now constructor.
        -- cbv beta. intros vs b' [H1 H2]. eauto.
    + intros v b (n & b1 & b2 & Hn & -> & vs & -> & Hl & Ln). pose proof (varuint_nonneg _ _ (proj1 Hn)).
      constructor; [|exact Hl]. rewrite Ln, Z2Nat.id by assumption. exact Hn.
  - destruct U as [Un U]. cbn [read no_text]. eapply only_map.
    + apply only_times with (L := enc_list t) (R := enc t); [apply read_safe|exact (IH U)|constructor|].
      intros. now constructor.
    + cbv beta. intros vs b [H1 H2]. constructor; [lia|exact H1].
  - intros l v rest B N E. rewrite read_map in E.
    assert (forall k, safe_on k (read_pair t)) as Sp.
    { intros k. apply safe_seq; [apply read_string_safe|]. intros s. apply safe_seq; [apply read_safe|].
      intros. apply safe_pret. }
    revert l v rest B N E. change (only (let! n := read_varuint in
      let! l := times (Z.to_nat n) (read_pair t) in pret (VDict (dict_of l))) (enc (TMap t)) False).
    eapply only_impl.
    + apply only_seq with (R := uint) (Q := fun n v b => exists vs, v = VDict (dict_of vs) /\ enc_pairs t vs b /\
        List.length vs = Z.to_nat n).
      * apply read_varuint_safe.
      * intros a k. apply safe_seq; [apply safe_times, Sp|intros; apply safe_pret].
      * apply read_varuint_only.
      * intros n b _. eapply only_map.
        -- apply only_times with (L := enc_pairs t)
             (R := fun kv b => exists b1 b2, text (fst kv) b1 /\ b = b1 ++ b2 /\ enc t (snd kv) b2).
           ++ exact Sp.
           ++ eapply only_impl.
              ** apply only_seq with (R := text) (Q := fun k kv b => fst kv = k /\ enc t (snd kv) b).
                 --- apply read_string_safe.
                 --- intros s k. apply safe_seq; [apply read_safe|]. intros. apply safe_pret.
                 --- apply read_string_only. tauto.
                 --- intros s b' _. eapply only_map with (R := enc t).
                     +++ intros l' v' rest' B' [N'|[]] E'. apply (IH U l' v' rest' B'); auto.
                     +++ cbn. auto.
              ** cbv beta. intros kv b' (k & b1 & b2 & T & -> & <- & H). eauto.
           ++ constructor.
           ++ intros [k v] l' b' b'' (b1 & b2 & T & -> & H) Hl. cbn [fst snd] in *.
              rewrite <- app_assoc. now constructor.
        -- cbv beta. intros vs b' [H1 H2]. eauto.
    + intros v b (n & b1 & b2 & Hn & -> & vs & -> & Hl & Ln). pose proof (varuint_nonneg _ _ (proj1 Hn)).
      econstructor; [|exact Hl|apply dict_of_with]. rewrite Ln, Z2Nat.id by assumption. exact Hn.
  - intros l v rest B N E. rewrite read_union in E. apply pseq_inv in E as (i & l' & E1 & E2).
    apply read_varuint_inv in E1 as (b & -> & Hi); [|exact B]. apply bytes_ok_app in B as [_ B].
    pose proof (varuint_nonneg _ _ (proj1 Hi)) as Pi.
    assert (exists t b2, nth_error ts (Z.to_nat i) = Some t /\ l' = b2 ++ rest /\ enc t v b2)
      as (t & b2 & Et & -> & H2).
    { clear Hi Pi b. change (usable_list ts) in U. change (rest <> [] \/ no_text_list ts) in N.
      revert U N E2. generalize (Z.to_nat i). clear i.
      induction F as [|t ts H F IH]; intros [|i] U N E2; try discriminate; destruct U as [Ut Ul]; cbn in E2.
      - destruct (H Ut l' v rest B) as (b2 & -> & X); [cbn in N; tauto|exact E2|].
        exists t, b2. auto.
      - apply (IH i Ul); [cbn in N; tauto|exact E2]. }
    exists (b ++ b2). rewrite <- app_assoc. split; [reflexivity|]. econstructor; eauto.
    rewrite Z2Nat.id by exact Pi. exact Hi.
Qed.

(** What a schema gives can be used. *)
Definition yields {A} (p : parser A) (Q : A -> Prop) : Prop := forall l a l', p l = Ok (a, l') -> Q a.
Lemma yields_seq A B (p : parser A) (f : A -> parser B) Q R :
  yields p Q -> (forall a, Q a -> yields (f a) R) -> yields (pseq p f) R.
Proof. intros P F l b l' H. apply pseq_inv in H as (a & l1 & H1 & H2). eapply F; eauto. Qed.
Lemma yields_any A (p : parser A) : yields p (fun _ => True).
Proof. intros l a l' _. exact I. Qed.
Lemma yields_pret A (a : A) (Q : A -> Prop) : Q a -> yields (pret a) Q.
Proof. intros H l b l' E. now apply pret_inv in E as [-> _]. Qed.
Lemma yields_pfail A e (Q : A -> Prop) : yields (pfail e) Q.
Proof. intros l b l' E. discriminate. Qed.
Lemma yields_varuint : yields read_varuint (fun v => 0 <= v).
Proof.
  assert (forall l r fk v l', 0 <= r -> 0 <= fk -> varuint_loop r fk l = Ok (v, l') -> 0 <= v) as X;
    [|intros l v l' H; apply X in H; lia].
  induction l as [|x l IH]; intros r fk v l' R F H; [discriminate|]. cbn [varuint_loop] in H.
  assert (0 <= Z.land x 127) by (apply Z.land_nonneg; lia).
  destruct (x <? 128); [injection H as <- _; nia|]. destruct (_ >=? _); [discriminate|].
  apply IH in H; [exact H|nia|lia].
Qed.

Lemma object_loop_yields fb n : (forall nm, yields (fb nm) usable) ->
  yields (object_loop fb n) (fun r => Forall (fun f => usable (snd f)) (snd r)).
Proof.
  intros F. induction n as [|n IH]; cbn [object_loop]; [apply yields_pfail|].
  do 4 (eapply yields_seq; [apply yields_any|]; intros ? _).
  eapply yields_seq; [apply F|]. intros t U.
  do 2 (eapply yields_seq; [apply yields_any|]; intros ? _).
  destruct (is_final t); [apply yields_pret; constructor|].
  eapply yields_seq; [apply IH|]. intros r Ur. apply yields_pret. cbn [snd]. now constructor.
Qed.
Lemma union_loop_yields fb n : yields fb usable -> yields (union_loop fb n) (Forall usable).
Proof.
  intros F. induction n as [|n IH]; cbn [union_loop]; [apply yields_pfail|].
  eapply yields_seq; [apply F|]. intros t U. destruct (is_final t); [apply yields_pret; constructor|].
  eapply yields_seq; [apply IH|]. intros r Ur. apply yields_pret. now constructor.
Qed.
Lemma namedtuple_keywords names : forall seen, namedtuple_names seen names = Ok tt ->
  Forall (fun n => str_in n keyword_list = false) names.
Proof.
  induction names as [|n names IH]; intros seen H; [constructor|]. cbn [namedtuple_names] in H.
  destruct (negb (all_ascii n)); [discriminate|].
  destruct (str_in n keyword_list) eqn:E; [rewrite orb_true_r in H; discriminate|].
  constructor; [exact E|]. destruct (_ || _); [discriminate|]. eapply IH; eauto.
Qed.
Lemma object_type_yields flags fs : Forall (fun f => usable (snd f)) fs -> yields (object_type flags fs) usable.
Proof.
  intros F. unfold object_type.
  destruct (namedtuple_names [] _) as [[]|e] eqn:E; [|apply yields_pfail].
  apply yields_pret. apply namedtuple_keywords in E. change (usable_fields fs).
  induction fs as [|[i t] fs IH]; cbn; [exact I|]. cbn [map fst] in E.
  apply Forall_cons_iff in E as [E1 E2]. apply Forall_cons_iff in F as [F1 F2].
  split; [|split; [|split; [exact F1|now apply IH]]]; intros X; rewrite X in E1; vm_compute in E1; discriminate.
Qed.
Lemma enum_type_yields nm t items : usable t -> yields (enum_type nm t items) usable.
Proof.
  intros U. unfold enum_type. destruct items; match goal with |- context [enum_create ?a ?b] =>
    destruct (enum_create a b) end; first [apply yields_pfail|now apply yields_pret].
Qed.

Lemma from_binary_yields n : forall nm, yields (from_binary n nm) usable.
Proof.
  induction n as [|n IH]; intros nm; [intros l a l' E; discriminate|].
  intros l a l'. cbn [from_binary]. revert l a l'.
  match goal with |- forall l a l', pseq ?p ?f l = _ -> _ => change (yields (pseq p f) usable) end.
  eapply yields_seq; [apply yields_any|]. intros i _. revert IH. generalize (from_binary n). intros fb F.
  repeat match goal with |- yields (match ?p with _ => _ end) _ => is_var p; destruct p end;
    first [now apply yields_pfail | now apply yields_pret
      | eapply yields_seq; [apply yields_any|]; intros s _;
        destruct (existsb _ _); [now apply yields_pret|now apply yields_pfail]
      | eapply yields_seq; [apply F|]; intros ? ?; now apply yields_pret
      | idtac].
  all: try (eapply yields_seq; [apply F|]; intros t U;
    do 2 (eapply yields_seq; [apply yields_any|]; intros ? _); now apply enum_type_yields).
  all: try (eapply yields_seq; [apply yields_varuint|]; intros sz Hs;
    eapply yields_seq; [apply F|]; intros t U; apply yields_pret; now split).
  - apply yields_seq with (Q := Forall usable).
    { intros l r l' E. eapply union_loop_yields; [apply F|exact E]. }
    intros r Hr. apply yields_pret. change (usable_list r). induction Hr; cbn; auto.
  - eapply yields_seq; [apply yields_any|]. intros fl _.
    apply yields_seq with (Q := fun r => Forall (fun f => usable (snd f)) (snd r)).
    { intros l r l' E. eapply object_loop_yields; [exact F|exact E]. }
    intros r Hr. now apply object_type_yields.
Qed.

(** For every schema that is accepted, what is read from data with more behind it
    is what the data encodes: nothing else is accepted. *)
Theorem C30_only : forall nm s t rs l v rest, type_from_binary nm s = Ok (t, rs) ->
  bytes_ok l -> rest <> [] -> read t l = Ok (v, rest) ->
  exists b, l = b ++ rest /\ enc t v b.
Proof.
  intros nm s t rs l v rest T B N R. apply from_binary_yields in T.
  apply (read_only t T l v rest B); auto.
Qed.

(** Without strings and bytes that holds to the end of the data, so data that was
    cut short is always an error. *)
Theorem C30_truncated : forall nm s t rs v b b', type_from_binary nm s = Ok (t, rs) ->
  no_text t -> bytes_ok (b ++ b') -> enc t v (b ++ b') -> b' <> [] ->
  exists e, read t b = Raise e.
Proof.
  intros nm s t rs v b b' T NT B E N. destruct (read t b) as [[v' rest]|e] eqn:R; [|eauto]. exfalso.
  apply from_binary_yields in T. apply bytes_ok_app in B as [B _].
  destruct (read_only t T b v' rest B (or_intror NT) R) as (b1 & -> & E').
  rewrite <- app_assoc in E.
  assert ((b1 ++ rest ++ b') ++ [] = b1 ++ rest ++ b') as X by apply app_nil_r.
  destruct (C30_unambiguous t v v' _ _ _ _ E E' X) as (_ & _ & Y).
  destruct rest; [destruct b'; [auto|discriminate]|discriminate].
Qed.

(** With strings or bytes, if such data is read at all it is read to its end. *)
Theorem C30_truncated_text : forall nm s t rs v b b' v' rest, type_from_binary nm s = Ok (t, rs) ->
  bytes_ok (b ++ b') -> enc t v (b ++ b') -> b' <> [] -> read t b = Ok (v', rest) -> rest = [].
Proof.
  intros nm s t rs v b b' v' rest T B E N R. destruct rest as [|x rest]; [reflexivity|]. exfalso.
  apply from_binary_yields in T. apply bytes_ok_app in B as [B _].
  destruct (read_only t T b v' (x :: rest) B ltac:(left; discriminate) R) as (b1 & -> & E').
  rewrite <- app_assoc in E.
  assert ((b1 ++ (x :: rest) ++ b') ++ [] = b1 ++ (x :: rest) ++ b') as X by apply app_nil_r.
  destruct (C30_unambiguous t v v' _ _ _ _ E E' X) as (_ & _ & Y). discriminate.
Qed.

(** ** Times *)

(** A timestamp or duration of up to 2^53 microseconds (285 years) is read as the
    float nearest to that many seconds. *)
Theorem C30_seconds : forall us b rest, Z.abs us <= 2 ^ 53 -> b = le_bytes 8 us ->
  exists f, read TTimestamp (b ++ rest) = Ok (VFloat f, rest) /\
            read TDuration (b ++ rest) = Ok (VFloat f, rest) /\
            isfinite f = true /\ F2 f = rnd64 (IZR us / 1000000).
Proof.
  intros us b rest L ->. exists (seconds us).
  split; [apply C30_data; constructor; [lia|reflexivity]|].
  split; [apply C30_data; constructor; [lia|reflexivity]|].
  destruct (float_of_Z_correct us L) as [F1 V1].
  destruct (float_of_Z_correct 1000000 ltac:(lia)) as [F2' V2].
  pose proof (fdiv_correct (float_of_Z us) (float_of_Z 1000000) (float_of_Z_ok _) (float_of_Z_ok _) F1) as C.
  rewrite V1, V2 in C. specialize (C ltac:(lra)).
  rewrite Rlt_bool_true in C.
  - destruct C as (C1 & C2 & _). auto.
  - apply Rle_lt_trans with (bpow radix2 54); [|now apply bpow_lt].
    apply abs_round_le_generic.
    + apply fexp_correct. reflexivity.
    + apply valid_rnd_N.
    + apply generic_format_bpow. unfold SpecFloat.fexp, emin. cbn. lia.
    + assert (Rabs (IZR us) <= 9007199254740992)%R.
      { rewrite <- abs_IZR. apply IZR_le. lia. }
      unfold Rdiv. rewrite Rabs_mult, (Rabs_pos_eq (/ 1000000)) by lra.
      replace (bpow radix2 54) with 18014398509481984%R; [lra|].
      rewrite <- IZR_Zpower by lia. reflexivity.
Qed.

(** Up to 2^52 of them no microsecond is lost: two different times stay different
    and in order. *)
Theorem C30_microseconds : forall us us' f f' rest, Z.abs us < 2 ^ 52 -> Z.abs us' < 2 ^ 52 ->
  read TTimestamp (le_bytes 8 us ++ rest) = Ok (VFloat f, rest) ->
  read TTimestamp (le_bytes 8 us' ++ rest) = Ok (VFloat f', rest) ->
  us < us' -> (F2 f < F2 f')%R.
Proof.
  assert (forall us f rest, Z.abs us < 2 ^ 52 ->
    read TTimestamp (le_bytes 8 us ++ rest) = Ok (VFloat f, rest) ->
    (Rabs (F2 f - IZR us / 1000000) < / 2000000)%R) as H.
  { intros us f rest L R.
    destruct (C30_seconds us _ rest ltac:(lia) eq_refl) as (g & R' & _ & _ & V).
    rewrite R' in R. injection R as ->. rewrite V.
    destruct (Z.eq_dec us 0) as [->|N].
    - unfold Rdiv. rewrite Rmult_0_l, round_0 by apply valid_rnd_N. rewrite Rminus_0_r, Rabs_R0. lra.
    - assert (1 <= Rabs (IZR us) < 4503599627370496)%R as [L1 L2].
      { rewrite <- abs_IZR. split; [apply IZR_le; lia|apply IZR_lt; lia]. }
      assert (Rabs (IZR us / 1000000) = Rabs (IZR us) / 1000000)%R as E.
      { unfold Rdiv. rewrite Rabs_mult, (Rabs_pos_eq (/ 1000000)) by lra. reflexivity. }
      eapply Rle_lt_trans; [apply rnd64_rel; rewrite E|rewrite E].
      + apply Rle_trans with (bpow radix2 (-20)); [apply bpow_le; lia|]. cbn. lra.
      + replace (bpow radix2 (-53)) with (/ 9007199254740992)%R by reflexivity. lra. }
  intros us us' f f' rest L L' R R' O.
  pose proof (H us f rest L R) as A. pose proof (H us' f' rest L' R') as A'.
  apply Rabs_def2 in A. apply Rabs_def2 in A'.
  assert (IZR us + 1 <= IZR us')%R by (rewrite <- plus_IZR; apply IZR_le; lia). lra.
Qed.

(** ** What does not work *)
Lemma small_uint v : 0 <= v < 128 -> uint v [v].
Proof. intros H. apply uint_small; [now constructor|lia]. Qed.
Ltac small := lazymatch goal with |- _ _ [?b] => exact (small_uint b ltac:(lia)) end.
Ltac scalars := repeat (apply Forall_cons; [red; cbn; lia|]); apply Forall_nil.

(** The flags of an object do not survive: the code keeps those of the last field
    record instead. *)
Theorem C30_flags_refuted : exists nm t b t', schema nm t b /\
  type_from_binary nm b = Ok (t', []) /\ t' <> t.
Proof.
  exists (lit "_"), (TObject 3 []), [16; 3; 0; 0; 0; 0; 0], (TObject 0 []).
  split; [|split; [reflexivity|discriminate]].
  apply (s_object _ [16] 3 [] [3] [0; 0; 0; 0; 0]).
  - small.
  - small.
  - constructor.
  - constructor.
Qed.

(** A string that was cut short is taken for a shorter one. *)
Theorem C30_truncated_refuted : exists t v v' b b', enc t v (b ++ b') /\ b' <> [] /\
  read t b = Ok (v', []) /\ v' <> v.
Proof.
  exists TString, (VStr (lit "stop")), (VStr (lit "st")), (4 :: lit "st"), (lit "op").
  split; [|split; [discriminate|split; [reflexivity|discriminate]]].
  constructor. split; [scalars|]. split; [reflexivity|].
  exists [4]. split; [|reflexivity]. small.
Qed.

(** A field may be named like any keyword of Python except the two that were added
    last. *)
Theorem C30_keyword_refuted :
  type_from_binary (lit "_") ([16; 0] ++ [0; 5] ++ lit "async" ++ [0; 2; 0] ++ [0; 0; 0; 0; 0])
    = Raise ValueError /\
  forall nm, In nm keyword_list -> nm <> lit "async" -> nm <> lit "await" ->
  forall x rest, 0 <= x < 256 -> exists t,
    type_from_binary (lit "_")
      ([16; 0] ++ [0; Z.of_nat (List.length nm)] ++ nm ++ [0; 2; 0] ++ [0; 0; 0; 0; 0]) = Ok (t, []) /\
    read t (x :: rest) = Ok (VTuple [(lit "py_" ++ nm, VBool (negb (x =? 0)))], rest).
Proof.
  split; [vm_compute; reflexivity|].
  intros nm I N1 N2 x rest X. assert (read_unsigned 1 (x :: rest) = Ok (x, rest)) as R by now apply read_u8.
  unfold keyword_list in I. cbn [map In] in I.
  repeat (destruct I as [<-|I];
    [first [congruence | eexists; split; [vm_compute; reflexivity|];
            rewrite read_object; unfold pseq; cbn [read_fields]; unfold pseq; cbn [read];
            unfold pseq; rewrite R; reflexivity]|]).
  contradiction.
Qed.

(** Signed varints can be named in a schema but not read. *)
Theorem C30_varint_refuted : forall nm c rest l, uint 5 c ->
  type_from_binary nm (c ++ rest) = Ok (TVarint, rest) /\ read TVarint l = Raise RuntimeError.
Proof.
  intros nm c rest l H. split; [|reflexivity]. apply (C30_schema nm TVarint). now constructor.
Qed.

(** Codes without a type are always an error. *)
Theorem C30_unknown_code : forall nm i c rest, uint i c -> 11 <= i <= 15 \/ 24 <= i ->
  type_from_binary nm (c ++ rest) = Raise (if i <? 24 then TypeError else RuntimeError).
Proof.
  intros nm i c rest U R. unfold type_from_binary. cbn [from_binary]. seq (read_varuint_ok i c rest U).
  destruct R as [R|R].
  - assert (i = 11 \/ i = 12 \/ i = 13 \/ i = 14 \/ i = 15) as [->|[->|[->|[->| ->]]]] by lia; reflexivity.
  - replace (i <? 24) with false by lia. destruct i as [|p|]; try lia.
    do 5 (destruct p as [p|p|]; try lia; try reflexivity).
Qed.

(** An enum without entries gets one named "_" for -1. *)
Theorem C30_empty_enum : forall nm c t bt n rest, code 17 c -> schema (lit "_") t bt -> uint 0 n ->
  ~ In 0 nm ->
  type_from_binary nm ((c ++ bt ++ n) ++ rest) = Ok (TEnum nm (forget_flags t) [(lit "_", -1)], rest).
Proof.
  intros nm c t bt n rest C S U N. unfold type_from_binary. cbn [from_binary]. rewrite <- !app_assoc.
  seq (read_varuint_ok _ _ (bt ++ n ++ rest) C). apply uint_length in C.
  seq (proj1 from_binary_schema _ _ _ S (List.length (c ++ bt ++ n ++ rest)) (n ++ rest)
        ltac:(rewrite !app_length; lia)).
  seq (read_varuint_ok _ _ rest U). change (Z.to_nat 0) with 0%nat. cbn [times]. unfold pseq, pret at 1.
  change (dict_of []) with (@nil (str * Z)). unfold enum_type, enum_create.
  assert (existsb (Z.eqb 0) nm = false) as ->; [|reflexivity].
  apply not_true_iff_false. rewrite existsb_exists. intros (x & I & E). apply Z.eqb_eq in E. now subst x.
Qed.

(** The number of a schema or of an element is not limited to 64 bits. *)
Theorem C30_overlong_refuted : exists b v, read TVaruint b = Ok (VInt v, []) /\ 2 ^ 64 <= v.
Proof. exists [128; 128; 128; 128; 128; 128; 128; 128; 128; 2], (2 ^ 64). split; [reflexivity|lia]. Qed.

(** ** A case that meets the hypotheses: an object with a keyword for a name, an
    alias, a default value, an enum and an array of strings *)
Definition ex_fields : list (field_info * ty) :=
  [({| fi_flags := 0; fi_name := lit "x"; fi_aliases := []; fi_default := None |}, TUInt 2);
   ({| fi_flags := 5; fi_name := lit "if"; fi_aliases := [lit "i"]; fi_default := Some (VInt 7) |}, TInt 1);
   ({| fi_flags := 0; fi_name := lit "mode"; fi_aliases := []; fi_default := None |},
      TEnum (lit "mode") (TUInt 1) [(lit "idle", 0); (lit "run", 10)]);
   ({| fi_flags := 0; fi_name := lit "log"; fi_aliases := []; fi_default := None |}, TArray TString)].
Definition ex_schema : list Z :=
  [16] ++ [0] ++
  ([0] ++ (1 :: lit "x") ++ [0] ++ [] ++ ([4] ++ [2]) ++ [0] ++
   ([5] ++ (2 :: lit "if") ++ [1] ++ (1 :: lit "i") ++ [] ++ ([3] ++ [1]) ++ [1; 7] ++
    ([0] ++ (4 :: lit "mode") ++ [0] ++ [] ++
       ([17] ++ ([4] ++ [1]) ++ [2] ++ ([0] ++ (4 :: lit "idle") ++ [10] ++ (3 :: lit "run") ++ [])) ++ [0] ++
     ([0] ++ (3 :: lit "log") ++ [0] ++ [] ++ ([18] ++ [10]) ++ [0] ++ [0; 0; 0; 0; 0])))).
Definition ex_value : value :=
  VTuple [(lit "x", VInt 513); (lit "py_if", VInt (-2)); (lit "mode", VEnum (Some (lit "run")) 10);
          (lit "log", VList [VStr (lit "a"); VStr [0xb5; 0x1f600]])].
Definition ex_data : list Z :=
  [1; 2] ++ [254] ++ [10] ++ ([2] ++ (1 :: lit "a") ++ (6 :: [0xc2; 0xb5; 0xf0; 0x9f; 0x98; 0x80]) ++ []) ++ [].

Ltac a_text := split; [scalars|split; [reflexivity|]];
  match goal with |- exists _, _ /\ ?n :: _ = _ => exists [n]; split; [small|reflexivity] end.
Ltac a_name := repeat split; cbn; reflexivity.
Example C30_ex_schema : schema (lit "_") (TObject 0 ex_fields) ex_schema.
Proof.
  apply (s_object _ [16] 0 ex_fields [0]); [small|small| |].
  - apply sf_cons; [a_name|discriminate|discriminate|small|a_text|small|constructor| |discriminate|constructor|].
    { apply (s_uint _ [4]); [small|]. unfold int_size. lia. }
    apply (sf_cons _ _ _ [5] (2 :: lit "if") [1] ((1 :: lit "i") ++ []) ([3] ++ [1]) [1; 7]);
      [a_name|discriminate|discriminate|small|a_text|small| | |discriminate| |].
    { constructor; [a_text|constructor]. }
    { apply (s_int _ [3]); [small|]. unfold int_size. lia. }
    { constructor; [lia|]. constructor; [unfold int_size; lia|cbn; lia|reflexivity]. }
    apply sf_cons; [a_name|discriminate|discriminate|small|a_text|small|constructor| |discriminate|constructor|].
    { apply (s_enum _ [17]); [small| |small| |discriminate| | |].
      - apply (s_uint _ [4]); [small|]. unfold int_size. lia.
      - apply (ei_cons _ _ _ _ [0]); [|a_text|apply (ei_cons _ _ _ _ [10]); [|a_text|constructor]];
          (constructor; [unfold int_size; lia|cbn; lia|reflexivity]).
      - repeat constructor; cbn; intuition discriminate.
      - repeat constructor; discriminate.
      - cbn. intuition discriminate. }
    apply sf_cons; [a_name|discriminate|discriminate|small|a_text|small|constructor| |discriminate|constructor|].
    { apply (s_array _ [18] _ [10]); [small|]. constructor. small. }
    constructor.
  - cbn. repeat constructor; cbn; intuition discriminate.
Qed.
Lemma field_cons i t fs k v vs b b' : k = attribute (fi_name i) ->
  fi_name i <> lit "async" -> fi_name i <> lit "await" -> enc t v b -> enc_fields fs vs b' ->
  enc_fields ((i, t) :: fs) ((k, v) :: vs) (b ++ b').
Proof. intros ->. apply ef_cons. Qed.
Ltac a_field := apply field_cons; [reflexivity|discriminate|discriminate| |].
Ltac an_int := constructor; [unfold int_size; lia|cbn; lia|reflexivity].
Example C30_ex_data : enc (TObject 0 ex_fields) ex_value ex_data.
Proof.
  constructor. unfold ex_fields, ex_data.
  a_field; [an_int|]. a_field; [an_int|]. a_field.
  { constructor; [an_int|]. exists [(lit "idle", 0)], []. split; [reflexivity|]. cbn. lia. }
  a_field; [|constructor]. apply (e_array _ _ [2]); [small|].
  apply el_cons; [constructor; a_text|]. apply el_cons; [constructor|constructor].
  split; [scalars|]. split; [reflexivity|]. exists [6]. split; [small|reflexivity].
Qed.
Example C30_ex : exists t, type_from_binary (lit "_") ex_schema = Ok (t, []) /\
  read t (ex_data ++ [1; 2; 3]) = Ok (ex_value, [1; 2; 3]).
Proof.
  pose proof (C30_end_to_end _ _ _ _ [] [1; 2; 3] C30_ex_schema C30_ex_data) as H.
  now rewrite app_nil_r in H.
Qed.
Example C30_ex_truncated : exists t rs, type_from_binary (lit "_") [18; 4; 2] = Ok (t, rs) /\ no_text t /\
  enc t (VList [VInt 1; VInt 513]) ([2; 1; 0; 1] ++ [2]).
Proof.
  exists (TArray (TUInt 2)), []. split; [reflexivity|]. split; [exact I|].
  apply (e_array _ _ [2] ([1; 0] ++ [1; 2] ++ [])); [small|].
  repeat apply el_cons; try constructor; try (unfold int_size; lia); try reflexivity.
Qed.

Print Assumptions C30_data.
Print Assumptions C30_unambiguous.
Print Assumptions C30_schema.
Print Assumptions C30_end_to_end.
Print Assumptions C30_total.
Print Assumptions C30_only.
Print Assumptions C30_truncated.
Print Assumptions C30_truncated_text.
Print Assumptions C30_seconds.
Print Assumptions C30_microseconds.
Print Assumptions C30_flags_refuted.
Print Assumptions C30_truncated_refuted.
Print Assumptions C30_keyword_refuted.
Print Assumptions C30_varint_refuted.
Print Assumptions C30_unknown_code.
Print Assumptions C30_empty_enum.
Print Assumptions C30_overlong_refuted.
