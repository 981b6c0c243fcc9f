(** Properties C53, C119-C121: the detection of the encoding of a netlist or log file. *)
From Coq Require Import List Bool NArith Lia.
From Verif Require Import EncModel EncSpec EncProofs.
Import ListNotations.
Local Open Scope N_scope. Local Open Scope list_scope.

(** C53.  The encoding returned is acceptable -- the whole file can be read with it, the text is not empty, it matches the
    expected pattern, and it is not UTF-8 read out of a UTF-16 file -- and none tried before it is.  EncodingDetectError is
    raised only when none is acceptable. *)
Theorem C53_first : forall other pattern file,
  match detect other pattern file with
  | Is e => acceptable other pattern file e /\ forall e', earlier e' e -> ~ acceptable other pattern file e'
  | NoEncoding => forall e, ~ acceptable other pattern file e
  | IndexError => exists c, read other Utf8 file = Some [c] /\ pattern [c] = true
  end.
Proof.
  intros other pattern file. unfold detect. pose proof (detect_spec other pattern file candidates) as H. destruct (detect_from other pattern file candidates) as [e| |].
  - destruct H as (A & a & b & E & N). split; [exact A|]. intros e' (x & y & z & E'). apply N. change candidates with order in E.
    assert (ND : NoDup order) by (unfold order; repeat (constructor; [cbn; intuition discriminate|]); constructor).
    rewrite E in E'. assert (a = x ++ e' :: y) as ->.
    { rewrite E in ND. clear -E' ND. change (x ++ e' :: y ++ e :: z) with (x ++ (e' :: y) ++ e :: z) in E'. rewrite app_assoc in E'. set (w := x ++ e' :: y) in *. clearbody w. revert w E' ND. induction a as [|k a IH]; intros [|k' w] E' ND; cbn in E'.
      - reflexivity.
      - injection E' as -> ->. cbn in ND. inversion ND as [|? ? K _]; subst. contradiction K. apply in_or_app. right. left. reflexivity.
      - injection E' as -> <-. cbn in ND. inversion ND as [|? ? K _]; subst. contradiction K. apply in_or_app. right. left. reflexivity.
      - injection E' as -> E'. f_equal. apply IH; [exact E'|]. cbn in ND. inversion ND; assumption. }
    apply in_or_app. right. left. reflexivity.
  - intros e. apply H. destruct e; cbn; tauto.
  - exact H.
Qed.
Print Assumptions C53_first.
(** Bytes 0x80 cannot be UTF-8; two of them are U+8080 in UTF-16-LE, which is not of the pattern; so cp1252. *)
Example C53_nonvacuous : detect (fun _ _ => None) (fun t => match t with 8364 :: _ => true | _ => false end) [128; 128] = Is Windows1252
  /\ detect (fun _ _ => None) (fun _ => false) [65; 66] = NoEncoding.
Proof. split; reflexivity. Qed.

Lemma seen_nonempty : forall t u, seen t u -> u <> [] -> t <> [].
Proof. intros t u H N ->. inversion H; subst. contradiction N. reflexivity. Qed.

(** C119.  Files written by the simulators are recognised, and read exactly: UTF-8; UTF-16 with a byte order mark; UTF-16
    little endian without one, when the text begins with an ASCII character; Windows-1252, when the expected pattern begins
    with an ASCII character, the second byte is not NUL and the file is not also valid UTF-8. *)
Theorem C119_utf8 : forall other pattern t u, Forall scalar t -> seen t u -> (2 <= length u)%nat -> nth_error u 1 <> Some 0 -> pattern u = true ->
  detect other pattern (in_utf8 t) = Is Utf8 /\ read other Utf8 (in_utf8 t) = Some u.
Proof.
  intros other pattern t u S N L Z P. assert (R : read other Utf8 (in_utf8 t) = Some u) by (unfold read, decode; rewrite utf8_text by exact S; cbn [option_map]; rewrite (seen_newlines t u N); reflexivity).
  split; [|exact R]. unfold detect, candidates. cbn [detect_from]. rewrite R. destruct u as [|c [|d u]]; cbn in L; try lia. rewrite P. cbn in Z. destruct d; [congruence|reflexivity].
Qed.
Print Assumptions C119_utf8.
Lemma utf8_255 : forall r, utf8 (255 :: r) = None. Proof. reflexivity. Qed.
Theorem C119_utf16_bom : forall other pattern t u, Forall scalar t -> seen t u -> u <> [] -> pattern u = true ->
  detect other pattern (255 :: 254 :: in_utf16le t) = Is Utf16 /\ read other Utf16 (255 :: 254 :: in_utf16le t) = Some u.
Proof.
  intros other pattern t u S N E P. assert (R : read other Utf16 (255 :: 254 :: in_utf16le t) = Some u).
  { unfold read, decode, utf16. cbn [N.eqb Pos.eqb andb]. change (utf16_units true (in_utf16le t)) with (utf16le (in_utf16le t)). rewrite utf16_text by exact S. cbn [option_map]. rewrite (seen_newlines t u N). reflexivity. }
  split; [|exact R]. unfold detect, candidates. cbn [detect_from]. change (read other Utf8 (255 :: 254 :: in_utf16le t)) with (@None chars). rewrite R. destruct u as [|c u]; [congruence|]. rewrite P. reflexivity.
Qed.
Print Assumptions C119_utf16_bom.
Lemma in_utf16le_ascii : forall c t, c < 128 -> in_utf16le (c :: t) = c :: 0 :: in_utf16le t.
Proof.
  intros c t L. unfold in_utf16le. cbn [flat_map]. unfold utf16_units_of at 1. rewrite ltb_t by lia. cbn [app flat_map]. rewrite N.mod_small, N.div_small by lia. reflexivity.
Qed.
Lemma ascii_not_utf16 : forall other c r, c < 128 -> read other Utf16 (c :: r) = None.
Proof.
  intros other c [|b r] L; [reflexivity|]. unfold read, decode, utf16. destruct (N.eqb_spec c 255) as [->|_]; [lia|]. destruct (N.eqb_spec c 254) as [->|_]; [lia|]. reflexivity.
Qed.
Theorem C119_utf16le : forall other pattern c t u, c < 128 -> Forall scalar t -> seen (c :: t) u -> pattern u = true ->
  detect other pattern (in_utf16le (c :: t)) = Is Utf16le /\ read other Utf16le (in_utf16le (c :: t)) = Some u.
Proof.
  intros other pattern c t u L S N P. assert (SC : Forall scalar (c :: t)) by (constructor; [left; lia|exact S]).
  assert (R : read other Utf16le (in_utf16le (c :: t)) = Some u) by (unfold read, decode; rewrite utf16_text by exact SC; cbn [option_map]; rewrite (seen_newlines _ u N); reflexivity).
  split; [|exact R]. unfold detect, candidates. cbn [detect_from]. rewrite R. rewrite in_utf16le_ascii by exact L. rewrite (ascii_not_utf16 other c _ L).
  assert (E : match u with [] => False | _ => True end) by (inversion N; exact I). destruct u as [|d u]; [contradiction|]. rewrite P.
  unfold read at 1, decode. cbn [utf8]. rewrite ltb_t by exact L. cbn [N.ltb N.compare]. destruct (utf8 (in_utf16le t)) as [v|]; cbn [cons_ option_map]; [|reflexivity].
  cbn [newlines]. destruct (c =? 13) eqn:C; cbn [N.eqb]; match goal with |- context [pattern ?x] => destruct (pattern x) end; reflexivity.
Qed.
Print Assumptions C119_utf16le.
Theorem C119_cp1252 : forall other pattern a b r t u, begins_ascii pattern -> b <> 0 ->
  utf8 (a :: b :: r) = None -> cp1252 (a :: b :: r) = Some t -> seen t u -> pattern u = true ->
  detect other pattern (a :: b :: r) = Is Windows1252 /\ read other Windows1252 (a :: b :: r) = Some u.
Proof.
  intros other pattern a b r t u BA NB U8 C N P. assert (R : read other Windows1252 (a :: b :: r) = Some u) by (unfold read, decode; rewrite C; cbn [option_map]; rewrite (seen_newlines _ u N); reflexivity).
  split; [|exact R]. destruct (BA u P) as (c & u' & -> & LC). cbn [cp1252] in C. destruct (cp1252_c a) as [ca|] eqn:CA; [|discriminate C].
  assert (LA : a < 128).
  { assert (K : ca < 128). { destruct (cp1252_c b) as [cb|]; [|discriminate C]. destruct (cp1252 r) as [tr|]; [|discriminate C]. cbn in C. injection C as <-. inversion N; subst; lia. }
    unfold cp1252_c, inr in CA. destruct (N.leb_spec 128 a), (N.leb_spec a 159); cbn [andb] in CA; try (injection CA as <-; exact K).
    assert (HI : Forall (fun x => x = 0 \/ 128 <= x) high) by (unfold high; repeat (constructor; [lia|]); constructor).
    pose proof (proj1 (Forall_nth (fun x => x = 0 \/ 128 <= x) high) HI (N.to_nat (a - 128)) 0) as HN. assert (LL : (N.to_nat (a - 128) < length high)%nat) by (change (length high) with 32%nat; lia). specialize (HN LL). destruct (nth (N.to_nat (a - 128)) high 0); [discriminate CA|]. injection CA as <-. destruct HN; [discriminate|lia]. }
  unfold detect, candidates. cbn [detect_from]. rewrite R. unfold read at 1, decode. rewrite U8. cbn [option_map]. rewrite (ascii_not_utf16 other a _ LA). rewrite P.
  destruct (read other Utf16le (a :: b :: r)) as [[|d v]|] eqn:RL; try reflexivity.
  destruct (pattern (d :: v)) eqn:PV; [|reflexivity]. exfalso. destruct (BA _ PV) as (d' & v' & E & LD). injection E as <- <-.
  unfold read, decode, utf16le, utf16_units in RL. cbn [units] in RL. destruct (units true r) as [us|]; [|discriminate RL]. cbn [cons_ of_units] in RL.
  assert (G : 256 <= a + 256 * b) by lia. destruct (inr 55296 56319 (a + 256 * b)) eqn:I1.
  - destruct us as [|v1 us]; [discriminate RL|]. destruct (inr 56320 57343 v1); [|discriminate RL]. destruct (of_units us) as [w|]; [|discriminate RL]. cbn [cons_ option_map newlines] in RL. destruct (N.eqb_spec (65536 + (a + 256 * b - 55296) * 1024 + (v1 - 56320)) 13) as [K|K]; [lia|]. assert (G2 : 65536 + (a + 256 * b - 55296) * 1024 + (v1 - 56320) = d) by congruence. revert G2. clear - LD. intros G2. lia.
  - destruct (inr 56320 57343 (a + 256 * b)); [discriminate RL|]. destruct (of_units us) as [w|]; [|discriminate RL]. cbn [cons_ option_map newlines] in RL. destruct (N.eqb_spec (a + 256 * b) 13) as [K|K]; [lia|]. assert (G2 : a + 256 * b = d) by congruence. lia.
Qed.
Print Assumptions C119_cp1252.
(** "* µ" CR LF in four encodings, with the pattern "*". *)
Definition star (t : chars) : bool := match t with 42 :: _ => true | _ => false end.
Example C119_nonvacuous : Forall scalar [42; 32; 181; 13; 10] /\ seen [42; 32; 181; 13; 10] [42; 32; 181; 10] /\ star [42; 32; 181; 10] = true /\ begins_ascii star
  /\ in_utf8 [42; 32; 181; 13; 10] = [42; 32; 194; 181; 13; 10] /\ in_utf16le [42; 32; 181; 13; 10] = [42; 0; 32; 0; 181; 0; 13; 0; 10; 0]
  /\ utf8 [42; 32; 181; 13; 10] = None /\ cp1252 [42; 32; 181; 13; 10] = Some [42; 32; 181; 13; 10].
Proof.
  split; [repeat (constructor; [left; reflexivity|]); constructor|]. split; [apply (newlines_seen [42; 32; 181; 13; 10])|]. split; [reflexivity|].
  split; [|repeat split; reflexivity]. intros [|c t] P; [discriminate P|]. exists c, t. split; [reflexivity|]. unfold star in P. destruct (N.eqb_spec c 42) as [->|K]; [reflexivity|].
  exfalso. destruct c as [|p]; [discriminate P|]. do 6 (destruct p as [p|p|]; try discriminate P). apply K. reflexivity.
Qed.

(** C120, refuted: detection fails with EncodingDetectError or gives an encoding.  A file of one character makes it raise
    IndexError instead. *)
Theorem C120_index_refuted : forall other pattern c, c < 128 -> c <> 13 -> pattern [c] = true -> detect other pattern [c] = IndexError.
Proof.
  intros other pattern c L N P. unfold detect, candidates. cbn [detect_from]. unfold read at 1, decode. cbn [utf8]. rewrite ltb_t by exact L. cbn [cons_ option_map newlines]. destruct (N.eqb_spec c 13); [contradiction|]. rewrite P. reflexivity.
Qed.
Print Assumptions C120_index_refuted.
(** C121, refuted: a Windows-1252 file is read as Windows-1252 when no pattern is given.  The two characters "µA" are
    read as one Chinese one. *)
Theorem C121_cp1252_refuted : forall other, cp1252 [181; 65] = Some [181; 65] /\ utf8 [181; 65] = None /\
  detect other (fun _ => true) [181; 65] = Is Utf16le /\ read other Utf16le [181; 65] = Some [16821].
Proof. intros other. repeat split; reflexivity. Qed.
Print Assumptions C121_cp1252_refuted.
