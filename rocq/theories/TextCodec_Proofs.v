From Coq Require Import Ascii String List Bool Lia.
From Verif Require Import Chars TextCodec_Model.
Import ListNotations.
Open Scope char_scope.

Lemma decode_lt t d : decodeString (lit "<_<" ++ t) d = "<" :: decodeString t d.
Proof. reflexivity. Qed.
Lemma decode_D t d : decodeString (lit "<~D>" ++ t) d = d :: decodeString t d.
Proof. reflexivity. Qed.
Lemma decode_N t d : decodeString (lit "<~N>" ++ t) d = NL :: decodeString t d.
Proof. reflexivity. Qed.
Lemma decode_other c t d : c <> "<" -> decodeString (c :: t) d = c :: decodeString t d.
Proof. intro H. cbn [decodeString]. destruct (ceq_spec c "<"); congruence. Qed.

Lemma decode_encode s d : decodeString (encodeString s d) d = s.
Proof.
  induction s as [|c s IH]; [reflexivity|].
  cbn [encodeString flat_map]. fold (encodeString s d). unfold encode_char.
  destruct (ceq_spec c "<") as [->|N1]; [rewrite decode_lt; congruence|].
  destruct (ceq_spec c d) as [->|N2]; [rewrite decode_D; congruence|].
  destruct (ceq_spec c NL) as [->|N3]; [rewrite decode_N; congruence|].
  cbn [app]. rewrite decode_other by auto. congruence.
Qed.

Lemma decode_no_lt s d : ~ In "<" s -> decodeString s d = s.
Proof.
  induction s as [|c s IH]; intro H; [reflexivity|].
  rewrite decode_other; [|intros ->; apply H; now left].
  rewrite IH; auto. intro; apply H; now right.
Qed.

Lemma decode_plain s d : (forall a c b, s = a ++ "<" :: c :: b -> c <> "_" /\ c <> "~") -> decodeString s d = s.
Proof.
  remember (List.length s) as n eqn:E. assert (L : List.length s <= n) by lia. clear E. revert s L.
  induction n as [|n IH]; intros s L H; [destruct s; [reflexivity|cbn in L; lia]|]. destruct s as [|c0 t0]; [reflexivity|].
  destruct (ascii_dec c0 "<") as [->|N].
  - destruct t0 as [|c1 [|c2 t2]]; [reflexivity|cbn [decodeString ceq Ascii.eqb]; destruct (ceq c1 "<"); reflexivity|].
    destruct (H [] c1 (c2 :: t2) eq_refl) as [H1 H2]. cbn [decodeString].
    destruct (ceq_spec "<" "<"); [|congruence]. destruct (ceq_spec c1 "_"); [congruence|]. destruct (ceq_spec c1 "~"); [congruence|].
    do 2 f_equal. apply (IH (c2 :: t2)); [cbn [List.length] in *; lia|]. intros a c b E. apply (H ("<" :: c1 :: a) c b). cbn [app]. now rewrite E.
  - rewrite decode_other by exact N. f_equal. apply IH; [cbn [List.length] in L; lia|]. intros a c b E. apply (H (c0 :: a) c b). cbn [app]. now rewrite E.
Qed.

Lemma encode_no_newline s d : ~ In NL (encodeString s d).
Proof.
  induction s as [|c s IH]; cbn [encodeString flat_map]; [tauto|].
  rewrite in_app_iff. intros [H|H]; [|now apply IH].
  unfold encode_char in H.
  destruct (ceq_spec c "<"); [cbn in H; intuition discriminate|].
  destruct (ceq_spec c d); [cbn in H; intuition discriminate|].
  destruct (ceq_spec c NL); [cbn in H; intuition discriminate|].
  destruct H as [H|[]]. congruence.
Qed.

Lemma encode_no_delim s d : ~ In d (lit "<_~DN>") -> ~ In d (encodeString s d).
Proof.
  intro Hd. induction s as [|c s IH]; cbn [encodeString flat_map]; [tauto|].
  rewrite in_app_iff. intros [H|H]; [|now apply IH].
  unfold encode_char in H. cbn in Hd.
  destruct (ceq_spec c "<"); [cbn in H; tauto|].
  destruct (ceq_spec c d); [cbn in H; tauto|].
  destruct (ceq_spec c NL); [cbn in H; tauto|].
  destruct H as [H|[]]. congruence.
Qed.

Lemma encode_injective s t d : encodeString s d = encodeString t d -> s = t.
Proof. intro H. rewrite <- (decode_encode s d), H. apply decode_encode. Qed.
