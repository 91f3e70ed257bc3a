(** C07, C08 - escaping of text fields. *)
From Coq Require Import Ascii String List.
From Verif Require Import Chars TextCodec_Model TextCodec_Proofs.
Import ListNotations.
Open Scope char_scope.

(** C07: decoding inverts encoding, for every text and every delimiter character. *)
Theorem text_decode_encode :
  forall s delimiter, decodeString (encodeString s delimiter) delimiter = s.
Proof. exact decode_encode. Qed.
Print Assumptions text_decode_encode.

(** C07: different texts have different encodings. *)
Theorem text_encode_injective :
  forall s t delimiter, encodeString s delimiter = encodeString t delimiter -> s = t.
Proof. exact encode_injective. Qed.
Print Assumptions text_encode_injective.

(** C07: text that was never encoded, in which no '<' is followed by '_' or '~', is read unchanged. *)
Theorem text_decode_plain :
  forall s delimiter, (forall a c b, s = a ++ "<" :: c :: b -> c <> "_" /\ c <> "~") -> decodeString s delimiter = s.
Proof. exact decode_plain. Qed.
Print Assumptions text_decode_plain.

(** C08: an encoded text never contains a newline. *)
Theorem text_encode_no_newline :
  forall s delimiter, ~ In "010" (encodeString s delimiter).
Proof. exact encode_no_newline. Qed.
Print Assumptions text_encode_no_newline.

(** C08: an encoded text never contains the delimiter, unless the delimiter is one of
    the six characters of the escape syntax. *)
Theorem text_encode_no_delimiter :
  forall s delimiter, ~ In delimiter ["<"; "_"; "~"; "D"; "N"; ">"] ->
    ~ In delimiter (encodeString s delimiter).
Proof. exact encode_no_delim. Qed.
Print Assumptions text_encode_no_delimiter.

(** The exception is needed. *)
Theorem text_encode_no_delimiter_any_refuted :
  exists s delimiter, In delimiter (encodeString s delimiter).
Proof. exists ["<"], "_". cbn. auto. Qed.
Print Assumptions text_encode_no_delimiter_any_refuted.

Example text_codec_ex :
  encodeString (lit "a<b,c<~D>") "," = lit "a<_<b<~D>c<_<~D>" /\
  decodeString (lit "a<_<b<~D>c<_<~D>") "," = lit "a<b,c<~D>" /\
  ~ In "," ["<"; "_"; "~"; "D"; "N"; ">"] /\ ~ In "<" (lit "plain").
Proof. repeat split; cbn; intuition discriminate. Qed.
