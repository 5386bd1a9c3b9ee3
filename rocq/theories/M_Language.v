(** Stop-word tables and language selection: language/*.go. *)
From Verif Require Import Base.

(** language/StopEnglish.go:3-37 (transcribed mechanically, 33 entries). *)
Definition stop_words_english_list : list (string * bool) :=
    [("a", true); ("an", true); ("and", true); ("are", true); ("as", true); ("at", true); ("be",
   true); ("but", true); ("by", true); ("for", true); ("if", true); ("in", true); ("into", true);
   ("is", true); ("it", true); ("no", true); ("not", true); ("of", true); ("on", true); ("or",
   true); ("such", true); ("that", true); ("the", true); ("their", true); ("then", true); ("there",
   true); ("these", true); ("they", true); ("this", true); ("to", true); ("was", true); ("will",
   true); ("with", true)]%string.
Definition stop_words_english : gmap string bool := list_to_map stop_words_english_list.

(** language/StopPortuguese.go:3-130 (transcribed mechanically, 126 entries). *)
Definition stop_words_portuguese_list : list (string * bool) :=
    [("a", true); ("ainda", true); ("alem", true); ("ambas", true); ("ambos", true); ("antes",
   true); ("ao", true); ("aonde", true); ("aos", true); ("apos", true); ("aquele", true);
   ("aqueles", true); ("as", true); ("assim", true); ("com", true); ("como", true); ("contra",
   true); ("contudo", true); ("cuja", true); ("cujas", true); ("cujo", true); ("cujos", true);
   ("da", true); ("das", true); ("de", true); ("dela", true); ("dele", true); ("deles", true);
   ("demais", true); ("depois", true); ("desde", true); ("desta", true); ("deste", true); ("dispoe",
   true); ("dispoem", true); ("diversa", true); ("diversas", true); ("diversos", true); ("do",
   true); ("dos", true); ("durante", true); ("e", true); ("ela", true); ("elas", true); ("ele",
   true); ("eles", true); ("em", true); ("entao", true); ("entre", true); ("essa", true); ("essas",
   true); ("esse", true); ("esses", true); ("esta", true); ("estas", true); ("este", true);
   ("estes", true); ("ha", true); ("isso", true); ("isto", true); ("logo", true); ("mais", true);
   ("mas", true); ("mediante", true); ("menos", true); ("mesma", true); ("mesmas", true); ("mesmo",
   true); ("mesmos", true); ("na", true); ("nas", true); ("nao", true); ("nem", true); ("nesse",
   true); ("neste", true); ("nos", true); ("o", true); ("os", true); ("ou", true); ("outra", true);
   ("outras", true); ("outro", true); ("outros", true); ("pelas", true); ("pelo", true); ("pelos",
   true); ("perante", true); ("pois", true); ("por", true); ("porque", true); ("portanto", true);
   ("proprio", true); ("propios", true); ("quais", true); ("qual", true); ("qualquer", true);
   ("quando", true); ("quanto", true); ("que", true); ("quem", true); ("quer", true); ("se", true);
   ("seja", true); ("sem", true); ("sendo", true); ("seu", true); ("seus", true); ("sob", true);
   ("sobre", true); ("sua", true); ("suas", true); ("tal", true); ("tambem", true); ("teu", true);
   ("teus", true); ("toda", true); ("todas", true); ("todo", true); ("todos", true); ("tua", true);
   ("tuas", true); ("tudo", true); ("um", true); ("uma", true); ("umas", true); ("uns",
   true)]%string.
Definition stop_words_portuguese : gmap string bool := list_to_map stop_words_portuguese_list.

(** language/Language.go:5-8 *)
Definition lang_english : string := "EN".
Definition lang_portuguese : string := "PT".

(** language/Language.go:10-22; [None] is the panic "Invalid language". *)
Definition get_words (language : string) : option (gmap string bool) :=
  if bool_decide (language = lang_english) then Some stop_words_english
  else if bool_decide (language = lang_portuguese) then Some stop_words_portuguese
  else None.
