(** Specification vocabulary for searches that run while other goroutines save (C61). *)
From Verif Require Import Base M_Field M_Memory M_Concurrent M_Num M_Search M_SearchConc S_Memory S_Concurrent.

(** The call a goroutine is in. *)
Definition calling (pc : tpc) : option call :=
  match pc with
  | TIdle => None
  | TDoc d x | TDocW d x _ | TNft d x | TNftLoop d x _ _ | TNftW d x _ _ _ _ => Some (Save d x)
  | TSize full d x | TSizeW full d x _ | TLen full d x | TLenW full d x _ | TIdx full d x | TIdxNew full d x | TLoop full d x _ _ | TSet full d x _ _ _ _ =>
      Some (if full then Save d x else Index d x)
  end.
(** No call in progress concerns document [d] or field [f]. *)
Definition undisturbed (y : conc) (f d : string) : Prop :=
  forall th c, th ∈ cs_threads y -> calling th.1 = Some c -> call_doc c <> d /\ f_name (call_field c) <> f.
(** The saves that count document frequencies of term [t] in field [f]. *)
Definition counts_term (f t : string) (c : call) : bool :=
  match c with Save _ x => bool_decide (f_name x = f) && bool_decide (is_Some (f_tf x !! t)) | Index _ _ => false end.
Definition term_saves (f t : string) (h : list call) : Z := Z.of_nat (length (List.filter (counts_term f t) h)).
(** State [m] lies on an execution of the writers from [y] to [z]. *)
Definition moment (y z m : conc) : Prop := rtc (conc_step false) y m /\ rtc (conc_step false) m z.
(** A goroutine is about to write to map [m]. *)
Definition writing (y : conc) (m : the_map) : Prop := exists th, th ∈ cs_threads y /\ writes_to th.1 = Some m.
