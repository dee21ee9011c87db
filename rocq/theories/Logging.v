(** The logging configuration that reformat_markdown.py and _utils/_utils.py change. *)
From Verif Require Import Py Regex Utils TextWrap Lines Detectors Formatters.

(** Python's [logging] levels. *)
Definition DEBUG : Z := 10.
Definition INFO : Z := 20.
Definition WARNING : Z := 30.
Definition ERROR : Z := 40.
Definition CRITICAL : Z := 50.

(** [own_level]: the level attribute of the logger [markflow.reformat_markdown] (0 is
    NOTSET); [inherited_level]: the effective level of its ancestors; [info_const]: the
    module attribute [logging.INFO]. *)
Record log_state := LogState {
  own_level : Z;
  inherited_level : Z;
  info_const : Z
}.

(** [Logger.getEffectiveLevel] *)
Definition effective_level (st : log_state) : Z :=
  if Z.eqb (own_level st) 0 then inherited_level st else own_level st.

(** [Logger.setLevel] *)
Definition set_level (st : log_state) (l : Z) : log_state :=
  LogState l (inherited_level st) (info_const st).

(** [redirect_info_logs_to_debug] (_utils/_utils.py:29-34) sets [logging.INFO] to DEBUG
    inside its block and restores it when the block ends normally, so after a pass it is
    DEBUG exactly when an exception left such a block. *)
Definition info_after {A} (x : res A) (st : log_state) : log_state :=
  match x with
  | Err (Redirected _) => LogState (own_level st) (inherited_level st) DEBUG
  | _ => st
  end.

(** reformat_markdown.py:76-102 [reformat_markdown_text] with its logging effects. *)
Definition reformat_markdown_text_log (lim : nat) (text : str) (w : width)
    (st : log_state) : res str * log_state :=
  let first := reformat_pass lim text w in
  let st := info_after first st in
  match first with
  | Err e => (Err e, st)
  | Ok new_text =>
      let level := effective_level st in
      let st := if Z.ltb DEBUG level then set_level st ERROR else st in
      let second := reformat_pass lim new_text w in
      let st := info_after second st in
      match second with
      | Err e => (Err e, st)
      | Ok new_new_text =>
          let st := set_level st level in
          if str_eqb new_new_text new_text
          then (Ok (rstrip new_text ++ [c_nl]), st)
          else (Err ReformatInconsistentException, st)
      end
  end.
