(** Specification vocabulary for errors as values: how a text laid out over
    several lines by Rust's "{:#?}" reads on one line. *)
From Verif Require Export SpecErrText MError.
Open Scope Z_scope.

(** Where the reader is: in a line, behind a comma not yet copied, behind an opening
    brace, or at the start of a line, with or without a comma at the end of the one before. *)
Inductive place := InLine | BehindComma | BehindBrace | AtStart (comma : bool).
(** The one-line reading of a text: line ends and indentation are dropped; a comma at
    the end of a line stays, with a space, unless the next line starts with a closing
    bracket; the braces of a struct get a space on their inner side. *)
Fixpoint on_one_line (p : place) (s : list Z) : list Z :=
  match s with
  | [] => match p with BehindComma => [44] | _ => [] end
  | c :: r =>
      let copy :=
        if c =? 10 then on_one_line (AtStart false) r
        else if c =? 44 then on_one_line BehindComma r
        else if c =? 123 then 123 :: on_one_line BehindBrace r
        else c :: on_one_line InLine r in
      match p with
      | InLine => copy
      | BehindComma => if c =? 10 then on_one_line (AtStart true) r else 44 :: copy
      | BehindBrace => if c =? 10 then 32 :: on_one_line (AtStart false) r else copy
      | AtStart comma =>
          if (c =? 32) || (c =? 10) then on_one_line (AtStart comma) r
          else if c =? 125 then 32 :: 125 :: on_one_line InLine r
          else if (c =? 41) || (c =? 93) then c :: on_one_line InLine r
          else (if comma then [44; 32] else []) ++ copy
      end
  end.
