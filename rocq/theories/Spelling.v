(** Spelling: when two token sequences differ only in ways that reading them
    should not depend on.  Specification side of C55. *)
From Coq Require Import String Ascii List Bool NArith.
From Verif Require Import PyStr Lexer LexFacts Tokens.
Import ListNotations.
Open Scope string_scope.

(** Words of SqlBase.g4 860-1128 whose letter case reading should not depend
    on: those that cannot be a name (SqlBase.g4 828-856), except DISTINCT. *)
Definition case_free (k : string) : bool :=
  (negb (mem k non_reserved) && negb (String.eqb k "DISTINCT"))%bool.

(** One representative for all spellings of a token: keywords that cannot be
    names in upper case, names without their quotes. *)
Definition kw_text (k txt : string) : string :=
  if (case_free k && String.eqb (upper txt) (upper k))%bool then k else txt.
Definition norm (t : token) : token :=
  match t with
  | TKw k txt => TKw k (kw_text k txt)
  | TQuoted q => TId (strip dquote q)
  | _ => t
  end.
(** Two texts that consist of the same tokens up to spelling; layout and
    comments are not part of the tokens. *)
Definition same_spelling (s s' : string) : Prop := map norm (lex s) = map norm (lex s').

(** * Ways to write a token sequence (SqlBase.g4 1130-1219)

    Written with the grammar's own notions: white space, the two kinds of
    comments, the text of a token and what may follow it (longest match). *)

Definition eol (c : ascii) : bool := (N.eqb (code c) 10 || N.eqb (code c) 13)%bool.
Definition one_of (l : list ascii) (c : ascii) : bool := existsb (Ascii.eqb c) l.
(** WS, DIGIT and LETTER, character by character (SqlBase.g4 1194-1200, 1210-1212). *)
Definition carriage_return : ascii := ascii_of_nat 13.
Definition line_feed : ascii := ascii_of_nat 10.
Definition blank (c : ascii) : bool :=
  one_of [" "%char; ascii_of_nat 9; line_feed; carriage_return] c.
Definition digit (c : ascii) : bool := one_of (list_ascii_of_string "0123456789") c.
Definition letter (c : ascii) : bool :=
  one_of (list_ascii_of_string "abcdefghijklmnopqrstuvwxyzABCDEFGHIJKLMNOPQRSTUVWXYZ") c.
Definition word_char (c : ascii) : bool := (letter c || digit c || Ascii.eqb c "_")%bool.
(** IDENTIFIER (SqlBase.g4 1174-1176). *)
Definition word (w : string) : bool :=
  match w with
  | String c r => ((letter c || Ascii.eqb c "_") && str_forall word_char r)%bool
  | "" => false
  end.
(** The ends of a line (SqlBase.g4 1202-1204). *)
Definition line_end (e : string) : Prop :=
  e = String line_feed "" \/ e = String carriage_return ""
  \/ e = String carriage_return (String line_feed "").
(** The two characters that end a bracketed comment occur. *)
Fixpoint closes (s : string) : bool :=
  match s with
  | "" => false
  | String c s' =>
      (match s' with String d _ => (Ascii.eqb c "*" && Ascii.eqb d "/")%bool | "" => false end
       || closes s')%bool
  end.
(** SqlBase.g4 1202-1212: white space and comments. *)
Inductive gap : string -> Prop :=
| gap_end : gap ""
| gap_blank c g : blank c = true -> gap g -> gap (String c g)
| gap_line b e g : str_exists eol b = false -> line_end e -> gap g -> gap ("--" ++ b ++ e ++ g)
| gap_block b g : closes b = false -> gap g -> gap ("/*" ++ b ++ "*/" ++ g).

(** The text [k] does not start with such a character. *)
Definition not_next (f : ascii -> bool) (k : string) : bool :=
  match k with "" => true | String c _ => negb (f c) end.
(** The words that start another kind of token. *)
Definition prefix_word (w k : string) : bool :=
  match k with
  | String a k' =>
      (String.eqb w "X" && Ascii.eqb a squote
       || String.eqb w "U" && Ascii.eqb a "&" && negb (not_next (Ascii.eqb squote) k'))%bool
  | "" => false
  end.
(** Symbols, with what must not follow. *)
Definition sym_ok (s k : string) : bool :=
  if mem s ["("; ")"; ","; "["; "]"; "+"; "*"; "%"; "?"; "<="; "<>"; ">="; "=>"; "!="; "||"; "->"]
  then true
  else if String.eqb s "<" then not_next (one_of ["="; ">"]%char) k
  else if String.eqb s ">" then not_next (one_of ["="]%char) k
  else if String.eqb s "=" then not_next (one_of [">"]%char) k
  else if String.eqb s "-" then not_next (one_of ["-"; ">"; "}"]%char) k
  else if String.eqb s "/" then not_next (one_of ["*"]%char) k
  else if String.eqb s "." then not_next digit k
  else false.

(** [lexeme t s k]: before the text [k], the text [s] is the token [t]. *)
Inductive lexeme : token -> string -> string -> Prop :=
| lx_word w k : word w = true -> not_next word_char k = true -> prefix_word w k = false ->
    lexeme (word_token w) w k
| lx_name n k : paired dquote n = true -> not_first dquote k = true ->
    lexeme (TQuoted (quote_identifier n)) (quote_identifier n) k
| lx_text n k : paired squote n = true -> not_first squote k = true ->
    lexeme (TString (quote_literal n)) (quote_literal n) k
| lx_int ds k : str_forall digit ds = true -> ds <> "" ->
    not_next (fun c => word_char c || Ascii.eqb c ".")%bool k = true ->
    lexeme (TInt ds) ds k
| lx_dec ds fs k : str_forall digit ds = true -> ds <> "" -> str_forall digit fs = true ->
    not_next word_char k = true -> lexeme (TDec (ds ++ "." ++ fs)) (ds ++ "." ++ fs) k
| lx_sym s k : sym_ok s k = true -> lexeme (TSym s) s k.

(** A text that consists of these tokens with gaps anywhere around them. *)
Inductive written : list token -> string -> Prop :=
| wr_end g : gap g -> written [] g
| wr_comment g b : gap g -> str_exists eol b = false -> written [] (g ++ "--" ++ b)
| wr_token g t s k ts : gap g -> lexeme t s k -> written ts k -> written (t :: ts) (g ++ s ++ k).
