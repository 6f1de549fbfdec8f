(** * TokenModel: turning script text into tokens

    Models /repo/src/nktoken.c.  A C string is the list of its bytes (each
    1..255); reading index [zlen s] gives the terminating zero and reading
    anything beyond is the outcome [Ub UbOob].  Indices do not wrap: scripts
    are assumed shorter than 2^32 - 3 bytes.  Allocation succeeds. *)

From Verif Require Import Base State FloatModel StrModel.
Import String.

(** enum NKTokenType.  /repo/src/nkenums.h:134-199. *)
Definition TK_INTEGER : Z := 0.
Definition TK_FLOAT : Z := 1.
Definition TK_PLUS : Z := 2.
Definition TK_MINUS : Z := 3.
Definition TK_MULTIPLY : Z := 4.
Definition TK_DIVIDE : Z := 5.
Definition TK_MODULO : Z := 6.
Definition TK_INCREMENT : Z := 7.
Definition TK_DECREMENT : Z := 8.
Definition TK_PAREN_OPEN : Z := 9.
Definition TK_PAREN_CLOSE : Z := 10.
Definition TK_BRACKET_OPEN : Z := 11.
Definition TK_BRACKET_CLOSE : Z := 12.
Definition TK_CURLY_OPEN : Z := 13.
Definition TK_CURLY_CLOSE : Z := 14.
Definition TK_STRING : Z := 15.
Definition TK_IDENTIFIER : Z := 16.
Definition TK_SEMICOLON : Z := 17.
Definition TK_ASSIGNMENT : Z := 18.
Definition TK_IF : Z := 19.
Definition TK_ELSE : Z := 20.
Definition TK_WHILE : Z := 21.
Definition TK_DO : Z := 22.
Definition TK_FOR : Z := 23.
Definition TK_AND : Z := 24.
Definition TK_OR : Z := 25.
Definition TK_DOT : Z := 26.
Definition TK_INDIRECTION : Z := 27.
Definition TK_GT : Z := 28.
Definition TK_LT : Z := 29.
Definition TK_GE : Z := 30.
Definition TK_LE : Z := 31.
Definition TK_EQ : Z := 32.
Definition TK_NE : Z := 33.
Definition TK_SAME : Z := 34.
Definition TK_NOT : Z := 35.
Definition TK_COMMA : Z := 36.
Definition TK_VAR : Z := 37.
Definition TK_FUNCTION : Z := 38.
Definition TK_RETURN : Z := 39.
Definition TK_NEWOBJECT : Z := 40.
Definition TK_INDEX_NOPOP : Z := 41.
Definition TK_CALL_SELF : Z := 42.
Definition TK_POSTINC : Z := 43.
Definition TK_POSTDEC : Z := 44.
Definition TK_NIL : Z := 45.
Definition TK_BREAK : Z := 46.
Definition TK_FSE : Z := 47.
Definition TK_INVALID : Z := 48.

(** struct NKToken; a token list is a Gallina list.
    /repo/src/nktoken.h:46-63. *)
Record token := mkTok {
  tk_type : Z; tk_str : bytes; tk_line : Z; tk_file : Z; tk_actual : Z
}.

(** str[i] of a C string. *)
Definition ch (s : bytes) (i : Z) : res Z :=
  if i =? zlen s then Ok 0 else rd s i.

(** nkiMemcpy of [n] bytes from str + i (into a buffer of that size). *)
Definition sub (s : bytes) (i n : Z) : res bytes :=
  if (0 <=? i) && (0 <=? n) && (i + n <=? zlen s)
  then Ok (firstn (Z.to_nat n) (skipn (Z.to_nat i) s))
  else Ub UbOob.

(** The C string held by a buffer: its bytes before the first zero. *)
Fixpoint cstr (b : list Z) : bytes :=
  match b with
  | [] => []
  | c :: r => if c =? 0 then [] else c :: cstr r
  end.

(** nkiCompilerIsWhitespace.  /repo/src/nktoken.c:46-52. *)
Definition is_ws (c : Z) : bool := (c =? 32) || (c =? 10) || (c =? 9) || (c =? 13).

(** nkiCompilerIsNumber.  /repo/src/nktoken.c:54-57. *)
Definition is_num (c : Z) : bool := (48 <=? c) && (c <=? 57).

(** nkiCompilerIsValidIdentifierCharacter.  /repo/src/nktoken.c:221-237. *)
Definition is_id (first : bool) (c : Z) : bool :=
  (negb first && is_num c) || (c =? 95) || ((97 <=? c) && (c <=? 122)) ||
  ((65 <=? c) && (c <=? 90)) || (128 <=? c).

(** while(p(str[i])) i++; *)
Fixpoint scan (fuel : nat) (p : Z -> bool) (s : bytes) (i : Z) : res Z :=
  match fuel with
  | O => Ub UbFuel
  | S k => do c <- ch s i; if p c then scan k p s (i + 1) else Ok i
  end.
Definition scan_from (p : Z -> bool) (s : bytes) (i : Z) : res Z :=
  scan (S (List.length s)) p s i.

(** The loop of nkiCompilerTokenizerUnescapeString.
    /repo/src/nktoken.c:131-161. *)
Fixpoint unescape_loop (fuel : nat) (s : bytes) (ri wi : Z) (out : list Z)
  : res (Z * list Z) :=
  match fuel with
  | O => Ub UbFuel
  | S k =>
    if ri <? zlen s then
      do c <- ch s ri;
      if c =? 92 then
        do d <- ch s (ri + 1);
        if d =? 110 then do o <- wr out wi 10; unescape_loop k s (ri + 2) (wi + 1) o
        else if d =? 114 then do o <- wr out wi 13; unescape_loop k s (ri + 2) (wi + 1) o
        else if d =? 116 then do o <- wr out wi 9; unescape_loop k s (ri + 2) (wi + 1) o
        else if d =? 34 then do o <- wr out wi 34; unescape_loop k s (ri + 2) (wi + 1) o
        else
          do o <- wr out wi 92;
          do o2 <- wr o (wi + 1) d;
          unescape_loop k s (ri + 2) (wi + 2) o2
      else do o <- wr out wi c; unescape_loop k s (ri + 1) (wi + 1) o
    else Ok (wi, out)
  end.

(** nkiCompilerTokenizerUnescapeString: the output buffer has len + 2 bytes.
    /repo/src/nktoken.c:111-166 (the truncation of strings of nearly 2^32
    bytes, lines 121-124, is not modelled). *)
Definition unescape (s : bytes) : res bytes :=
  do (wi, out) <- unescape_loop (S (List.length s)) s 0 0 (repeat 0 (List.length s + 2));
  do o <- wr out wi 0;
  Ok (cstr o).

(** nkiCompilerConsolidateStringLiterals: [acc] holds the tokens passed over,
    last first; one step per loop iteration.  /repo/src/nktoken.c:168-219 (the
    truncation at 2^32 bytes, lines 187-190, is not modelled). *)
Fixpoint consolidate_loop (acc : list token) (t : token) (r : list token) : list token :=
  match r with
  | [] => rev (t :: acc)
  | n :: r' =>
    if (tk_type t =? TK_STRING) && (tk_type n =? TK_STRING)
    then consolidate_loop acc
           (mkTok (tk_type t) (tk_str t ++ tk_str n) (tk_line t) (tk_file t) (tk_actual t)) r'
    else consolidate_loop (t :: acc) n r'
  end.
Definition consolidate (l : list token) : list token :=
  match l with [] => [] | t :: r => consolidate_loop [] t r end.

(** nkiVmAddSourceFile.  /repo/src/nkvm.c:570-601 (the count limit of 2^32 - 1
    files, lines 585-587, is not modelled). *)
Fixpoint find_file (fs : list bytes) (n : bytes) (i : Z) : option Z :=
  match fs with
  | [] => None
  | f :: r => if bytes_eqb n f then Some i else find_file r n (i + 1)
  end.
Definition add_source_file (n : bytes) : M Z :=
  fs <- gets v_files ;;
  match find_file fs n 0 with
  | Some i => ret i
  | None => modify (set_files (fs ++ [n])) ;;; ret (zlen fs)
  end.

(** ** Directives *)

(** The loop over a quoted directive token: index of the closing quote.
    There is no test for the end of the text.  /repo/src/nktoken.c:323-347. *)
Fixpoint pp_quote (fuel : nat) (s : bytes) (k : Z) (skip : bool) : res Z :=
  match fuel with
  | O => Ub UbFuel
  | S f =>
    do c <- ch s k;
    if c =? 92 then pp_quote f s (k + 1) (negb skip)
    else if c =? 34 then (if skip then pp_quote f s (k + 1) skip else Ok k)
    else pp_quote f s (k + 1) false
  end.

(** One directive token at [k] whose first character is [c]: the new [k],
    tokenStart, tokenEnd, tokenWasQuoted; [None] is "Unknown preprocessor
    token".  /repo/src/nktoken.c:291-369. *)
Definition pp_token (s : bytes) (k c : Z) : res (option (Z * Z * Z * bool)) :=
  if is_id true c then
    do e <- scan_from (is_id false) s (k + 1); Ok (Some (e, k, e, false))
  else if is_num c then
    do e <- scan_from is_num s k; Ok (Some (e, k, e, false))
  else if c =? 34 then
    do e <- pp_quote (S (S (List.length s))) s (k + 1) false; Ok (Some (e + 1, k + 1, e, true))
  else if c =? 47 then
    do d <- ch s (k + 1);
    if d =? 47 then
      do e <- scan_from (fun x => negb (x =? 0) && negb (x =? 10)) s k;
      Ok (Some (e, e, e, false))
    else Ok None
  else Ok None.

(** nkiCompilerPreprocessorSkipWhitespace.  /repo/src/nktoken.c:239-252. *)
Definition pp_skip (s : bytes) (k : Z) : res Z :=
  scan_from (fun c => is_ws c && negb (c =? 10)) s k.

(** The loop of nkiCompilerGetPreprocessorTokens.
    /repo/src/nktoken.c:289-412.  [k] counts from the start of the script
    instead of the start of the line. *)
Fixpoint pp_loop (fuel : nat) (s : bytes) (line file k : Z) (toks : list bytes)
  : M (option (list bytes)) :=
  match fuel with
  | O => mub UbFuel
  | S f =>
    c <- lift (ch s k) ;;
    if (c =? 0) || (c =? 10) then ret (Some toks)
    else
      r <- lift (pp_token s k c) ;;
      match r with
      | None =>
        add_error_ex (u32 line) file (bs "Unknown preprocessor token.") ;;; ret None
      | Some (k', ts, te, quoted) =>
        d <- lift (ch s ts) ;;
        toks' <- (if (d =? 0) || (d =? 10) then ret toks
                  else raw <- lift (sub s ts (te - ts)) ;;
                       t <- (if quoted : bool then lift (unescape raw) else ret raw) ;;
                       ret (toks ++ [t])) ;;
        k'' <- lift (pp_skip s k') ;;
        pp_loop f s line file k'' toks'
      end
  end.

(** nkiCompilerGetPreprocessorTokens called at a '#'.
    /repo/src/nktoken.c:266-418. *)
Definition pp_tokens (s : bytes) (line file k : Z) : M (option (list bytes)) :=
  k' <- lift (pp_skip s (k + 1)) ;;
  pp_loop (S (List.length s)) s line file k' [].

(** Acting on a directive: new line number and file index.
    /repo/src/nktoken.c:472-521. *)
Definition directive (line file : Z) (toks : list bytes) : M (option (Z * Z)) :=
  match toks with
  | [] => ret (Some (line, file))
  | d :: args =>
    if bytes_eqb d (bs "line") then
      match args with
      | [n] => ret (Some (c_atol n, file))
      | [n; f] => i <- add_source_file f ;; ret (Some (c_atol n, i))
      | _ =>
        add_error_ex (u32 line) file (bs "Incorrect number of parameters for #line directive.") ;;;
        ret None
      end
    else if bytes_eqb d (bs "file") then
      match args with
      | [f] => i <- add_source_file f ;; ret (Some (line, i))
      | _ =>
        add_error_ex (u32 line) file (bs "Incorrect number of parameters for #file directive.") ;;;
        ret None
      end
    else add_error_ex (u32 line) file (bs "Unknown preprocessor directive.") ;;; ret None
  end.

(** ** Tokens *)

(** The names of nkiFunctionStyleExpressionList.  /repo/src/nkfse.c:183-195,
    197-209 (nkiCompilerIsFunctionStyleExpressionName). *)
Definition fse_names : list bytes :=
  [bs "coroutine"; bs "yield"; bs "resume"; bs "is_finished"; bs "object"; bs "len"].
Definition is_fse (t : bytes) : bool := existsb (bytes_eqb t) fse_names.

(** Token type of a word.  /repo/src/nktoken.c:748-774. *)
Definition word_type (t : bytes) : Z :=
  if bytes_eqb t (bs "var") then TK_VAR
  else if bytes_eqb t (bs "function") then TK_FUNCTION
  else if bytes_eqb t (bs "return") then TK_RETURN
  else if bytes_eqb t (bs "if") then TK_IF
  else if bytes_eqb t (bs "else") then TK_ELSE
  else if bytes_eqb t (bs "while") then TK_WHILE
  else if bytes_eqb t (bs "do") then TK_DO
  else if bytes_eqb t (bs "for") then TK_FOR
  else if bytes_eqb t (bs "newobject") then TK_NEWOBJECT
  else if bytes_eqb t (bs "nil") then TK_NIL
  else if bytes_eqb t (bs "break") then TK_BREAK
  else if is_fse t then TK_FSE
  else TK_IDENTIFIER.

(** The loop over a quoted string: index of its end, or [None] for a newline
    inside.  /repo/src/nktoken.c:667-685. *)
Fixpoint quote_end (fuel : nat) (s : bytes) (i : Z) (skip : bool) : res (option Z) :=
  match fuel with
  | O => Ub UbFuel
  | S k =>
    do c <- ch s i;
    if negb (c =? 0) && (skip || negb (c =? 34)) then
      if c =? 10 then Ok None
      else quote_end k s (i + 1) (if c =? 92 then negb skip else false)
    else Ok (Some i)
  end.

(** The loop over a number, writing to the 256-byte buffer [tmp].
    /repo/src/nktoken.c:706-719. *)
Fixpoint number_loop (fuel : nat) (s : bytes) (start i : Z) (isf : bool) (tmp : list Z)
  : res (Z * bool * list Z) :=
  match fuel with
  | O => Ub UbFuel
  | S k =>
    if i <? zlen s then
      do c <- ch s i;
      if (is_num c || (c =? 46)) && (i - start <? 255) then
        do tmp' <- wr tmp (i - start) c;
        number_loop k s start (i + 1) (isf || (c =? 46)) tmp'
      else Ok (i, isf, tmp)
    else Ok (i, isf, tmp)
  end.

(** What one turn of the main loop does after whitespace and directives:
    a token (type, text, index of the next character), nothing, or an error.
    The index already includes the final i++. *)
Inductive lexeme := LTok (ty : Z) (txt : bytes) (i : Z) | LSkip (i : Z) | LErr (msg : bytes).

(** /repo/src/nktoken.c:523-791, branch by branch in the same order. *)
Definition next_token (s : bytes) (i c : Z) : res lexeme :=
  let tok ty txt n := Ok (LTok ty txt (i + n)) in
  if c =? 40 then tok TK_PAREN_OPEN (bs "(") 1
  else if c =? 41 then tok TK_PAREN_CLOSE (bs ")") 1
  else if c =? 91 then tok TK_BRACKET_OPEN (bs "[") 1
  else if c =? 93 then tok TK_BRACKET_CLOSE (bs "]") 1
  else if c =? 123 then tok TK_CURLY_OPEN (bs "{") 1
  else if c =? 125 then tok TK_CURLY_CLOSE (bs "}") 1
  else if c =? 43 then
    do d <- ch s (i + 1);
    if d =? 43 then tok TK_INCREMENT (bs "++") 2 else tok TK_PLUS (bs "+") 1
  else if c =? 45 then
    do d <- ch s (i + 1);
    if d =? 45 then tok TK_DECREMENT (bs "--") 2
    else if d =? 62 then tok TK_INDIRECTION (bs "->") 2
    else tok TK_MINUS (bs "-") 1
  else if c =? 42 then tok TK_MULTIPLY (bs "*") 1
  else if c =? 37 then tok TK_MODULO (bs "%") 1
  else if c =? 46 then tok TK_DOT (bs ".") 1
  else if c =? 47 then
    do d <- ch s (i + 1);
    if d =? 47 then
      do e <- scan_from (fun x => negb (x =? 0) && negb (x =? 10)) s i; Ok (LSkip (e - 1 + 1))
    else tok TK_DIVIDE (bs "/") 1
  else if c =? 59 then tok TK_SEMICOLON (bs ";") 1
  else if c =? 61 then
    do d <- ch s (i + 1);
    if d =? 61 then
      do e <- ch s (i + 2);
      if e =? 61 then tok TK_SAME (bs "===") 3 else tok TK_EQ (bs "==") 2
    else tok TK_ASSIGNMENT (bs "=") 1
  else if c =? 44 then tok TK_COMMA (bs ",") 1
  else if c =? 62 then
    do d <- ch s (i + 1);
    if d =? 61 then tok TK_GE (bs ">=") 2 else tok TK_GT (bs ">") 1
  else if c =? 60 then
    do d <- ch s (i + 1);
    if d =? 61 then tok TK_LE (bs "<=") 2 else tok TK_LT (bs "<") 1
  else if c =? 33 then
    do d <- ch s (i + 1);
    if d =? 61 then tok TK_NE (bs "!=") 2 else tok TK_NOT (bs "!") 1
  else
    do d <- (if (c =? 38) || (c =? 124) then ch s (i + 1) else Ok 0);
    if (c =? 38) && (d =? 38) then tok TK_AND (bs "&&") 2
    else if (c =? 124) && (d =? 124) then tok TK_OR (bs "||") 2
    else if c =? 34 then
      do e <- quote_end (S (List.length s)) s (i + 1) false;
      match e with
      | None => Ok (LErr (bs "Newline inside of quoted string."))
      | Some e =>
        do raw <- sub s (i + 1) (e - (i + 1));
        do txt <- unescape raw;
        tok TK_STRING txt (e - (i + 1) + 1 + 1)
      end
    else if is_num c then
      do (e, isf, tmp) <- number_loop (S (List.length s)) s i i false (repeat 0 256);
      do tmp' <- wr tmp (e - i) 0;
      Ok (LTok (if isf : bool then TK_FLOAT else TK_INTEGER) (cstr tmp') (e - 1 + 1))
    else if is_id true c then
      do e <- scan_from (is_id false) s (i + 1);
      do raw <- sub s i (e - i);
      Ok (LTok (word_type raw) raw (e - 1 + 1))
    else if c =? 0 then Ok (LSkip (i + 1))
    else Ok (LErr (bs "Unknown token.")).

(** lineNumber++ on an [nkint32_t]. *)
Definition inc32 (n : Z) : res Z :=
  if in_s32 (n + 1) then Ok (n + 1) else Ub UbSignedOverflow.

(** Skipping whitespace and counting lines: index, lineNumber,
    actualLineNumber.  /repo/src/nktoken.c:437-443. *)
Fixpoint skip_ws (fuel : nat) (s : bytes) (i line act : Z) : res (Z * Z * Z) :=
  match fuel with
  | O => Ub UbFuel
  | S k =>
    if i <? zlen s then
      do c <- ch s i;
      if is_ws c then
        if c =? 10 then
          do l <- inc32 line; do a <- inc32 act; skip_ws k s (i + 1) l a
        else skip_ws k s (i + 1) line act
      else Ok (i, line, act)
    else Ok (i, line, act)
  end.

(** The locals of nkiCompilerTokenize and the tokens made so far, last
    first. *)
Record tstate := mkT { t_i : Z; t_line : Z; t_file : Z; t_act : Z; t_toks : list token }.

(** A directive at index [i]; [None] is "return nkfalse".
    /repo/src/nktoken.c:446-521. *)
Definition tok_directive (s : bytes) (i line act : Z) (t : tstate) : M (option tstate) :=
  e <- lift (scan_from (fun x => negb (x =? 10) && negb (x =? 13) && negb (x =? 0)) s i) ;;
  toks <- pp_tokens s line (t_file t) i ;;
  match toks with
  | None =>
    add_error_ex (u32 line) (t_file t) (bs "Preprocessor directive parse failure.") ;;; ret None
  | Some toks =>
    r <- directive line (t_file t) toks ;;
    match r with
    | None => ret None
    | Some (line', file') => ret (Some (mkT (e + 1) line' file' act (t_toks t)))
    end
  end.

(** One turn of the main loop; [None] is "return nkfalse".
    /repo/src/nktoken.c:434-794. *)
Definition tok_step (s : bytes) (t : tstate) : M (option tstate) :=
  ' p <- lift (skip_ws (S (List.length s)) s (t_i t) (t_line t) (t_act t)) ;;
  let '(i, line, act) := p in
  c <- lift (ch s i) ;;
  if c =? 35 then tok_directive s i line act t
  else
    l <- lift (next_token s i c) ;;
    match l with
    | LTok ty txt i' =>
      ret (Some (mkT i' line (t_file t) act (mkTok ty txt line (t_file t) act :: t_toks t)))
    | LSkip i' => ret (Some (mkT i' line (t_file t) act (t_toks t)))
    | LErr msg => add_error_ex (u32 line) (t_file t) msg ;;; ret None
    end.

Fixpoint tok_loop (fuel : nat) (s : bytes) (t : tstate) : M (option (list token)) :=
  match fuel with
  | O => mub UbFuel
  | S k =>
    if t_i t <? zlen s then
      r <- tok_step s t ;;
      match r with
      | None => ret None
      | Some t' => tok_loop k s t'
      end
    else ret (Some (consolidate (rev (t_toks t))))
  end.

(** nkiCompilerTokenize.  /repo/src/nktoken.c:420-799. *)
Definition tokenize (s fname : bytes) : M (option (list token)) :=
  f <- add_source_file fname ;;
  tok_loop (S (List.length s)) s (mkT 0 1 f 1 []).
