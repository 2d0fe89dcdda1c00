(** Model of the CEL printer (/repo/packages/ic-http-certification/src/cel/create_cel_expr.rs)
    and of the verifier's CEL parser
    (/repo/packages/ic-response-verification/src/cel/{parser,ast_mapping}.rs). *)
From Coq Require Import List Arith NArith Lia Bool.
From Verif Require Import Bytes Text Utf8 HttpTypes Cbor.
Import ListNotations.

(** ** Printer *)
Definition quote : bytes := [x22].
(** the [if !headers.is_empty()] blocks of create_cel_expr.rs:84-95, 122-126 *)
Definition print_names (l : list bytes) : bytes :=
  match l with [] => [] | _ => quote ++ join (quote ++ bs "," ++ quote) l ++ quote end.
(** create_cel_expr.rs:78-98 [create_request_cel_expr] *)
Definition print_request (c : request_cert) : bytes :=
  bs "request_certification:RequestCertification{certified_request_headers:[" ++ print_names (rc_headers c) ++
  bs "],certified_query_parameters:[" ++ print_names (rc_query c) ++ bs "]},".
(** create_cel_expr.rs:100-128 [create_response_cel_expr] *)
Definition print_response (c : response_cert) : bytes :=
  bs "response_certification:ResponseCertification{" ++
  match c with
  | CertifiedHeaders l => bs "certified_response_headers" ++ bs ":ResponseHeaderList{headers:[" ++ print_names l
  | HeaderExclusions l => bs "response_header_exclusions" ++ bs ":ResponseHeaderList{headers:[" ++ print_names l
  end ++ bs "]}}".
(** create_cel_expr.rs:11-76 [create_cel_expr], [create_default_cel_expr],
    [create_default_skip_cel_expr], [create_default_response_only_cel_expr],
    [create_default_full_cel_expr] *)
Definition print_cel (e : cel) : bytes :=
  match e with
  | CelSkip => bs "default_certification(ValidationArgs{" ++ bs "no_certification:Empty{}" ++ bs "})"
  | CelResponseOnly rs =>
      bs "default_certification(ValidationArgs{" ++ bs "certification:Certification{" ++
      bs "no_request_certification:Empty{}," ++ print_response rs ++ bs "}" ++ bs "})"
  | CelFull rq rs =>
      bs "default_certification(ValidationArgs{" ++ bs "certification:Certification{" ++
      print_request rq ++ print_response rs ++ bs "}" ++ bs "})"
  end.

(** ** Parser *)
(** parser.rs:14-20 [CelValue]; a HashMap is an association list with distinct
    keys, in order of first insertion (order is never observed) *)
Inductive cv :=
| CvString (s : bytes)
| CvArray (l : list cv)
| CvObject (n : bytes) (m : list (bytes * cv))
| CvFunction (n : bytes) (l : list cv).

(** nom 7.1.3 results: [PErr] recoverable [Err::Error], [PFail] [Err::Failure];
    [PFuel] is not a result of the code ([cel_value_fuel] in CelProofs.v). *)
Inductive pres (A : Type) := POk (a : A) (rest : bytes) | PErr | PFail | PFuel.
Arguments POk {A}. Arguments PErr {A}. Arguments PFail {A}. Arguments PFuel {A}.

(** nom take_while on a str: the longest prefix of characters satisfying [p]
    (characters decoded from the UTF-8 bytes) *)
Fixpoint take_chars (p : N -> bool) (s : bytes) : bytes * bytes :=
  match s with
  | [] => ([], [])
  | a :: s1 =>
      if (b2n a <? 128)%N then
        if p (b2n a) then let (x, y) := take_chars p s1 in (a :: x, y) else ([], s)
      else match s1 with
      | [] => ([], s)
      | b :: s2 =>
          if ok2 a b then
            if p (cp2 a b) then let (x, y) := take_chars p s2 in (a :: b :: x, y) else ([], s)
          else match s2 with
          | [] => ([], s)
          | c :: s3 =>
              if ok3 a b c then
                if p (cp3 a b c) then let (x, y) := take_chars p s3 in (a :: b :: c :: x, y) else ([], s)
              else match s3 with
              | [] => ([], s)
              | d :: s4 =>
                  if p (cp4 a b c d) then let (x, y) := take_chars p s4 in (a :: b :: c :: d :: x, y) else ([], s)
              end
          end
      end
  end.

(** [nom::character::is_alphanumeric] of [e as u8]: the cast keeps the low 8
    bits of the character *)
Definition alnum8 (n : N) : bool :=
  let b := (n mod 256)%N in
  ((48 <=? b) && (b <=? 57) || (65 <=? b) && (b <=? 90) || (97 <=? b) && (b <=? 122))%N.
(** parser.rs:54-63 [ident] *)
Definition ident_char (n : N) : bool := (n =? 95)%N || alnum8 n.
Definition ident : bytes -> bytes * bytes := take_chars ident_char.
(** parser.rs:65-78 [parse_str]: nom's [escaped] with a normal parser that never
    fails never looks at the control character, so it is the [take_while] *)
Definition str_char (n : N) : bool := (n =? 45)%N || alnum8 n.
Definition parse_str : bytes -> bytes * bytes := take_chars str_char.

(** nom multispace0 (parser.rs:28-35 [trim_whitespace]) *)
Definition is_ws (b : byte) : bool := match b with x20 | x09 | x0d | x0a => true | _ => false end.
Fixpoint skip_ws (s : bytes) : bytes :=
  match s with b :: r => if is_ws b then skip_ws r else s | [] => [] end.
Definition pchar (c : byte) (s : bytes) : option bytes :=
  match s with b :: r => if byte_eqb b c then Some r else None | [] => None end.

Definition cut {A} (r : pres A) : pres A := match r with PErr => PFail | r => r end.
(** parser.rs:37-52 [drop_separators] *)
Definition drop_separators {A} (o c : byte) (p : bytes -> pres A) (s : bytes) : pres A :=
  match pchar o (skip_ws s) with
  | None => PErr
  | Some s1 =>
      cut match p s1 with
          | POk v s2 => match pchar c (skip_ws s2) with Some s3 => POk v s3 | None => PErr end
          | r => r
          end
  end.
(** nom 7.1.3 [separated_list0] with the comma separator; the check that the
    separator consumes is vacuous, a comma always does *)
Fixpoint sep_loop {A} (p : bytes -> pres A) (g : nat) (s : bytes) : pres (list A) :=
  match g with
  | O => PFuel
  | S g' =>
      match pchar "," (skip_ws s) with
      | None => POk [] s
      | Some s1 =>
          match p s1 with
          | PErr => POk [] s
          | PFail => PFail
          | PFuel => PFuel
          | POk v s2 =>
              match sep_loop p g' s2 with
              | POk vs s3 => POk (v :: vs) s3
              | PErr => PErr | PFail => PFail | PFuel => PFuel
              end
          end
      end
  end.
Definition sep_list {A} (p : bytes -> pres A) (s : bytes) : pres (list A) :=
  match p s with
  | PErr => POk [] s
  | PFail => PFail
  | PFuel => PFuel
  | POk v s1 =>
      match sep_loop p (S (length s1)) s1 with
      | POk vs s2 => POk (v :: vs) s2
      | PErr => PErr | PFail => PFail | PFuel => PFuel
      end
  end.
(** parser.rs:97-108 [key_value] *)
Definition key_value (p : bytes -> pres cv) (s : bytes) : pres (bytes * cv) :=
  let (k, s1) := ident (skip_ws s) in
  match pchar ":" (skip_ws s1) with
  | None => PErr
  | Some s2 => match p s2 with
               | POk v s3 => POk (k, v) s3
               | PErr => PErr | PFail => PFail | PFuel => PFuel
               end
  end.
(** [into_iter().collect()] into a HashMap: a later key replaces an earlier one *)
Definition collect (l : list (bytes * cv)) : list (bytes * cv) :=
  fold_left (fun m kv => map_set (fst kv) (snd kv) m) l [].

Definition pmap {A B} (f : A -> B) (r : pres A) : pres B :=
  match r with POk a s => POk (f a) s | PErr => PErr | PFail => PFail | PFuel => PFuel end.
Definition alt {A} (r1 : pres A) (r2 : pres A) : pres A := match r1 with PErr => r2 | r => r end.

(** parser.rs:80-161 [string], [array], [object], [function], [cel_value] *)
Fixpoint cel_value (fuel : nat) (s : bytes) : pres cv :=
  match fuel with
  | O => PFuel
  | S f =>
      let s0 := skip_ws s in
      let object := let (n, s1) := ident s0 in
        pmap (fun l => CvObject n (collect l)) (drop_separators "{" "}" (sep_list (key_value (cel_value f))) s1) in
      let function := let (n, s1) := ident s0 in
        pmap (CvFunction n) (drop_separators "(" ")" (sep_list (cel_value f)) s1) in
      let array := pmap CvArray (drop_separators "[" "]" (sep_list (cel_value f)) s0) in
      let string := pmap CvString (drop_separators x22 x22 (fun i => let (a, b) := parse_str i in POk a b) s0) in
      alt object (alt function (alt array string))
  end.
(** parser.rs:163-170 [parse_cel_expression]: remaining input is ignored; [None] is an error *)
Definition parse_cel (s : bytes) : option cv :=
  match cel_value (S (length s)) s with POk v _ => Some v | _ => None end.

(** ** AST mapping; [None] is any CelParserError *)
Definition opt_bind {A B} (o : option A) (f : A -> option B) : option B := match o with Some a => f a | None => None end.
Local Notation "'do' x <- e ; b" := (opt_bind e (fun x => b)) (at level 200, x binder, e at level 100, b at level 200).

(** ast_mapping.rs:12-34 [validate_object] *)
Definition validate_object (v : cv) (name : bytes) : option (list (bytes * cv)) :=
  match v with CvObject n m => if bytes_eqb n name then Some m else None | _ => None end.
(** ast_mapping.rs:36-57 [validate_function] *)
Definition validate_function (v : cv) (name : bytes) : option (list cv) :=
  match v with CvFunction n l => if bytes_eqb n name then Some l else None | _ => None end.
(** ast_mapping.rs:59-86 [validate_string_array] *)
Fixpoint strings (l : list cv) : option (list bytes) :=
  match l with
  | [] => Some []
  | CvString s :: r => do ss <- strings r; Some (s :: ss)
  | _ :: _ => None
  end.
Definition validate_string_array (v : cv) : option (list bytes) :=
  match v with CvArray l => strings l | _ => None end.
(** ast_mapping.rs:88-129 [validate_request_certification] *)
Definition validate_request_certification (m : list (bytes * cv)) : option (option request_cert) :=
  match map_get (bs "no_request_certification") m, map_get (bs "request_certification") m with
  | Some _, Some _ => None
  | None, None => None
  | Some _, None => Some None
  | None, Some v =>
      do rm <- validate_object v (bs "RequestCertification");
      do h <- map_get (bs "certified_request_headers") rm;
      do hs <- validate_string_array h;
      do q <- map_get (bs "certified_query_parameters") rm;
      do qs <- validate_string_array q;
      Some (Some (mk_request_cert hs qs))
  end.
(** ast_mapping.rs:141-152, the closure [get_response_certification_headers] *)
Definition response_list (m : list (bytes * cv)) (name : bytes) : option (option (list bytes)) :=
  match map_get name m with
  | None => Some None
  | Some v =>
      do lm <- validate_object v (bs "ResponseHeaderList");
      match map_get (bs "headers") lm with
      | None => Some None
      | Some h => do hs <- validate_string_array h; Some (Some hs)
      end
  end.
(** ast_mapping.rs:131-172 [validate_response_certification] *)
Definition validate_response_certification (m : list (bytes * cv)) : option response_cert :=
  do v <- map_get (bs "response_certification") m;
  do rm <- validate_object v (bs "ResponseCertification");
  do a <- response_list rm (bs "certified_response_headers");
  do b <- response_list rm (bs "response_header_exclusions");
  match a, b with
  | Some l, None => Some (CertifiedHeaders l)
  | None, Some l => Some (HeaderExclusions l)
  | _, _ => None
  end.
(** ast_mapping.rs:174-218 [map_cel_ast] *)
Definition map_cel_ast (v : cv) : option cel :=
  do l <- validate_function v (bs "default_certification");
  match l with
  | [] => None
  | arg :: _ =>
      do m <- validate_object arg (bs "ValidationArgs");
      match map_get (bs "no_certification") m, map_get (bs "certification") m with
      | Some _, Some _ => None
      | None, None => None
      | Some _, None => Some CelSkip
      | None, Some c =>
          do cm <- validate_object c (bs "Certification");
          do rq <- validate_request_certification cm;
          do rs <- validate_response_certification cm;
          match rq with
          | None => Some (CelResponseOnly rs)
          | Some rq => Some (CelFull rq rs)
          end
      end
  end.

(** /repo/packages/ic-response-verification/src/verification/verify_request_response_pair.rs
    and lib.rs: parse then map *)
Definition cel_of_text (s : bytes) : option cel := do v <- parse_cel s; map_cel_ast v.

Example cel_ex1 : cel_of_text (bs "default_certification ( ValidationArgs { certification: Certification { no_request_certification: Empty { }, response_certification: ResponseCertification { certified_response_headers: ResponseHeaderList { headers: [ ""a"" , ""b-c""] } } } } ) junk")
  = Some (CelResponseOnly (CertifiedHeaders [bs "a"; bs "b-c"])).
Proof. vm_compute. reflexivity. Qed.
