(** set.c: sets written as text, bf_set_new_from_raw and bf_set_add_elem_raw.

    Strings are the values that the NUL-terminated buffers hold (StrModel).  The loops
    of strtok_r work on a private copy of the text; what they write into it is a NUL at
    the end of each token, so a loop that passes NULL goes on after the token, and a
    loop that passes the buffer again sees the text up to the end of the token only. *)
From Coq Require Import String NArith List Bool Arith.
From Verif Require Import Bytes Types GenModel StrModel EnumModel ParseModel HashModel SetModel.
Import ListNotations.
Local Open Scope string_scope.
Local Open Scope list_scope.
Local Open Scope N_scope.
Local Open Scope res_scope.

(** A loop that has not ended after the rounds it was given. *)
Definition EHANG : N := 1002.

Definition among (ds : cstr) (c : N) : bool := existsb (N.eqb c) ds.

(** strspn and strcspn, as a split: the longest prefix of characters that are ([b] =
    true) or are not in [ds], and what follows it. *)
Fixpoint span (b : bool) (ds : cstr) (s : cstr) : cstr * cstr :=
  match s with
  | [] => ([], [])
  | c :: r => if Bool.eqb (among ds c) b then let (x, y) := span b ds r in (c :: x, y) else ([], s)
  end.

(** strtok_r(s, ds, &save): the delimiters skipped, the token and the text at [save]. *)
Definition strtok_any (ds s : cstr) : option (cstr * cstr * cstr) :=
  let (skipped, t) := span true ds s in
  match t with
  | [] => None
  | _ => let (tok, rest) := span false ds t in
         Some (skipped, tok, match rest with [] => [] | _ :: r => r end)
  end.

(** while ((token = strtok_r(tmp, ds, &save))) with tmp = NULL after the first round;
    every round shortens the text. *)
Fixpoint tokens_any (fuel : nat) (ds s : cstr) : list cstr :=
  match fuel with
  | O => []
  | S f => match strtok_any ds s with
           | None => []
           | Some (_, t, rest) => t :: tokens_any f ds rest
           end
  end.

(** helper.c:197-202 bf_trim, on the value of the string (C35_trim: StrFacts). *)
Definition trimmed (s : cstr) : cstr := rev (skip_space (rev (skip_space s))).

(** set.c:117-158 _bf_set_parse_key; strdup succeeds. *)
Fixpoint key_loop (room : nat) (toks : list cstr) {struct toks} : res (list mtype) :=
  match toks, room with
  | [], _ => Ok []
  | _, O => Er E2BIG
  | t :: r, S k => x <- mtype_from_str (trimmed t) ; l <- key_loop k r ; Ok (x :: l)
  end.
Definition parse_key (raw : cstr) : res (list mtype) :=
  l <- key_loop 8 (tokens_any (length raw) (lit "(),") raw) ;
  match l with [] => Er EINVAL | _ => Ok l end.

(** set.c:182-212: the components of an element, [off] bytes of [elem] being written.
    A parser writes ref_payload_size bytes (ParseFacts2.parser_keeps). *)
Fixpoint comp_loop (pe : penv) (key : list mtype) (toks : list cstr) (off : nat) (elem : list N) : res (list N) :=
  match toks, key with
  | [], [] => Ok elem
  | [], _ :: _ => Er EINVAL
  | _ :: _, [] => Er EINVAL
  | tok :: toks', t :: key' =>
      match parser_of pe t OP_IN, ops_size t OP_IN with
      | Some p, Some n =>
          if (off + n <=? length elem)%nat then
            v <- p (sub elem off n) (trimmed tok) ;
            comp_loop pe key' toks' (off + n) (firstn off elem ++ v ++ skipn (off + n) elem)
          else Er EUB
      | _, _ => Er EINVAL
      end
  end.

(** set.c:160-226 bf_set_add_elem_raw: [heap] is what malloc returns ([None]: failure),
    strdup succeeds.  The buffer itself is added; [set_add_elem] adds a copy, of the
    same bytes. *)
Definition add_elem_raw (pe : penv) (heap : option (list N)) (nd : option nat) (tb : N -> bool) (u : uset) (raw : cstr)
  : res uset :=
  match heap with
  | None => Er ENOMEM
  | Some h =>
      e <- comp_loop pe (u_key u) (tokens_any (length raw) (lit ",") raw) 0 (firstn (u_esize u) h) ;
      a <- set_add_elem true nd tb u e ;
      if snd a =? 0 then Ok (fst a) else Er (snd a)
  end.

(** set.c:255-269: the loop over the elements.  [first]: tmp is still the buffer, so
    the next strtok_r starts over, on a text that now ends with the token.  [heap] and
    [nd] are the allocator's answers, for each element that is not blank. *)
Definition payload_delims : cstr := lit "{};" ++ [10].
Fixpoint elems_loop (fuel : nat) (pe : penv) (heap : nat -> option (list N)) (nd : nat -> option nat) (tb : N -> bool)
    (i : nat) (first : bool) (u : uset) (s : cstr) : res uset :=
  match fuel with
  | O => Er EHANG
  | S f =>
      match strtok_any payload_delims s with
      | None => Ok u
      | Some (skipped, tok, rest) =>
          match trimmed tok with
          | [] => elems_loop f pe heap nd tb i first u (if first then skipped ++ tok else rest)
          | t =>
              u' <- add_elem_raw pe (heap i) (nd i) tb u t ;
              elems_loop f pe heap nd tb (S i) false u' rest
          end
      end
  end.

(** set.c:228-274 bf_set_new_from_raw. *)
Definition set_new_from_raw (fuel : nat) (pe : penv) (heap : nat -> option (list N)) (nd : nat -> option nat) (tb : N -> bool)
    (name : option cstr) (raw_key payload : cstr) : res uset :=
  key <- parse_key raw_key ;
  u <- set_new name key ;
  elems_loop fuel pe heap nd tb 0 true u payload.
