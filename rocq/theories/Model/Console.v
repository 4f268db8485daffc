(** * Model of pkg/search/console/console.go and op.go

    go/parser is a parameter (the expression a line parses to). What the console prints is a list of
    events; peterh/liner is the stream of results of Prompt. *)
From Verif.Lib Require Import Go F64.
From Verif.Model Require Import Embedding Search.
Local Open Scope Z_scope.

(** go/ast and go/token, as far as the console distinguishes them: an identifier, a binary expression
    with its operator, anything else (parenthesis, literal, unary, call, ...). Used at console.go:95-107, 121-130, 147-173. *)
Inductive token := ADD | SUB | OtherOp (t : gostring).
(** Used at console.go:95-107, 121-163. *)
Inductive expr := Ident (w : gostring) | Binary (x : expr) (op : token) (y : expr) | OtherExpr.

(** console.go:35-38, [searchcursor]. *)
Record cursor := Cursor { c_w1 : gostring; c_w2 : gostring; c_vec : list f64 }.

(** console.go:30-33 and 40-45, [searchparams] and [Console] without the liner; the cursor is threaded separately. *)
Record console := Console { co_items : list embedding; co_dim : Z; co_k : Z }.

(** Lines 55 and 88: [make([]float64, dim)] panics for a negative length. console.go:55, 88. *)
Definition make_vec (dim : Z) : outcome (list f64) :=
  if dim <? 0 then Panic else Ret (repeat fzero (Z.to_nat dim)).

(** console.go:47-62, [New]. *)
Definition console_new (items : list embedding) (k : Z) : outcome (console * cursor) :=
  match items with
  | [] => Err "Number of items for searcher must be over 0"
  | e :: _ => obind (make_vec (e_dim e)) (fun v => Ret (Console items (e_dim e) k, Cursor [] [] v))
  end.

(** op.go:23-32, [elementWise]. *)
Fixpoint zip_op (op : f64 -> f64 -> f64) (v1 v2 : list f64) : list f64 :=
  match v1, v2 with x :: v1', y :: v2' => op x y :: zip_op op v1' v2' | _, _ => [] end.
(** op.go:23-32, [elementWise]. *)
Definition element_wise (v1 v2 : list f64) (op : f64 -> f64 -> f64) : outcome (list f64) :=
  if Nat.eqb (length v1) (length v2) then Ret (zip_op op v1 v2) else Err "Both lengths of vector must be the same".

(** console.go:164-173, [arithmetic]; op.go:34-52. *)
Definition arithmetic (v1 : list f64) (op : token) (v2 : list f64) : outcome (list f64) :=
  match op with
  | ADD => element_wise v1 v2 fadd
  | SUB => element_wise v1 v2 fsub
  | OtherOp _ => Err "invalid operator"
  end.

(** console.go:147-162, [evalAsEmbedding], after its call of [evalExpr], whose result is [r]. *)
Definition as_embedding (items : list embedding) (e : expr) (r : cursor * outcome unit) : cursor * outcome embedding :=
  match r with
  | (cur, Ret _) =>
      match e with
      | Ident w => let (vi, ok) := embs_find items w in
                   if ok then match emb_validate vi with
                              | Ret _ => (cur, Ret vi)
                              | Err m => (cur, Err m)
                              | Panic => (cur, Panic)
                              end
                   else (cur, Err "not found word in vector map")
      | _ => (cur, Err "failed to parse")
      end
  | (cur, Err m) => (cur, Err m)
  | (cur, Panic) => (cur, Panic)
  end.

(** console.go:121-145, [evalExpr] and [evalBinaryExpr]. The error of the right operand is dropped
    (line 139: [return nil]). On an operator or length error the vector becomes nil (line 143). *)
Fixpoint eval_expr (items : list embedding) (e : expr) (cur : cursor) {struct e} : cursor * outcome unit :=
  match e with
  | Ident _ => (cur, Ret tt)
  | OtherExpr => (cur, Err "invalid type")
  | Binary x op y =>
      match as_embedding items x (eval_expr items x cur) with
      | (cur1, Ret xi) =>
          match as_embedding items y (eval_expr items y cur1) with
          | (cur2, Ret yi) =>
              match arithmetic (e_vec xi) op (e_vec yi) with
              | Ret v => (Cursor (e_word xi) (e_word yi) v, Ret tt)
              | Err m => (Cursor (e_word xi) (e_word yi) [], Err m)
              | Panic => (cur2, Panic)
              end
          | (cur2, Err _) => (cur2, Ret tt)
          | (cur2, Panic) => (cur2, Panic)
          end
      | (cur1, Err m) => (cur1, Err m)
      | (cur1, Panic) => (cur1, Panic)
      end
  end.

(** What one line prints. console.go:66-119. *)
Inductive event :=
| Failed (w : gostring)                 (* console.go:101 *)
| Table (rows : list neighbor)          (* console.go:117, Describe *)
| Error (m : string).                   (* console.go:69, 78: a printed error *)

(** console.go:84-119, [eval] without the deferred function. [Search] never returns an error, so line 112
    is never reached. *)
Definition eval_body (co : console) (e : option expr) (cur : cursor) : cursor * outcome (list event) :=
  match e with
  | None => (cur, Err "parse error")
  | Some (Ident w) =>
      match search_internal (co_items co) w (co_k co) with
      | Ret rows => (cur, Ret [Table rows])
      | Err _ => (cur, Ret [Failed w; Table []])
      | Panic => (cur, Panic)
      end
  | Some (Binary x op y) =>
      match eval_expr (co_items co) (Binary x op y) cur with
      | (cur', Ret _) =>
          match search (co_items co) (Emb [] 0 (c_vec cur') (norm (c_vec cur'))) (co_k co) [c_w1 cur'; c_w2 cur'] with
          | Ret rows => (cur', Ret [Table rows])
          | Err _ => (cur', Ret [Table []])
          | Panic => (cur', Panic)
          end
      | (cur', Err m) => (cur', Err m)
      | (cur', Panic) => (cur', Panic)
      end
  | Some OtherExpr => (cur, Err "invalid type")
  end.

(** console.go:85-89, the deferred reset; it runs on every way out. *)
Definition eval (co : console) (e : option expr) (cur : cursor) : cursor * outcome (list event) :=
  let (cur', r) := eval_body co e cur in
  match make_vec (co_dim co) with
  | Ret v => (Cursor [] [] v, r)
  | Err m => (Cursor [] [] (c_vec cur'), Err m)
  | Panic => (Cursor [] [] (c_vec cur'), Panic)
  end.

Section Run.
Variable parse_expr : gostring -> option expr.

(** What Prompt returned: the line, and whether there was an error. console.go:67. *)
Definition prompt : Type := gostring * bool.

(** One turn of the loop, console.go:66-81: what is printed, and whether Run goes on. *)
Inductive turn := Continue (cur : cursor) (out : list event) | Return (out : list event) | Crash (out : list event).
(** console.go:66-81, the loop body. *)
Definition run_turn (co : console) (cur : cursor) (p : prompt) : turn :=
  let (l, err) := p in
  let out := if err then [Error "error: "] else [] in
  if gseqb l (bs "exit") then Return out
  else if gseqb l [] then Continue cur out
  else match eval co (parse_expr l) cur with
       | (cur', Ret evs) => Continue cur' (out ++ evs)
       | (cur', Err m) => Continue cur' (out ++ [Error m])
       | (_, Panic) => Crash out
       end.

(** console.go:64-82, [Run], for the first [n] prompts of the stream [ps]. *)
Inductive status := Running (cur : cursor) | Returned | Crashed.
(** console.go:64-82, [Run]. *)
Fixpoint run (co : console) (cur : cursor) (ps : nat -> prompt) (n : nat) : status * list event :=
  match n with
  | O => (Running cur, [])
  | S n' =>
      match run co cur ps n' with
      | (Running cur', out) =>
          match run_turn co cur' (ps n') with
          | Continue cur'' o => (Running cur'', out ++ o)
          | Return o => (Returned, out ++ o)
          | Crash o => (Crashed, out ++ o)
          end
      | done => done
      end
  end.
End Run.
