(** * Model of pkg/search/search.go and pkg/search/searchutil/searchutil.go *)
From Verif.Lib Require Import Go F64.
From Verif.Model Require Import Embedding.
Local Open Scope Z_scope.

(** search.go:30-34, [type Neighbor struct]. *)
Record neighbor := Nb { n_word : gostring; n_rank : Z; n_sim : f64 }.
(** The zero value. search.go:95. *)
Definition nb_zero : neighbor := Nb [] 0 fzero.

(** searchutil.go:21-24: [for i := range v1 { dot += v1[i] * v2[i] }]. *)
Fixpoint cos_dot (v1 v2 : list f64) (dot : f64) : outcome f64 :=
  match v1, v2 with
  | [], _ => Ret dot
  | _ :: _, [] => Panic
  | a :: v1', b :: v2' => cos_dot v1' v2' (fadd dot (fmul a b))
  end.

(** searchutil.go:17-26, [Cosine]. *)
Definition cosine (v1 v2 : list f64) (n1 n2 : f64) : outcome f64 :=
  if feq n1 fzero || feq n2 fzero then Ret fzero
  else obind (cos_dot v1 v2 fzero) (fun dot => Ret (fdiv (fdiv dot n1) n2)).

(** search.go:55-66, [Searcher] and [New]. *)
Definition searcher_new (embs : list embedding) : outcome (list embedding) :=
  obind (embs_validate embs) (fun _ => Ret embs).

(** search.go:117-122, the loop that bubbles [temp] up; [i] is the index of the head. *)
Fixpoint bubble (i : Z) (temp : neighbor) (ns : list neighbor) : list neighbor :=
  match ns with
  | [] => []
  | n :: ns' => if fgt (n_sim temp) (n_sim n)
                then Nb (n_word temp) (i + 1) (n_sim temp) :: bubble (i + 1) n ns'
                else n :: bubble (i + 1) temp ns'
  end.

(** search.go:98-101, the set of ignored words, and the lookup at search.go:107. *)
Definition ignored (ign : list gostring) (w : gostring) : bool :=
  if in_dec gostring_eq_dec w ign then true else false.

(** search.go:104-126, the loop over the items with [neighbors] and [low]. *)
Fixpoint search_items (query : embedding) (ign : list gostring) (items : list embedding)
  (ns : list neighbor) (low : f64) : outcome (list neighbor) :=
  match items with
  | [] => Ret ns
  | it :: items' =>
      if ignored ign (e_word it) then search_items query ign items' ns low
      else obind (cosine (e_vec query) (e_vec it) (e_norm query) (e_norm it)) (fun score =>
      if fgt score low then
        let ns' := bubble 0 (Nb (e_word it) 0 score) ns in
        match ns' with
        | [] => Panic                                             (* neighbors[-1] *)
        | _ => search_items query ign items' ns' (n_sim (last ns' nb_zero))
        end
      else search_items query ign items' ns low)
  end.

(** search.go:129-133, the guard: [k] becomes the last index with an empty word. *)
Fixpoint guard (ns : list neighbor) (i k : Z) : Z :=
  match ns with
  | [] => k
  | n :: ns' => guard ns' (i + 1) (if gseqb (n_word n) [] then i else k)
  end.

(** search.go:94-136, [Search]. It never returns an error. *)
Definition search (items : list embedding) (query : embedding) (k : Z) (ign : list gostring) : outcome (list neighbor) :=
  if k <? 0 then Panic
  else obind (search_items query ign items (repeat nb_zero (Z.to_nat k)) fzero) (fun ns =>
       Ret (firstn (Z.to_nat (guard ns 0 k)) ns)).

(** search.go:69-75: the first item with the word. *)
Fixpoint first_item (items : list embedding) (word : gostring) : embedding :=
  match items with
  | [] => emb_zero
  | it :: items' => if gseqb (e_word it) word then it else first_item items' word
  end.

(** search.go:68-85, [SearchInternal]. *)
Definition search_internal (items : list embedding) (word : gostring) (k : Z) : outcome (list neighbor) :=
  let q := first_item items word in
  if gseqb (e_word q) [] then Err "is not found in searcher"
  else search items q k [word].

(** search.go:87-92, [SearchVector]. *)
Definition search_vector (items : list embedding) (query : list f64) (k : Z) : outcome (list neighbor) :=
  search items (Emb [] 0 query (norm query)) k [].
