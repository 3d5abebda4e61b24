(** Declarations of scalars taken from the kernel: kernel.py:1327-1351. The nodes of the syntax tree are objects in a heap, since these functions copy
    nodes and change them in place. *)
From Coq Require Import String.
From Verif Require Import PyBase.

(** Nodes of pycparser, as far as declarations of scalars need them (kernel.py:1333-1343): [Decl] with name, type and storage, the types, and
    any other node. Addresses are positions in the heap. Simplification: qualifiers and initial values are left out. *)
Inductive node := Decl (name : string) (type : nat) (storage : list string) | TypeDecl (declname : string) | PtrDecl (type : nat) | OtherNode.
(** Objects at their addresses (kernel.py:1333-1343) *)
Definition heap := list node.
(** Replace the object at an address, as assigning to attributes does (kernel.py:1340-1343 and 1350). *)
Fixpoint store (h : heap) (a : nat) (n : node) : heap :=
  match h, a with [], _ => [] | _ :: h', O => n :: h' | x :: h', S a' => x :: store h' a' n end.

(** kernel.py:1333-1334: [type(d) is c_ast.Decl and type(d.type) is c_ast.TypeDecl] *)
Definition is_scalar (h : heap) (a : nat) : bool :=
  match nth_error h a with
  | Some (Decl _ t _) => match nth_error h t with Some (TypeDecl _) => true | _ => false end
  | _ => false
  end.
(** [deepcopy(d)] of a declaration of a scalar (kernel.py:1337): new objects for the type and the declaration. Simplification: declarations do not share types. *)
Definition deepcopy (h : heap) (a : nat) : heap * nat :=
  match nth_error h a with
  | Some (Decl n t s) =>
      match nth_error h t with
      | Some x => (h ++ [x; Decl n (List.length h) s], S (List.length h))
      | None => (h, a)
      end
  | _ => (h, a)
  end.
(** kernel.py:1340-1341 *)
Definition add_suffix (h : heap) (d : nat) (suffix : string) : heap :=
  match nth_error h d with
  | Some (Decl n t s) =>
      let h1 := store h d (Decl (n ++ suffix) t s) in
      match nth_error h1 t with Some (TypeDecl dn) => store h1 t (TypeDecl (dn ++ suffix)) | _ => h1 end
  | _ => h
  end.
(** kernel.py:1343 *)
Definition add_pointer (h : heap) (d : nat) : heap :=
  match nth_error h d with
  | Some (Decl n t s) => store h d (Decl n (List.length h) s) ++ [PtrDecl t]
  | _ => h
  end.
(** Is a text not empty (kernel.py:1336 and 1339) *)
Definition truth (s : string) : bool := negb (String.eqb s "").
(** The loop in kernel.py:1335-1343 *)
Fixpoint each (h : heap) (decls : list nat) (pointer : bool) (suffix : string) : heap * list nat :=
  match decls with
  | [] => (h, [])
  | d :: decls' =>
      let (h1, d1) := if truth suffix || pointer then deepcopy h d else (h, d) in
      let h2 := if truth suffix then add_suffix h1 d1 suffix else h1 in
      let h3 := if pointer then add_pointer h2 d1 else h2 in
      let (h4, l) := each h3 decls' pointer suffix in
      (h4, d1 :: l)
  end.
(** kernel.py:1327-1344; [block_items]: the statements of the kernel *)
Definition get_scalar_declarations (h : heap) (block_items : list nat) (pointer : bool) (suffix : string) : heap * list nat :=
  each h (filter (is_scalar h) block_items) pointer suffix.
(** [deepcopy] of a list of declarations (kernel.py:1348) *)
Fixpoint deepcopies (h : heap) (l : list nat) : heap * list nat :=
  match l with [] => (h, []) | d :: l' => let (h1, d1) := deepcopy h d in let (h2, r) := deepcopies h1 l' in (h2, d1 :: r) end.
(** kernel.py:1350 *)
Definition set_extern (h : heap) (d : nat) : heap := match nth_error h d with Some (Decl n t _) => store h d (Decl n t ["extern"%string]) | _ => h end.
(** kernel.py:1346-1351 *)
Definition build_scalar_extern_declarations (h : heap) (block_items : list nat) : heap * list nat :=
  let (h1, l) := get_scalar_declarations h block_items false "" in
  let (h2, r) := deepcopies h1 l in
  (fold_left set_extern r h2, r).
