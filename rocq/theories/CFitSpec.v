(** When the names a node carries can stand in a C file.  The generator copies the
    names of ports, data types, record elements and callbacks into the text as they
    are; these conditions say that each of them is a C identifier where C needs one. *)
From Coq Require Import ZArith List Bool String.
From Verif Require Import Py TypesModel TextModel VmModel AttrModel NodeModel TypesSpec GenModel GenSpec GenProps GenFilesProps CTextSpec.
Import ListNotations.
Open Scope Z_scope.

(** The members of a record; [sfx] is put behind the names of the outermost record only. *)
Fixpoint members_fit (sfx : str) (t : ty) : Prop :=
  match t with
  | TRec ms => (fix all l := match l with [] => True | (nm, t) :: r => (c_ident (nm ++ sfx) /\ members_fit [] t) /\ all r end) ms
  | _ => True
  end.
(** A port name only has to continue an identifier.  A data type is used by its name. *)
Definition port_fits (W : world) (o : nat) : Prop :=
  forallb name_char (opt_text (pt_name (w_ports W o))) = true /\
  match pt_elem (w_ports W o) with DRef _ (RObj k) => c_ident (opt_text (dt_name (w_types W k))) | _ => True end.
(** A port with a callback gives its name to a member of the union. *)
Definition callback_fits (m : list (str * option str)) (W : world) (o : nat) : Prop :=
  match callback_for m (pt_name (w_ports W o)) with Some f => c_ident f /\ c_ident (opt_text (pt_name (w_ports W o))) | None => True end.

(** A node of supported ports whose names fit. *)
Record node_fits (sfx : str) (W : world) (nd : node) (name : str) (m : list (str * option str)) (ins outs : list ty) : Prop := mk_node_fits {
  nf_node : c_ident (opt_text (n_name nd));
  nf_name : c_ident name;
  nf_text : forall text, context_dumps false W [nd] = Ok text -> ~ In 92 text;
  nf_ports : Forall (port_fits W) (n_require nd ++ n_provide nd);
  nf_callbacks : Forall (callback_fits m W) (n_require nd);
  nf_ins : Forall2 (port_cable W) (n_require nd) ins;
  nf_outs : Forall2 (port_cable W) (n_provide nd) outs;
  nf_members : Forall (members_fit sfx) (ins ++ outs);
  nf_required : NoDup (text_names W (n_require nd));
  nf_provided : NoDup (text_names W (n_provide nd))
}.

Definition the_callbacks (callbacks : option (list (str * option str))) : list (str * option str) := match callbacks with Some m => m | None => [] end.

(** The type of the parameter of a port function. *)
Definition plain_type (t : ty) : str :=
  match t with
  | TInt U8 | TArr U8 _ | TypesSpec.TStr _ => lit "uint8" | TInt U16 | TArr U16 _ => lit "uint16" | TInt U32 | TArr U32 _ => lit "uint32"
  | TInt S8 | TArr S8 _ => lit "sint8" | TInt S16 | TArr S16 _ => lit "sint16" | TInt S32 | TArr S32 _ => lit "sint32"
  | _ => []
  end.
Definition c_type (W : world) (o : nat) (t : ty) : str :=
  match pt_elem (w_ports W o) with DRef _ (RObj k) => opt_text (dt_name (w_types W k)) | _ => plain_type t end.
(** The names of the port functions. *)
Definition write_name (name : str) (W : world) (o : nat) : str := lit "ApxNode_Write_" ++ name ++ lit "_" ++ opt_text (pt_name (w_ports W o)).
Definition read_name (name : str) (W : world) (o : nat) : str := lit "ApxNode_Read_" ++ name ++ lit "_" ++ opt_text (pt_name (w_ports W o)).
