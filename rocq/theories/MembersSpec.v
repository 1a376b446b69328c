(** * MembersSpec: vocabulary of C129 *)
From Coq Require Import Strings.String.
From Verif Require Import Base Serde Codec Universe Packet Community Members.
Open Scope nat_scope.

Section State.
Context {S : Type}.

(** the communities a program gives to the registry, in order *)
Definition given (l : list (op S)) : list (member S) := flat_map (fun o => match o with Add m => [m] | _ => [] end) l.
(** those whose [get_mid] is called, in order *)
Definition asked (h : list (happening S)) : list (member S) := flat_map (fun e => match e with AskedMid m _ => [m] | _ => [] end) h.
(** those dropped, in order *)
Definition dropped (h : list (happening S)) : list (member S) := flat_map (fun e => match e with Dropped m => [m] | _ => [] end) h.
(** whose code runs *)
Definition who (e : happening S) : option nat :=
  match e with
  | AskedMid m _ | Called m _ _ _ | Overridden m _ _ _ | Dropped m => Some (m_name m)
  | WarnedOf _ _ => None
  end.
(** somebody is registered under [k] *)
Definition registers (k : list byte) (e : happening S) : Prop := exists m, e = AskedMid m (Some k).
End State.

(** A community of Community.v: no state, and it does not override [receive]. *)
Definition stateless (c : community) : member unit :=
  {| m_name := c_tag c;
     m_get_mid := fun s => (s, Some (c_mid c));
     m_on_receive := fun h d a s => (s, c_on_receive c h d a);
     m_receive := None;
     m_drop := fun s => s |}.
Definition as_effect (e : happening unit) : list effect :=
  match e with
  | Called m h d a => [Handled (m_name m) h d a]
  | WarnedOf w a => [Warned w a]
  | _ => []
  end.
