#!/usr/bin/env python3
"""Transcribes the declaration tables of /repo (enum macros, bitflag_value! structs and the
identify_tag table) into rocq/theories/ModelEnums.v, ModelSchemas.v and ModelTags.v."""
import re, sys, os
REPO = '/repo/'
OUT = os.path.join(os.path.dirname(os.path.abspath(__file__)), '..', 'rocq', 'theories')

def unescape(s):
    s = re.sub(r'\\\n\s*', '', s)
    assert '\\' not in s, s
    assert all(ord(c) < 128 for c in s)
    return s

def coqstr(s):
    return '"' + s.replace('"', '""') + '"'

def snake(n):
    return re.sub(r'(?<!^)(?=[A-Z])', '_', n).lower()

ENUM_FILES = [
 'src/emv/tlv_parsing/mod.rs', 'src/emv/terminal_type.rs', 'src/emv/transaction_type.rs',
 'src/emv/pos_entry_mode.rs', 'src/emv/authorisation_response_code.rs', 'src/emv/cv_rule/cv_method.rs',
 'src/emv/cv_rule/cvm_condition.rs', 'src/emv/cvm_results.rs', 'src/emv/ccd/cvr.rs', 'src/emv/ccd/cci.rs',
 'src/non_emv/service_code.rs']

def num(l):
    return int(l.replace('_', ''), 0)

out = ['''(** GENERATED by tools/gen.py from the enum macro invocations of /repo.

    Each enum becomes an inductive type; [X_try_from] models the [TryFrom]/[From] impl
    generated by the macros (src/macros.rs:29-39, 89-95, 145-155): the [match] on the
    listed patterns in order; [X_to_u8] models [From<X> for u8] (src/macros.rs:157-161);
    [X_text] models [Display] (src/macros.rs:41-48 etc.). *)

From Coq Require Import NArith List String Bool.
From Verif Require Import Base.
Import ListNotations.
Local Open Scope N_scope.
''']
enum_re = re.compile(r'(enum_(?:no_)?repr_(?:in)?fallible)! \{\n(?:///[^\n]*\n)*#\[derive[^\n]*\n(?:///[^\n]*\n)*pub enum (\w+): (&?\w+)(?:, ParseError, \{ \|_\| ParseError::(\w+) \})? \{\n(.*?)\n\}\n\}', re.S)
for f in ENUM_FILES:
    src = open(REPO + f).read()
    found = 0
    for m in enum_re.finditer(src):
        found += 1
        macro, name, ty, err, body = m.groups()
        l0 = src[:m.start(2)].count('\n') + 1
        l1 = src[:m.end(5)].count('\n') + 2
        entries = []
        pos = 0
        ent = re.compile(r'\s*(\w+)\s*=\s*([^=]*?)\s*=>\s*"((?:[^"\\]|\\.|\\\n)*)",', re.S)
        while pos < len(body) and body[pos:].strip():
            e = ent.match(body, pos)
            assert e, (name, body[pos:pos+100])
            entries.append((e.group(1), [p.strip() for p in e.group(2).split('|')], unescape(e.group(3))))
            pos = e.end()
        sn = snake(name)
        out.append(f'(** ** [{name}] *)\n')
        out.append(f'(* {f}:{l0}-{l1} ([{macro}!]) *)')
        out.append(f'Inductive {sn} : Type :=')
        for v, _, _ in entries:
            out.append(f'| {name}_{v}')
        out[-1] += '.\n'
        infallible = macro.endswith('infallible')
        isstr = ty == '&str'
        argt = 'str' if isstr else 'N'
        rt = sn if infallible else f'res {sn}'
        out.append(f'(* {f}:{l0}-{l1}: conversion from {"text" if isstr else "u8"} *)')
        out.append(f'Definition {sn}_{"from" if infallible else "try_from"} (v : {argt}) : {rt} :=')
        closed = False
        for v, pats, _ in entries:
            val = f'{name}_{v}' if infallible else f'Ok {name}_{v}'
            if pats == ['_']:
                out.append(f'  {val}.\n'); closed = True
            else:
                if isstr:
                    conds = ' || '.join(f'leqb v (lit {p})' for p in pats)
                else:
                    conds = ' || '.join(f'(v =? {num(p)})' for p in pats)
                out.append(f'  if {conds} then {val} else')
        if not closed:
            assert not infallible
            out.append(f'  Err {err}.\n')
        if '_no_' not in macro:
            out.append(f'(* {f}:{l0}-{l1}: discriminants *)')
            out.append(f'Definition {sn}_to_u8 (x : {sn}) : N :=\n  match x with')
            for v, pats, _ in entries:
                out.append(f'  | {name}_{v} => {num(pats[0])}')
            out.append('  end.\n')
        out.append(f'(* {f}:{l0}-{l1}: display texts *)')
        out.append(f'Definition {sn}_text (x : {sn}) : str :=\n  match x with')
        for v, _, t in entries:
            out.append(f'  | {name}_{v} => lit {coqstr(t)}')
        out.append('  end.\n')
    assert found == src.count('_fallible! {') + src.count('_infallible! {'), (f, found)
open(OUT + '/ModelEnums.v', 'w').write('\n'.join(out))

# ---- bit field declarations
FLAG_FILES = [('src/emv/tvr.rs','tvr'), ('src/emv/tsi.rs','tsi'), ('src/emv/terminal_capabilities.rs','termcap'),
  ('src/emv/additional_terminal_capabilities.rs','addtermcap'), ('src/emv/ccd/cvr.rs','cvr'), ('src/emv/ccd/cci.rs','cci'),
  ('src/emv/cv_rule/mod.rs','cv_rule')]
TY = {'bool':'TBool','u8':'TU8','GenAc2ApplicationCryptogramType':'TGenAc2','GenAc1ApplicationCryptogramType':'TGenAc1',
  'FormatCode':'TFormatCode','CryptogramVersion':'TCryptogramVersion','OptionalCvMethod':'TCvMethod','OptionalCvmCondition':'TCvmCondition'}
out = ['''(** GENERATED by tools/gen.py from the [bitflag_value!] invocations of /repo.

    One [schema] per struct: the declared byte count and, per byte block, the byte
    number and the field declarations (name, type, mask, shift, severity, text). *)

From Coq Require Import NArith List String Bool.
From Verif Require Import Base ModelBitflag.
Import ListNotations.
Local Open Scope N_scope.
Local Open Scope string_scope.
''']
for f, sn in FLAG_FILES:
    src = open(REPO + f).read()
    m = re.search(r'bitflag_value! \{\n#\[derive[^\n]*\npub struct (\w+): (\d+) \{\n(.*?)\n\}\n\}', src, re.S)
    name, count, body = m.groups()
    l0 = src[:m.start(1)].count('\n') + 1
    l1 = src[:m.end(3)].count('\n') + 2
    out.append(f'(* {f}:{l0}-{l1} ([{name}]) *)')
    out.append(f'Definition {sn}_schema : schema :=')
    body = re.sub(r'^\s*//.*$', '', body, flags=re.M)
    blocks = re.findall(r'\t(\d) \{(.*?)\}(?=\s*(?:\d \{|$))', body, re.S)
    assert len(blocks) == int(count), (f, blocks)
    bl = []
    for bn, fb in blocks:
        fs = []
        pos = 0
        ent = re.compile(r'\s*pub (\w+): (\w+) =\s*(\(?)(0b[01_]+)(?: >> (\d))?\)?\s*=>\s*(?:\((\w+), )?"((?:[^"\\]|\\.|\\\n)*)"\)?,', re.S)
        while fb[pos:].strip():
            e = ent.match(fb, pos)
            assert e, (f, fb[pos:pos+200])
            fn, ty, _, mask, sh, sev, txt = e.groups()
            fs.append(f'      mkField {coqstr(fn)} {TY[ty]} {num(mask)} {"(Some %s)" % sh if sh else "None"} {"Sev" + (sev or "Normal")}\n        {coqstr(unescape(txt))}')
            pos = e.end()
        bl.append(f'    ({bn}, [\n' + ';\n'.join(fs) + '])' if fs else f'    ({bn}, [])')
    out.append(f'  mkSchema {count} [\n' + ';\n'.join(bl) + '\n  ].\n')
open(OUT + '/ModelSchemas.v', 'w').write('\n'.join(out))

# ---- identify_tag
f = 'src/emv/tlv_parsing/process_emv_tag.rs'
src = open(REPO + f).read()
out = ['''(** GENERATED by tools/gen.py from [identify_tag] of /repo. *)

From Coq Require Import NArith List String Bool.
From Verif Require Import Base.
Import ListNotations.
Local Open Scope N_scope.

(* src/emv/tlv_parsing/process_emv_tag.rs:32-154: the arms of the [match], in order. *)
Definition tag_table : list (list N * string) := [''']
rows = re.findall(r'^\t\t\[((?:0x[0-9A-F]{2}(?:, )?)+)\] => Some\("([^"\\]*)"\),$', src, re.M)
assert len(rows) == 154 - 33, len(rows)
out.append(';\n'.join('  ([%s], %s%%string)' % ('; '.join(str(int(x, 16)) for x in t.split(', ')), coqstr(n)) for t, n in rows))
out.append('''].

Fixpoint lookup_tag (t : list N) (tbl : list (list N * string)) : option string :=
  match tbl with
  | [] => None
  | (k, n) :: rest => if leqb t k then Some n else lookup_tag t rest
  end.

(* src/emv/tlv_parsing/process_emv_tag.rs:31-156 *)
Definition identify_tag (t : list N) : option str := option_map lit (lookup_tag t tag_table).
''')
open(OUT + '/ModelTags.v', 'w').write('\n'.join(out))
