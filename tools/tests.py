#!/usr/bin/env python3
"""Write rocq/theories/Tests.v: the unit tests of the repository, run against the model.

The tests of the TLV parsers are translated from the Rust text, the others are in
tools/tests_by_hand.txt.
"""
import re

SRC = '/repo/src/emv/tlv_parsing/'
TOK = re.compile(r'\s+|//[^\n]*|0b[01_]+|0x[0-9A-Fa-f_]+|\d+|"(?:[^"\\]|\\.|\\\n)*"|[A-Za-z_]\w*(?:::[A-Za-z_]\w*)*!?|.', re.S)


class P:
    def __init__(self, s):
        self.t = [x for x in TOK.findall(s) if not x.isspace() and not x.startswith('//')]
        self.i = 0

    def peek(self):
        return self.t[self.i]

    def next(self):
        self.i += 1
        return self.t[self.i - 1]

    def eat(self, x):
        y = self.next()
        assert x == y, (x, y, self.t[self.i - 5:self.i + 5])

    def items(self, close):
        out = []
        while self.peek() != close:
            out.append(self.expr())
            if self.peek() == ',':
                self.next()
        self.eat(close)
        return out

    def fields(self):
        self.eat('{')
        out = {}
        while self.peek() != '}':
            k = self.next()
            self.eat(':')
            out[k] = self.expr()
            if self.peek() == ',':
                self.next()
        self.eat('}')
        return out

    def expr(self):
        e = self.atom()
        while self.i < len(self.t) and self.peek() == '.':
            self.next()
            assert self.next() == 'as_slice'
            self.eat('(')
            self.eat(')')
        return e

    def atom(self):
        x = self.next()
        if x == '[':
            return '[' + '; '.join(self.items(']')) + ']'
        if x == 'vec!':
            self.eat('[')
            return '[' + '; '.join(self.items(']')) + ']'
        if x == '(':
            return '(' + ', '.join(self.items(')')) + ')'
        if x[0].isdigit():
            return str(int(x.replace('_', ''), 0))
        if x[0] == '"':
            s = re.sub(r'\\\n\s*', '', x[1:-1])
            parts = re.split(r'\\u\{([0-9a-f]+)\}', s)
            out = ['lit "%s"' % p if k % 2 == 0 else '[0x%s]' % p for k, p in enumerate(parts)]
            return '(' + ' ++ '.join(out) + ')'
        if x == 'RawEmvBlock::default':
            self.eat('(')
            self.eat(')')
            return '[]'
        if x == 'RawEmvBlock':
            return self.fields()['nodes']
        if x == 'RawEmvNode':
            f = self.fields()
            return 'RawNode %s %s' % (f['tag'], f['child_block'])
        if x == 'RawEmvTag':
            f = self.fields()
            return '(mkRawTag %s %s %s %s)' % (f['tag'], f['class'], f['data_object_type'], f['data'])
        if x == 'EmvData::Masked':
            return 'Masked'
        if x in ('EmvData::Normal', 'Ok', 'Err'):
            self.eat('(')
            [y] = self.items(')')
            return '(%s %s)' % (x.split('::')[-1], y)
        if x.startswith('TagClass::'):
            return x.replace('::', '_')
        if x.startswith(('DataObjectType::', 'TlvFormat::', 'ParseError::')):
            return x.split('::')[1]
        raise ValueError(x)


def calls(file, parse):
    text = open(SRC + file + '.rs').read()
    first = text[:text.index('#[cfg(test)]')].count('\n') + 1
    out, n = [], 0
    for m in re.finditer(r'#\[test\]\s*fn (\w+)\(\) \{\n(.*?)\n\t\}\n', text, re.S):
        name, body = m.groups()
        k = body.find('test_parse(')
        if k < 0 or 'let ' in body:
            continue
        p = P(body[k + len('test_parse('):])
        data, expected = p.items(')')
        line = text[:m.start(1)].count('\n') + 1
        out.append('(* src/emv/tlv_parsing/%s.rs:%d *)\nExample test_%s_%s : %s p64 [42] %s = %s.\nProof. vm_compute. reflexivity. Qed.'
                   % (file, line, file, name, parse, data, expected))
        n += 1
    return out


out = ['(** The unit tests of the repository, run against the model.  They test the model, they prove nothing',
       '    about other inputs.  Written by tools/tests.py. *)', '']
out.append(open('/verif/tools/tests_by_hand.txt').read())
out += ['(** ** src/emv/tlv_parsing *)', '']
out += calls('ber_tlv', 'ber_parse') + calls('ingenico_tlv', 'ingenico_parse') + calls('auto_tlv', 'auto_parse')
open('/verif/rocq/theories/Tests.v', 'w').write('\n'.join(out) + '\n')
