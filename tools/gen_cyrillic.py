#!/usr/bin/env python3
"""Writes rocq/theories/CyrDict.v from translit/cyrillic/dict.json of the repository.

usage: gen_cyrillic.py /repo/translit/cyrillic/dict.json > rocq/theories/CyrDict.v
"""
import json
import sys


def quote(s):
    return 'lit "' + s.replace('"', '""') + '"'


def main():
    d = json.load(open(sys.argv[1], encoding='utf-8'))
    print('(** translit/cyrillic/dict.json: the member tocyrillic of every country, in the order')
    print('    of the file. Generated by tools/gen_cyrillic.py. *)')
    print('From Coq Require Import String.')
    print('From Verif Require Import GoBase.')
    print()
    names = []
    for country in d:
        print('Definition cyr_%s : list (bytes * bytes) := [' % country)
        entries = ['  (%s, %s)' % (quote(a), quote(b)) for a, b in d[country]['tocyrillic'].items()]
        print(';\n'.join(entries))
        print('].')
        names.append('(%s, cyr_%s)' % (quote(country), country))
    print()
    print('Definition cyr_dict : list (bytes * list (bytes * bytes)) := [')
    print('  ' + ';\n  '.join(names))
    print('].')


main()
