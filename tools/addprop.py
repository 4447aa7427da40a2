#!/usr/bin/env python3
"""Append properties to properties.jsonl: addprop.py < json list of [id,title,statement,quantifier,why,anchors]"""
import json,sys,os
root=os.path.dirname(os.path.dirname(os.path.abspath(__file__)))
f=root+"/properties.jsonl"
have={json.loads(l)["id"] for l in open(f)}
with open(f,"a") as o:
    for i,t,s,q,w,a in json.load(sys.stdin):
        assert i not in have,i
        o.write(json.dumps(dict(id=i,title=t,statement=s,quantifier=q,why_tests_cant=w,anchors=a))+"\n")
